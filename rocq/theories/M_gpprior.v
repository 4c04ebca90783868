(* M_gpprior.v: model of the prior of the Gaussian process models (stingray/modeling/gpmodeling.py get_prior). *)
From Verif Require Import Np.
From Coq Require Import List String.
Import ListNotations.

Section Prior.
(* distributions, and the values drawn *)
Context {D V : Type}.
(* An entry of prior_dict: a distribution of tensorflow_probability, a prior of jaxns with its own name, something else *)
Inductive given := Dist (d : D) | Named (name : string) (d : D) | Other.
Fixpoint find_entry (k : string) (d : list (string * given)) : option given :=
  match d with [] => None | (n, g) :: r => if String.eqb n k then Some g else find_entry k r end.

(* stingray/modeling/gpmodeling.py:485-495 prior_model: what the generator yields, in order, as pairs of name and distribution, and
   the error that ends it.  jaxns, jax and tensorflow_probability are installed (476-483). *)
Fixpoint yielded (params : list string) (priors : list (string * given)) : list (string * D) * result unit :=
  match params with
  | [] => ([], Ok tt)
  | k :: r =>
    match find_entry k priors with
    | None => ([], Err KeyError)
    | Some (Dist d) => let (l, e) := yielded r priors in ((k, d) :: l, e)
    | Some (Named n d) => let (l, e) := yielded r priors in ((n, d) :: l, e)
    | Some Other => ([], Err ValueError)
    end
  end.
(* the tuple returned: [draw] is the value jaxns sends back for a name and a distribution (lines 489, 491) *)
Definition prior_model (draw : string -> D -> V) (params : list string) (priors : list (string * given)) : result (list V) :=
  let (l, e) := yielded params priors in
  match e with Ok _ => Ok (map (fun p => draw (fst p) (snd p)) l) | Err x => Err x end.
End Prior.
Arguments given : clear implicits.
