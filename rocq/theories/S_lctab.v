(* S_lctab.v: what survives the conversion of a light curve. *)
From Coq Require Import String QArith List.
From Verif Require Import M_lc M_lctab.
Import ListNotations.
Open Scope Q_scope.

(* the attributes that are not arrays of values or errors *)
Definition same_frame (f g : lcfull) : Prop :=
  st_time (f_st g) = st_time (f_st f) /\ st_dt (f_st g) = st_dt (f_st f) /\ f_gti g = f_gti f /\ f_mjdref g = f_mjdref f /\
  f_instr g = f_instr f /\ f_mission g = f_mission f /\ f_dist g = f_dist f.
(* the errors are kept beside values of the same kind *)
Definition errors_match (s : lcstate) : Prop :=
  match st_counts s with
  | Some _ => st_counts_err s <> None \/ st_rate_err s = None
  | None => st_counts_err s = None
  end.
(* counts and rates that are both stored agree *)
Definition agree (s : lcstate) : Prop := forall c r, st_counts s = Some c -> st_rate s = Some r -> Forall2 (fun x y => y == x / st_dt s) c r.
(* the two lists are equal numbers *)
Definition qlist_eq (a b : option (list Q)) : Prop :=
  match a, b with Some x, Some y => Forall2 Qeq x y | None, None => True | _, _ => False end.
(* values in the light curve *)
Definition has_values (s : lcstate) (n : nat) : Prop := match st_counts s, st_rate s with Some c, _ => List.length c = n | None, Some r => List.length r = n | _, _ => False end.
