(* T_bracket.v: the search of an interval in the template fit (C166). *)
From Verif Require Import Np Lib Cplx M_fourier M_fftfit S_bracket P_bracket.
From Coq Require Import Reals List Lia Lra.
Import ListNotations.
Open Scope R_scope.

Theorem C166_bracket : forall fuel f x step r,
  bracket fuel f (rsign (f x)) step x x = Ok r -> first_change f x step r.
Proof. exact bracket_first. Qed.
Print Assumptions C166_bracket.
Theorem C166_bracket_found : forall f x step r,
  first_change f x step r -> exists fuel, bracket fuel f (rsign (f x)) step x x = Ok r.
Proof. exact first_bracket. Qed.
Print Assumptions C166_bracket_found.
(* the function x - 1/2 from 0 in steps of 1, and x + 1/2 where the change is below *)
Example C166_bracket_example :
  first_change (fun x => x - 1 / 2) 0 1 1 /\ first_change (fun x => x + 1 / 2) 0 1 (-1) /\
  ~ first_change (fun x => x + 1 / 2) 0 1 1.
Proof.
  assert (S : forall a b, same_sign a b -> (0 < a -> 0 < b)) by (intros a b ((H & _) & _); exact H).
  split; [|split].
  - exists 1%nat. split; [|split].
    + intros j Hj. assert (j = 0)%nat by lia. subst j. cbn. unfold same_sign. split; split; split; lra.
    + intros H. apply S in H; lra.
    + left. cbn. lra.
  - exists 1%nat. split; [|split].
    + intros j Hj. assert (j = 0)%nat by lia. subst j. cbn. unfold same_sign. split; split; split; lra.
    + intros ((_ & H) & _). lra.
    + right. cbn. split; [lra|]. unfold same_sign. split; split; lra.
  - intros (k & _ & H & _). apply H. unfold same_sign. split; split; lra.
Qed.
(* a template of another length *)
Theorem C166_length_error : forall fuel brentq p t,
  length t <> length p -> taylor_fftfit fuel brentq p t = Err IndexError.
Proof. exact length_error. Qed.
Print Assumptions C166_length_error.
Example C166_length_example : length [1; 2] <> length [1; 2; 3].
Proof. discriminate. Qed.
