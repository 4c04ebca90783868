(* P_timmer3.v: which inputs of the simulated light curves are refused; means of the Poisson noise. *)
From Verif Require Import Np Lib Cplx M_fourier S_fourier M_espec M_timmer S_timmer P_timmer P_timmer2.
From Coq Require Import ZArith QArith Qreals Reals List Bool Arith Lra Lia.
Import ListNotations.
Open Scope R_scope.

Lemma timmer_no_powers m rms n red cut g1 g2 : timmerkoenig m rms n red cut [] g1 g2 = Err IndexError.
Proof.
  reflexivity.
Qed.
Lemma timmer_no_bins m rms n red cut pds g1 g2 : pds <> [] -> (n * red = 0)%nat -> timmerkoenig m rms n red cut pds g1 g2 = Err ValueError.
Proof.
  intros H Z. unfold timmerkoenig. destruct pds; [congruence|]. unfold find_inverse. rewrite Z. reflexivity.
Qed.
Lemma poisson_ok l : Forall2 (fun x y => match x with Some v => y = Some (Rmax 0 v) | None => y = None end) l (poisson_means l).
Proof.
  induction l as [|[v|] l IH]; cbn [poisson_means map]; [constructor| |]; constructor; try exact IH; [|reflexivity].
  f_equal. unfold Rmax. destruct (Rlt_dec v 0), (Rle_dec 0 v); lra.
Qed.
Lemma relativistic_negative dt t1 t2 t3 p1 p2 rise decay : (t1 < t2)%Q -> (t2 < t3)%Q -> p1 < p2 -> (py_int (t1 / dt) < 0)%Z ->
  relativistic_ir dt t1 t2 t3 p1 p2 rise decay = Err ValueError.
Proof.
  intros A B C D. unfold relativistic_ir. replace (qlt t1 t2) with true by (symmetry; apply qlt_t; exact A). replace (qlt t2 t3) with true by (symmetry; apply qlt_t; exact B).
  cbn [negb]. destruct (Rlt_dec p1 p2); [|contradiction]. replace (_ <? 0)%Z with true; [reflexivity|]. symmetry. apply Z.ltb_lt. exact D.
Qed.
