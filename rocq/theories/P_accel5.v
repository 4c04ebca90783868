(* P_accel5.v: the failures and empty results of the search for accelerated pulsations, and of the setup of a sinc fit. *)
From Verif Require Import Np Lib M_utils M_seg M_base M_stats M_espec Cplx M_fourier M_accel M_sinc S_fourier S_accel P_dft P_norm P_accel P_accel2 P_accel3.
From Coq Require Import QArith Qreals Lqa Reals List Arith ZArith Permutation Lra Lia.
Import ListNotations.
Open Scope R_scope.

Lemma interbin_lengths argsort freq ft last : get_last freq = Ok last -> 0 <= last -> length ft <> length freq ->
  interbin_fft argsort freq ft = Err ValueError.
Proof.
  intros L P N. unfold interbin_fft. rewrite L. cbn [bind]. unfold rneg. destruct (Rlt_dec last 0); [lra|]. cbn [bind].
  destruct freq as [|f freq]; [discriminate|]. cbn [get nth_error bind]. rewrite L. cbn [bind].
  unfold linspace. replace (2 * Z.of_nat (length (f :: freq)) - 1 <? 0)%Z with false by (symmetry; apply Z.ltb_ge; simpl length; lia).
  cbn [bind]. rewrite (proj2 (Nat.eqb_neq _ _) N). reflexivity.
Qed.
Lemma convolve_nolevel argsort interbin A mask rj out : convolve_with_response argsort interbin A None mask rj = Ok out -> out = [].
Proof.
  unfold convolve_with_response. destruct (if interbin then _ else _) as [r|]; [|discriminate]. cbn [bind]. intros E. injection E as <-.
  induction (combine (fst r) (map cnorm2 (snd r))) as [|p l IH]; [reflexivity|exact IH].
Qed.
Lemma map_result_empty {A B} (f : A -> result (list B)) l : forall r, (forall a b, In a l -> f a = Ok b -> b = []) -> map_result f l = Ok r -> Forall (fun b => b = []) r.
Proof.
  induction l as [|a l IH]; intros r H E; simpl in E; [injection E as <-; constructor|].
  destruct (f a) as [b|] eqn:Ea; [|discriminate]. cbn [bind] in E. destruct (map_result f l) as [t|]; [|discriminate]. cbn [bind] in E. injection E as <-.
  constructor; [apply (H a b); [left; reflexivity|exact Ea]|]. apply (IH t); [|reflexivity]. intros x y I. apply H. right. exact I.
Qed.
(* no detection level (the isf of scipy gave nan): no candidates, whatever order the results come back in *)
Lemma nolevel argsort pool interbin A responses mask out : (forall l, Permutation (pool l) l) ->
  calculate_all argsort pool interbin A responses mask None = Ok out -> out = [].
Proof.
  intros PL. unfold calculate_all. destruct (map_result _ _) as [res|] eqn:E; [|discriminate]. cbn [bind]. intros Q. injection Q as <-.
  apply map_result_empty in E; [|intros a b _; apply convolve_nolevel].
  assert (F : Forall (fun b : list cand => b = []) (pool res)). { apply Forall_forall. intros x I. rewrite Forall_forall in E. apply E. eapply Permutation_in; [apply PL|exact I]. }
  clear E. induction F as [|x l X F IH]; [reflexivity|]. simpl. rewrite X. exact IH.
Qed.
(* no photons: no candidates *)
Lemma nophotons fs fc sf isf argsort pool numba cast rescale times signal dz fmin fmax gti zmax ref interbin pv t0 t1 tl fg :
  get times 1 = Ok t1 -> get times 0 = Ok t0 -> get_last times = Ok tl -> fill_gaps numba cast times signal gti (t1 - t0)%Q = Ok fg ->
  (qsum signal <= 0)%Q ->
  accelsearch fs fc sf isf argsort pool numba cast rescale times signal dz fmin fmax gti zmax ref interbin pv =
    match range_z zmax dz with [] => Err ValueError | _ => Ok [] end.
Proof.
  intros E1 E0 EL EF S. unfold accelsearch. rewrite E1, E0, EL. cbn [bind]. rewrite EF. cbn [bind]. destruct fg as [[filled expo] start].
  destruct (range_z zmax dz) as [|z zs]; [reflexivity|]. destruct (Rlt_dec 0 (Q2R (qsum signal))) as [G|G].
  - exfalso. apply Qle_Rle in S. replace (Q2R 0) with 0 in S by (unfold Q2R; simpl; lra). lra.
  - destruct filled; reflexivity.
Qed.
Lemma setup_zero dflt fixed amp mean width : fit_sinc_setup dflt fixed amp mean width (Some 0) = Err ZeroDivisionError.
Proof. unfold fit_sinc_setup. destruct (Req_EM_T 0 0); [reflexivity|contradiction]. Qed.
Lemma width_zero x a m : sinc_square_model x a m 0 = None /\ sinc_square_deriv x a m 0 = None.
Proof. unfold sinc_square_model, sinc_square_deriv. destruct (Req_EM_T 0 0); [split; reflexivity|contradiction]. Qed.
