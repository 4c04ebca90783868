(* T_mtrebin.v: property theorems about the rebinning of multitaper spectra (C225). *)
From Verif Require Import Np Lib S_gti S_seg S_utils M_gti M_seg M_utils P_seg_regions P_seg_cut P_rebin P_rebin2 M_mtrebin S_mtrebin P_mtrebin.
From Coq Require Import ZArith QArith List Bool Lia Lqa.
Import ListNotations.
Open Scope Q_scope.
Theorem C225_rebin_partial : forall (s : mtspec) (df f : option Q) (w x0 xl : Q) (k : nat) (l : list Q), whole s x0 xl -> new_width s df f w -> t_dof s = RealDof l ->
  length l = length (t_freq s) -> 0 < t_df s -> t_df s <= w -> widths_at_most w (t_freq s) -> (0 < k)%nat -> inject_Z (Z.of_nat k) * w <= xl + t_df s - x0 -> xl + t_df s -
  x0 < inject_Z (Z.of_nat k + 1) * w -> let xe := t_freq s ++ [xl + t_df s] in exists (s' : mtspec) (l' : list Q) (b : Q), mt_rebin s df f MMean = Ok s' /\ t_df s' = w /\
  middles x0 (t_df s) w k (t_freq s') /\ averaged xe x0 w k (t_power s) (t_power s') /\ err_squares xe x0 w k (t_err s) (t_err s') /\ averaged xe x0 w k (t_unnorm s)
  (t_unnorm s') /\ averaged xe x0 w k (t_norm_power s) (t_norm_power s') /\ t_dof s' = RealDof l' /\ averaged xe x0 w k l l' /\ b == old_bins xe (left_edge x0 w 0)
  (left_edge x0 w 1) /\ t_m s' = inject_Z (rint (b * t_m s)).
Proof. exact @whole_rebin. Qed.
Print Assumptions C225_rebin_partial.
Theorem C225_no_dof_error : forall (s : mtspec) (df f : option Q) (w x0 xl : Q) (k : nat), whole s x0 xl -> new_width s df f w -> t_dof s = NoDof -> 0 < t_df s -> t_df s
  <= w -> widths_at_most w (t_freq s) -> (0 < k)%nat -> inject_Z (Z.of_nat k) * w <= xl + t_df s - x0 -> xl + t_df s - x0 < inject_Z (Z.of_nat k + 1) * w -> mt_rebin s df f
  MMean = Err IndexError.
Proof. exact @no_dof_index. Qed.
Print Assumptions C225_no_dof_error.
Theorem C225_no_dof_any_error : forall (s : mtspec) (df f : option Q) (method : rebin_method), t_dof s = NoDof -> exists e : exn, mt_rebin s df f method = Err e.
Proof. exact @no_dof. Qed.
Print Assumptions C225_no_dof_any_error.
Theorem C225_no_width_error : forall (s : mtspec) (method : rebin_method), mt_rebin s None None method = Err ValueError.
Proof. exact @no_width. Qed.
Print Assumptions C225_no_width_error.
Theorem C225_finer_error : forall (s : mtspec) (df f : option Q) (w : Q) (method : rebin_method), t_freq s <> [] -> new_width s df f w -> 0 < t_df s -> w < t_df s ->
  mt_rebin s df f method = Err ValueError.
Proof. exact @finer. Qed.
Print Assumptions C225_finer_error.
(* spectra of the Lomb-Scargle method *)
Theorem C225_lomb_scargle_refuted : exists s, whole s 1 4 /\ t_df s = 1 /\ mt_rebin s (Some 2) None MMean = Err IndexError.
Proof.
  exists (mkMt [1; 2; 3; 4] [1; 1; 1; 1] [1; 1; 1; 1] [1; 1; 1; 1] [1; 1; 1; 1] NoDof 1 1). split; [|split; reflexivity].
  split; [apply inc_ss; repeat constructor; reflexivity|]. repeat split.
Qed.
Print Assumptions C225_lomb_scargle_refuted.
(* fourteen degrees of freedom everywhere, as integers: fewer after rebinning *)
Theorem C225_integer_dof_refuted : exists s s' l', t_dof s = IntDof [14; 14; 14; 14; 14] /\ whole s 1 5 /\ mt_rebin s None (Some (5 # 4)) MMean = Ok s' /\
  t_dof s' = RealDof l' /\ exists v, nth_error l' 0 = Some v /\ v == 68 # 5.
Proof.
  exists (mkMt [1; 2; 3; 4; 5] [1; 1; 1; 1; 1] [1; 1; 1; 1; 1] [1; 1; 1; 1; 1] [1; 1; 1; 1; 1] (IntDof [14; 14; 14; 14; 14]) 1 1).
  eexists _, _. split; [reflexivity|]. split; [split; [apply inc_ss; repeat constructor; reflexivity|]; repeat split|].
  split; [vm_compute; reflexivity|]. split; [reflexivity|]. eexists. split; reflexivity.
Qed.
Print Assumptions C225_integer_dof_refuted.
Example C225_example : let s := mkMt [1; 2; 3; 4; 5] [1; 2; 3; 4; 5] [1; 1; 1; 1; 1] [1; 1; 1; 1; 1] [1; 1; 1; 1; 1] (RealDof [14; 14; 14; 14; 14]) 1 1 in
  whole s 1 5 /\ new_width s None (Some 2) (2 * 1) /\ widths_at_most (2 * 1) (t_freq s) /\
  inject_Z (Z.of_nat 2) * (2 * 1) <= 5 + 1 - 1 /\ 5 + 1 - 1 < inject_Z (Z.of_nat 2 + 1) * (2 * 1) /\
  exists s', mt_rebin s None (Some 2) MMean = Ok s' /\ Forall2 Qeq (t_power s') [3 # 2; 7 # 2] /\ Forall2 Qeq (t_freq s') [3 # 2; 7 # 2] /\ t_m s' == 2.
Proof.
  cbv zeta. split; [split; [apply inc_ss; repeat constructor; reflexivity|]; repeat split|]. split; [left; exists 2; split; reflexivity|].
  split; [intros [|[|[|[|[|i] ] ] ] ] a b Ea Eb; cbn in Ea, Eb; try discriminate; try (injection Ea as <-; injection Eb as <-; discriminate); destruct i; discriminate|].
  split; [discriminate|]. split; [reflexivity|]. eexists. split; [vm_compute; reflexivity|]. split; [|split]; repeat constructor.
Qed.
