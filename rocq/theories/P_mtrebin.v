(* Proofs about the rebinning of multitaper spectra *)
From Verif Require Import Np Lib S_gti S_seg S_utils M_gti M_seg M_utils P_seg_regions P_seg_cut P_rebin P_rebin2 M_mtrebin S_mtrebin.
From Coq Require Import ZArith QArith List Bool Lia Lqa.
Import ListNotations.
Open Scope Q_scope.

Definition new_width (s : mtspec) (df f : option Q) (w : Q) : Prop :=
  (exists g, f = Some g /\ w = g * t_df s) \/ (f = None /\ df = Some w).
(* a spectrum with frequencies from x0 to xl, all arrays as long as these *)
Definition whole (s : mtspec) (x0 xl : Q) : Prop :=
  increasing (t_freq s) /\ nth_error (t_freq s) 0 = Some x0 /\ nth_error (t_freq s) (length (t_freq s) - 1) = Some xl /\
  length (t_power s) = length (t_freq s) /\ length (t_err s) = length (t_freq s) /\
  length (t_unnorm s) = length (t_freq s) /\ length (t_norm_power s) = length (t_freq s).

Section One.
Variables (x : list Q) (d w x0 xl : Q) (k : nat).
Hypotheses (Hi : increasing x) (H0 : nth_error x 0 = Some x0) (Hl : nth_error x (length x - 1) = Some xl)
  (Hd : 0 < d) (Hw : d <= w) (Hx : widths_at_most w x) (Hk : (0 < k)%nat)
  (L1 : inject_Z (Z.of_nat k) * w <= xl + d - x0) (L2 : xl + d - x0 < inject_Z (Z.of_nat k + 1) * w).
Lemma one_array y yerr : length y = length x -> length (errors_of y yerr) = length y ->
  exists out, rebin_data idq idq x y w yerr MMean (DxScalar d) = Ok out /\
    averaged (x ++ [xl + d]) x0 w k y (r_y out) /\ middles x0 d w k (r_x out) /\ err_squares (x ++ [xl + d]) x0 w k (errors_of y yerr) (r_err2 out) /\
    exists s, r_step out = StepScalar s /\ s == old_bins (x ++ [xl + d]) (left_edge x0 w 0) (left_edge x0 w 1).
Proof.
  intros Ly Le.
  assert (W : widths_of x (DxScalar d) [d]).
  { right. split; [lra|reflexivity]. }
  assert (I : forall e, In e [d] -> e <= w) by (intros e [<-|[]]; exact Hw).
  assert (Pw : 0 < w) by lra.
  pose proof (rebin_main x y w yerr true (DxScalar d) [d] x0 xl d d k Hi Ly Le W I Hx Pw Hd H0 Hl eq_refl eq_refl Hk L1 L2) as M.
  cbv zeta in M. destruct M as (out & E & Lx & Lv & Lr & B & St & Sc). exists out. split; [exact E|].
  split; [|split; [|split]].
  - split; [exact Lv|]. intros i Hik. destruct (B i Hik) as (xm & v & e & _ & Ev & _ & _ & Hv & _). exists v. split; [exact Ev|exact Hv].
  - split; [exact Lx|]. intros i Hik. destruct (B i Hik) as (xm & v & e & Ex & _ & _ & Hm & _). exists xm. split; [exact Ex|exact Hm].
  - split; [exact Lr|]. intros i Hik. destruct (B i Hik) as (xm & v & e & _ & _ & Ee & _ & _ & He). exists e. split; [exact Ee|exact He].
  - destruct (Sc eq_refl) as (s & Es). exists s. split; [exact Es|]. rewrite Es in St. exact St.
Qed.
End One.

Lemma whole_rebin s df f w x0 xl k l : whole s x0 xl -> new_width s df f w -> t_dof s = RealDof l -> length l = length (t_freq s) ->
  0 < t_df s -> t_df s <= w -> widths_at_most w (t_freq s) -> (0 < k)%nat ->
  inject_Z (Z.of_nat k) * w <= xl + t_df s - x0 -> xl + t_df s - x0 < inject_Z (Z.of_nat k + 1) * w ->
  let xe := t_freq s ++ [xl + t_df s] in
  exists s' l' b, mt_rebin s df f MMean = Ok s' /\ t_df s' = w /\ middles x0 (t_df s) w k (t_freq s') /\
    averaged xe x0 w k (t_power s) (t_power s') /\ err_squares xe x0 w k (t_err s) (t_err s') /\ averaged xe x0 w k (t_unnorm s) (t_unnorm s') /\
    averaged xe x0 w k (t_norm_power s) (t_norm_power s') /\ t_dof s' = RealDof l' /\ averaged xe x0 w k l l' /\
    b == old_bins xe (left_edge x0 w 0) (left_edge x0 w 1) /\ t_m s' = inject_Z (rint (b * t_m s)).
Proof.
  intros (Hi & H0 & Hl & Lp & Le & Lu & Ln) Hn Hd Ll Pd Hw Hx Hk L1 L2 xe.
  destruct (one_array (t_freq s) (t_df s) w x0 xl k Hi H0 Hl Pd Hw Hx Hk L1 L2 (t_power s) (Some (t_err s)) Lp) as (r & Er & Ar & Mr & Qr & b & Eb & Hb); [cbn; congruence|].
  assert (N : forall y, length y = length (t_freq s) -> length (errors_of y None) = length y) by (intros y _; cbn; apply map_length).
  destruct (one_array (t_freq s) (t_df s) w x0 xl k Hi H0 Hl Pd Hw Hx Hk L1 L2 (t_unnorm s) None Lu (N _ Lu)) as (u & Eu & Au & _).
  destruct (one_array (t_freq s) (t_df s) w x0 xl k Hi H0 Hl Pd Hw Hx Hk L1 L2 (t_norm_power s) None Ln (N _ Ln)) as (p & Ep & Ap & _).
  destruct (one_array (t_freq s) (t_df s) w x0 xl k Hi H0 Hl Pd Hw Hx Hk L1 L2 l None Ll (N _ Ll)) as (q & Eq & Aq & _).
  assert (E : mt_rebin s df f MMean = Ok (mkMt (r_x r) (r_y r) (r_err2 r) (r_y u) (r_y p) (RealDof (r_y q)) w (inject_Z (rint (b * t_m s))))).
  { unfold mt_rebin, rebin_dof. rewrite Hd. change (fun v : Q => v) with idq.
    assert (W : match f with Some f0 => Ok (f0 * t_df s) | None => match df with Some d => Ok d | None => Err ValueError end end = Ok w).
    { destruct Hn as [(g & -> & ->)|(-> & ->)]; reflexivity. }
    rewrite W. cbn [bind]. rewrite Er. cbn [bind]. rewrite Eu. cbn [bind]. rewrite Ep. cbn [bind]. rewrite Eq. cbn [bind]. now rewrite Eb. }
  rewrite E. eexists _, (r_y q), b. split; [reflexivity|]. cbn [t_df t_freq t_power t_err t_unnorm t_norm_power t_dof t_m].
  repeat (split; [first [reflexivity|assumption]|]). reflexivity.
Qed.

(* no degrees of freedom: nothing is returned *)
Lemma no_dof s df f method : t_dof s = NoDof -> exists e, mt_rebin s df f method = Err e.
Proof.
  intros H. unfold mt_rebin, rebin_dof. rewrite H.
  destruct (match f with Some f0 => Ok (f0 * t_df s) | None => match df with Some d => Ok d | None => Err ValueError end end) as [w|e]; cbn [bind]; [|eauto].
  do 3 (match goal with |- context [bind ?a _] => destruct a; cbn [bind]; [|eauto] end). eauto.
Qed.
Lemma no_dof_index s df f w x0 xl k : whole s x0 xl -> new_width s df f w -> t_dof s = NoDof ->
  0 < t_df s -> t_df s <= w -> widths_at_most w (t_freq s) -> (0 < k)%nat ->
  inject_Z (Z.of_nat k) * w <= xl + t_df s - x0 -> xl + t_df s - x0 < inject_Z (Z.of_nat k + 1) * w ->
  mt_rebin s df f MMean = Err IndexError.
Proof.
  intros (Hi & H0 & Hl & Lp & Le & Lu & Ln) Hn Hd Pd Hw Hx Hk L1 L2.
  destruct (one_array (t_freq s) (t_df s) w x0 xl k Hi H0 Hl Pd Hw Hx Hk L1 L2 (t_power s) (Some (t_err s)) Lp) as (r & Er & _); [cbn; congruence|].
  assert (N : forall y, length y = length (t_freq s) -> length (errors_of y None) = length y) by (intros y _; cbn; apply map_length).
  destruct (one_array (t_freq s) (t_df s) w x0 xl k Hi H0 Hl Pd Hw Hx Hk L1 L2 (t_unnorm s) None Lu (N _ Lu)) as (u & Eu & _).
  destruct (one_array (t_freq s) (t_df s) w x0 xl k Hi H0 Hl Pd Hw Hx Hk L1 L2 (t_norm_power s) None Ln (N _ Ln)) as (p & Ep & _).
  unfold mt_rebin, rebin_dof. rewrite Hd. change (fun v : Q => v) with idq.
  assert (W : match f with Some f0 => Ok (f0 * t_df s) | None => match df with Some d => Ok d | None => Err ValueError end end = Ok w).
  { destruct Hn as [(g & -> & ->)|(-> & ->)]; reflexivity. }
  rewrite W. cbn [bind]. rewrite Er. cbn [bind]. rewrite Eu. cbn [bind]. rewrite Ep. reflexivity.
Qed.
Lemma no_width s method : mt_rebin s None None method = Err ValueError.
Proof. reflexivity. Qed.
Lemma finer s df f w method : t_freq s <> [] -> new_width s df f w -> 0 < t_df s -> w < t_df s -> mt_rebin s df f method = Err ValueError.
Proof.
  intros Hf Hn Pd L. unfold mt_rebin.
  assert (W : match f with Some f0 => Ok (f0 * t_df s) | None => match df with Some d => Ok d | None => Err ValueError end end = Ok w).
  { destruct Hn as [(g & -> & ->)|(-> & ->)]; reflexivity. }
  rewrite W. cbn [bind].
  rewrite (rebin_finer (fun v => v) (fun v => v) (t_freq s) (t_power s) w (Some (t_err s)) method (DxScalar (t_df s)) [t_df s] (t_df s)); trivial.
  - right. split; [lra|reflexivity].
  - now left.
Qed.
