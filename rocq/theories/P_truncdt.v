(* Proofs about the truncation of series with an array dt *)
From Verif Require Import Np Lib S_gti S_seg M_gti M_seg M_merge M_utils P_gti_cross P_gti_ops P_gti_exposure P_gti_final M_truncdt S_truncdt.
From Coq Require Import QArith List Lia Lqa.
Import ListNotations.
Open Scope Q_scope.

Lemma last_nth {A} (l : list A) x : get_last l = Ok x <-> nth_error l (length l - 1) = Some x.
Proof.
  unfold get_last. destruct l as [|a l] using rev_ind; [cbn; split; discriminate|]. clear IHl.
  rewrite rev_app_distr. cbn. rewrite app_length. cbn. replace (length l + 1 - 1)%nat with (length l) by lia.
  rewrite nth_error_app2, Nat.sub_diag by lia. cbn. split; intros H; congruence.
Qed.
Lemma skipn_nth {A} (l : list A) : forall i k, nth_error (skipn i l) k = nth_error l (i + k).
Proof. induction l as [|a l IH]; intros [|i] k; cbn; try reflexivity; [destruct k; reflexivity|apply IH]. Qed.
Lemma firstn_nth {A} (l : list A) : forall n k, (k < n)%nat -> nth_error (firstn n l) k = nth_error l k.
Proof. induction l as [|a l IH]; intros [|n] [|k] H; cbn; trivial; try lia. apply IH. lia. Qed.
Lemma slice_nth {A} (l : list A) i j k : (k < j - i)%nat -> nth_error (slice l i j) k = nth_error l (i + k).
Proof. intros H. unfold slice. rewrite firstn_nth by exact H. apply skipn_nth. Qed.
Lemma slice_len {A} (l : list A) i j : (i <= j)%nat -> (j <= length l)%nat -> length (slice l i j) = (j - i)%nat.
Proof. intros H1 H2. unfold slice. rewrite firstn_length, skipn_length. lia. Qed.

Lemma window_value time dt i j : (i < j)%nat -> (j <= length time)%nat -> length dt = length time ->
  exists a b d0 d1, nth_error time i = Some a /\ nth_error time (j - 1) = Some b /\ nth_error dt 0 = Some d0 /\ nth_error dt (length dt - 1) = Some d1 /\
    trunc_window time dt i j = Ok (a - (1 # 2) * d0, b + (1 # 2) * d1).
Proof.
  intros H1 H2 H3.
  assert (N : forall l k, (k < length l)%nat -> exists v : Q, nth_error l k = Some v).
  { intros l k H. destruct (nth_error l k) eqn:E; [eauto|]. apply nth_error_None in E. lia. }
  destruct (N time i ltac:(lia)) as (a & Ea). destruct (N time (j - 1)%nat ltac:(lia)) as (b & Eb).
  destruct (N dt 0%nat ltac:(lia)) as (d0 & E0). destruct (N dt (length dt - 1)%nat ltac:(lia)) as (d1 & E1).
  exists a, b, d0, d1. repeat (split; [assumption|]). unfold trunc_window, get at 1.
  assert (S0 : nth_error (slice time i j) 0 = Some a) by (rewrite slice_nth by lia; now rewrite Nat.add_0_r).
  assert (S1 : get_last (slice time i j) = Ok b).
  { apply last_nth. rewrite slice_len by lia. rewrite slice_nth by lia. now replace (i + (j - i - 1))%nat with (j - 1)%nat by lia. }
  rewrite S0. cbn [bind]. rewrite S1. cbn [bind]. unfold get. rewrite E0. cbn [bind]. apply last_nth in E1. now rewrite E1.
Qed.
Lemma half d : d / 2 == (1 # 2) * d.
Proof. field. Qed.
(* right exactly when the first and last of the kept bins are as wide as those of the whole series *)
Lemma window_right time dt i j di dj d0 d1 : (i < j)%nat -> (j <= length time)%nat -> length dt = length time ->
  nth_error dt i = Some di -> nth_error dt (j - 1) = Some dj -> nth_error dt 0 = Some d0 -> nth_error dt (length dt - 1) = Some d1 ->
  exists w, trunc_window time dt i j = Ok w /\ (bins_window time dt i (j - 1) w <-> di == d0 /\ dj == d1).
Proof.
  intros H1 H2 H3 Di Dj D0 D1. destruct (window_value time dt i j H1 H2 H3) as (a & b & e0 & e1 & Ea & Eb & E0 & E1 & E).
  rewrite D0 in E0. injection E0 as <-. rewrite D1 in E1. injection E1 as <-. eexists. split; [exact E|]. split.
  - intros ((h & t & d & T & W & L & _) & (l & t' & d' & T' & W' & _ & R)). cbn [fst snd] in *.
    rewrite Ea in T. injection T as <-. rewrite Eb in T'. injection T' as <-. rewrite Di in W. injection W as <-. rewrite Dj in W'. injection W' as <-.
    rewrite half in L, R. split; lra.
  - intros (G0 & G1). split.
    + exists (a + di / 2), a, di. cbn [fst]. repeat split; trivial; try reflexivity. rewrite half. lra.
    + exists (b - dj / 2), b, dj. cbn [snd]. repeat split; trivial; try reflexivity. rewrite half. lra.
Qed.
(* the window reaches further than the kept bins on the left if the first bin of the series is wider *)
Lemma window_wide time dt i j di d0 : (i < j)%nat -> (j <= length time)%nat -> length dt = length time ->
  nth_error dt i = Some di -> nth_error dt 0 = Some d0 -> di < d0 ->
  exists w t, trunc_window time dt i j = Ok w /\ nth_error time i = Some t /\ fst w < t - di / 2.
Proof.
  intros H1 H2 H3 Di D0 L. destruct (window_value time dt i j H1 H2 H3) as (a & b & e0 & e1 & Ea & Eb & E0 & E1 & E).
  rewrite D0 in E0. injection E0 as <-. eexists _, a. split; [exact E|]. split; [exact Ea|]. cbn [fst]. rewrite half. lra.
Qed.
Lemma empty_error srt time dt gti i j : (j <= i)%nat \/ (length time <= i)%nat -> trunc_gti srt time dt gti i j = Err IndexError.
Proof.
  intros H. unfold trunc_gti, trunc_window, get at 1.
  assert (E : slice time i j = []).
  { unfold slice. destruct H as [H|H]; [replace (j - i)%nat with 0%nat by lia; reflexivity|]. rewrite skipn_all2 by exact H. apply firstn_nil. }
  now rewrite E.
Qed.
(* the GTIs of the new series: the part of the old ones in the window *)
Lemma gti_in_window srt time dt g i j w : sorts_by t_end srt -> good g -> trunc_window time dt i j = Ok w -> fst w < snd w -> no_touching g [w] ->
  exists r, trunc_gti srt time dt (Some g) i j = Ok r /\ well_formed r /\ positive_lengths r /\
    forall t, covered r t <-> covered g t /\ covered [w] t.
Proof.
  intros Hs Hg E L N. destruct (cross_two_exact srt g [w] Hs Hg) as (r & R & W & P & _ & C); trivial.
  - destruct w as [a b]. cbn in L. split; [discriminate|]. split.
    + split; [intros c d [ [= <- <-]|[] ]; lra|]. intros i0 [|[|k] ] c d e f Hij _ F; [lia| |]; discriminate F.
    + intros c d [ [= <- <-]|[] ]. exact L.
  - exists r. unfold trunc_gti. rewrite E. cbn [bind]. split; [exact R|]. split; [exact W|]. split; [exact P|exact C].
Qed.
Lemma default_value time dt a b d0 d1 : nth_error time 0 = Some a -> nth_error time (length time - 1) = Some b ->
  nth_error dt 0 = Some d0 -> nth_error dt (length dt - 1) = Some d1 ->
  default_gti time dt = Ok [(a - d0 / 2, b + d1 / 2)] /\
  forall srt i j, trunc_gti srt time dt None i j = trunc_gti srt time dt (Some [(a - d0 / 2, b + d1 / 2)]) i j.
Proof.
  intros Ea Eb E0 E1. assert (D : default_gti time dt = Ok [(a - d0 / 2, b + d1 / 2)]).
  { unfold default_gti, get. rewrite Ea. cbn [bind]. apply last_nth in Eb. rewrite Eb. cbn [bind]. rewrite E0. cbn [bind]. apply last_nth in E1. now rewrite E1. }
  split; [exact D|]. intros srt i j. unfold trunc_gti. now rewrite D.
Qed.
