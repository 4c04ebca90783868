(* P_base3.v: truncation by time, slices, splitting, sorting, joining and rebinning of time series. *)
From Verif Require Import Np Lib S_gti S_seg S_utils S_lc S_base M_gti M_seg M_merge M_utils M_lc M_base
  P_gti_cross P_gti_final P_seg_regions P_seg_cut P_seg_mask P_rebin2 P_lc_make P_base P_base2.
From Coq Require Import Lqa Permutation.
Open Scope Q_scope.

Lemma inc_nondec l : increasing l -> nondecreasing l.
Proof. intros H i j x y Hij Hi Hj. apply Qlt_le_weak. apply (H i j); assumption. Qed.
Lemma keep_range {A} i j (v : list A) : forall off, keep (map (fun k => (i <=? k) && (k <? j))%nat%bool (seq off (length v))) v = slice v (i - off) (j - off).
Proof.
  induction v as [|a v IH]; intros off; [unfold slice; rewrite skipn_nil, firstn_nil; reflexivity|]. cbn [length seq map keep].
  rewrite IH. destruct (i <=? off)%nat eqn:E1; cbn [andb].
  - apply Nat.leb_le in E1. replace (i - off)%nat with 0%nat by lia. replace (i - S off)%nat with 0%nat by lia.
    destruct (off <? j)%nat eqn:E2; cbn [andb].
    + apply Nat.ltb_lt in E2. replace (j - off)%nat with (S (j - S off)) by lia. unfold slice. cbn [skipn]. rewrite !Nat.sub_0_r. reflexivity.
    + apply Nat.ltb_ge in E2. replace (j - off)%nat with 0%nat by lia. replace (j - S off)%nat with 0%nat by lia. reflexivity.
  - apply Nat.leb_gt in E1. replace (i - off)%nat with (S (i - S off)) by lia. unfold slice. cbn [skipn].
    f_equal. destruct (Nat.le_gt_cases j off); [|lia]. lia.
Qed.
Lemma slice_flags (P : Q -> Prop) time i j : (j <= length time)%nat ->
  (forall k t, nth_error time k = Some t -> ((i <= k < j)%nat <-> P t)) ->
  exists m, flags P time m /\ forall A (v : list A), length v = length time -> slice v i j = keep m v.
Proof.
  intros Hj H. exists (map (fun k => (i <=? k) && (k <? j))%nat%bool (seq 0 (length time))). split.
  - split; [rewrite map_length, seq_length; reflexivity|]. intros k t Hk. rewrite <- (H k t Hk).
    assert (L : (k < length time)%nat) by (apply nth_error_Some; congruence).
    rewrite nth_error_map. rewrite (nth_error_nth' (seq 0 (length time)) 0%nat) by (rewrite seq_length; assumption). rewrite seq_nth by assumption. cbn [option_map].
    rewrite Nat.add_0_l. split; [intros E; injection E as E; apply andb_true_iff in E; destruct E as [E1 E2]; apply Nat.leb_le in E1; apply Nat.ltb_lt in E2; lia|].
    intros [E1 E2]. f_equal. apply andb_true_iff. split; [apply Nat.leb_le|apply Nat.ltb_lt]; assumption.
  - intros A v E. rewrite <- E. rewrite (keep_range i j v 0). rewrite !Nat.sub_0_r. reflexivity.
Qed.
Lemma map_cols_ext f h c n : all_of_length n c -> (forall v : list Q, length v = n -> f v = h v) -> map_cols f c = map_cols h c.
Proof. intros L H. unfold map_cols. apply map_ext_in. intros [k v] Hin. cbn. f_equal. apply H. apply (L k v Hin). Qed.

Lemma truncate_time_main srt s a b g : sorts_by t_end srt -> increasing (s_time s) -> 0 < s_dt s -> gti_of s = Some g -> good g ->
  all_of_length (length (s_time s)) (s_cols s) -> all_of_length (length (s_time s)) (s_errs s) ->
  a <= b -> (~ a == 0 \/ forall t, In t (s_time s) -> 0 <= t) ->
  (exists t, In t (s_time s) /\ a <= t /\ t < b) ->
  (forall t0 tl, In t0 (s_time s) -> In tl (s_time s) -> a <= t0 -> tl < b ->
     (forall t, In t (s_time s) -> a <= t -> t < b -> t0 <= t /\ t <= tl) ->
     no_touching g [(t0 - s_dt s / 2, tl + s_dt s / 2)] /\ exists t, covered g t /\ t0 - s_dt s / 2 <= t /\ t < tl + s_dt s / 2) ->
  exists r m, truncate_by_time srt s a (Some b) = Ok r /\ flags (fun t => a <= t /\ t < b) (s_time s) m /\
    s_time r = keep m (s_time s) /\ s_cols r = map_cols (keep m) (s_cols s) /\ s_errs r = map_cols (keep m) (s_errs s) /\
    s_dt r = s_dt s /\ s_mjdref r = s_mjdref s.
Proof.
  intros Hs Hinc Hd Hg G Lc Le Hab Hz (tx & Tx & Tx1 & Tx2) Hx.
  assert (Hnd : nondecreasing (s_time s)) by (apply inc_nondec; assumption).
  set (i := searchsorted_left (s_time s) a). set (j := searchsorted_left (s_time s) b).
  destruct (ssl_spec (s_time s) a Hnd) as [I1 I2]. destruct (ssl_spec (s_time s) b Hnd) as [J1 J2]. fold i in I1, I2. fold j in J1, J2.
  assert (R : forall k t, nth_error (s_time s) k = Some t -> ((i <= k < j)%nat <-> (a <= t /\ t < b))).
  { intros k t Hk. pose proof (I1 k t Hk) as A1. pose proof (J1 k t Hk) as A2. split.
    - intros [H1 H2]. split; [|apply A2; assumption]. destruct (Qlt_le_dec t a) as [C|C]; [apply A1 in C; lia|assumption].
    - intros [H1 H2]. split; [|apply A2; assumption]. destruct (Nat.le_gt_cases i k) as [C|C]; [assumption|]. apply A1 in C. lra. }
  apply In_nth_error in Tx. destruct Tx as [kx Tx]. assert (Kx : (i <= kx < j)%nat) by (apply (R kx tx Tx); split; assumption).
  assert (mono : forall p q x y, (p <= q)%nat -> nth_error (s_time s) p = Some x -> nth_error (s_time s) q = Some y -> x <= y).
  { intros p q x y Hpq Hp Hq. destruct (Nat.eq_dec p q) as [->|]; [rewrite Hp in Hq; injection Hq as <-; lra|]. assert (x < y) by (apply (Hinc p q); [lia|assumption|assumption]). lra. }
  destruct (truncate_main srt s i j g Hs ltac:(lia) J2 Hd Hinc Hg G) as (r & t0 & tl & f & l & E & T & C & Er & D & M & _).
  { intros t0 tl E0 El. apply Hx.
    - apply nth_error_In in E0. assumption.
    - apply nth_error_In in El. assumption.
    - apply (R i t0 E0). lia.
    - apply (R (j - 1)%nat tl El). lia.
    - intros t Ht H1 H2. apply In_nth_error in Ht. destruct Ht as [k Hk]. assert (i <= k < j)%nat by (apply (R k t Hk); split; assumption).
      split; [apply (mono i k); [lia|assumption|assumption]|apply (mono k (j - 1)%nat); [lia|assumption|assumption]]. }
  destruct (slice_flags (fun t => a <= t /\ t < b) (s_time s) i j J2 R) as (m & Fm & Em).
  exists r, m. split.
  { unfold truncate_by_time. replace (qlt b a) with false by (symmetry; destruct (qlt b a) eqn:Z; [qb; lra|reflexivity]).
    cbn [option_map]. fold i. fold j. destruct (qeq a 0) eqn:Z; [|exact E]. qb. destruct Hz as [Hz|Hz]; [contradiction|].
    assert (i = 0%nat) as Hi.
    { destruct i as [|i']; [reflexivity|]. exfalso. destruct (nth_error_ex (s_time s) 0) as [t1 E1]; [apply nth_error_Some in Tx || idtac; assert (kx < length (s_time s))%nat by (apply nth_error_Some; congruence); lia|].
      assert (t1 < a) by (apply (I1 0%nat t1 E1); lia). assert (0 <= t1) by (apply Hz; apply nth_error_In in E1; assumption). lra. }
    rewrite Hi in E. exact E. }
  split; [assumption|]. rewrite T, C, Er, D, M. repeat split.
  - apply Em. reflexivity.
  - apply (map_cols_ext _ _ _ _ Lc). intros v. apply Em.
  - apply (map_cols_ext _ _ _ _ Le). intros v. apply Em.
Qed.
Lemma truncate_time_order srt s a b : b < a -> truncate_by_time srt s a (Some b) = Err ValueError.
Proof. intros H. unfold truncate_by_time. replace (qlt b a) with true; [reflexivity|]. symmetry. destruct (qlt b a) eqn:Z; [reflexivity|qb; lra]. Qed.
(* start = 0 means "from the first sample" *)
Lemma truncate_time_zero : exists s r t, increasing (s_time s) /\ 0 < s_dt s /\
  truncate_by_time (isort_by t_end) s 0 (Some 3) = Ok r /\ In t (s_time r) /\ ~ 0 <= t.
Proof.
  exists (mkSeries [-2; -1; 0; 1; 2; 3] [] [] 1 None 0 None None). eexists. exists (-2). split; [apply inc_ss; repeat constructor; reflexivity|].
  split; [reflexivity|]. split; [vm_compute; reflexivity|]. split; [left; reflexivity|]. intros H. revert H. vm_compute. intros H. apply H. reflexivity.
Qed.

(* ---------- slices ---------- *)
Lemma every_aux_nth {A} step : forall (l : list A) w k, (1 <= step)%nat -> nth_error (every_aux A step w l) k = nth_error l (w + k * step).
Proof.
  induction l as [|a l IH]; intros w k Hs; cbn [every_aux]; [destruct k; destruct (w + _)%nat; reflexivity|].
  destruct w as [|w].
  - destruct k as [|k]; [reflexivity|]. cbn [nth_error]. rewrite IH by assumption. replace (0 + S k * step)%nat with (S (step - 1 + k * step)) by nia. reflexivity.
  - rewrite IH by assumption. reflexivity.
Qed.
Lemma every_strided {A} (l : list A) i j step : (1 <= step)%nat -> strided i j step l (every step (slice l i j)).
Proof.
  intros Hs k. unfold every. rewrite every_aux_nth by assumption. rewrite Nat.add_0_l. destruct (i + k * step <? j)%nat eqn:E.
  - apply Nat.ltb_lt in E. apply slice_nth. assumption.
  - apply Nat.ltb_ge in E. apply nth_error_None. rewrite slice_len. lia.
Qed.
Lemma strided_in {A} i j step (l r : list A) x : strided i j step l r -> In x r -> In x l.
Proof. intros H Hin. apply In_nth_error in Hin. destruct Hin as [k Hk]. rewrite H in Hk. destruct (_ <? _)%nat; [|discriminate]. apply nth_error_In in Hk. assumption. Qed.
Lemma strided_apart d i j step l r : (1 <= step)%nat -> apart d l -> strided i j step l r -> apart d r.
Proof.
  intros Hs Ha H p q x y Hpq Hp Hq. rewrite H in Hp, Hq. destruct (i + p * step <? j)%nat; [|discriminate]. destruct (i + q * step <? j)%nat; [|discriminate].
  apply (Ha (i + p * step)%nat (i + q * step)%nat x y); [nia|assumption|assumption].
Qed.
Lemma strided_cols_map {A} i j step (h : list A -> list A) c : (forall v, strided i j step v (h v)) ->
  strided_cols i j step c (map (fun p => (fst p, h (snd p))) c).
Proof. intros H. unfold strided_cols. induction c; constructor; [split; [reflexivity|apply H]|assumption]. Qed.

Lemma bins_good d sel : 0 < d -> sel <> [] -> apart d sel -> good (map (fun t => (t - d / 2, t + d / 2)) sel).
Proof.
  intros Hd N Ha. assert (HH : d / 2 == (1 # 2) * d) by field. split; [destruct sel; [congruence|discriminate]|]. split; [split|].
  - intros a b Hin. apply in_map_iff in Hin. destruct Hin as (t & E & _). injection E as <- <-. lra.
  - intros p q a b c e Hpq Hp Hq. rewrite nth_error_map in Hp, Hq. destruct (nth_error sel p) as [x|] eqn:Ex; [|discriminate]. destruct (nth_error sel q) as [y|] eqn:Ey; [|discriminate].
    injection Hp as <- <-. injection Hq as <- <-. pose proof (Ha p q x y Hpq Ex Ey). lra.
  - intros a b Hin. apply in_map_iff in Hin. destruct Hin as (t & E & _). injection E as <- <-. lra.
Qed.
Lemma bins_covered d sel t : covered (map (fun t => (t - d / 2, t + d / 2)) sel) t <-> covered_bins d sel t.
Proof.
  unfold covered, covered_bins. split.
  - intros (a & b & Hin & H). apply in_map_iff in Hin. destruct Hin as (x & E & Hx). injection E as <- <-. exists x. split; assumption.
  - intros (x & Hin & H). exists (x - d / 2), (x + d / 2). split; [apply in_map_iff; exists x; split; [reflexivity|assumption]|assumption].
Qed.
Lemma good_one a b : a < b -> good [(a, b)].
Proof.
  intros H. split; [discriminate|]. split.
  - split; [intros x y [E|[]]; injection E as <- <-; lra|]. intros k m x y c d Hkm Hk Hm. destruct m as [|[|m]]; [lia|discriminate|discriminate].
  - intros x y [E|[]]. injection E as <- <-. assumption.
Qed.
Lemma apart_bounds d sel f l : 0 < d -> apart d sel -> nth_error sel 0 = Some f -> nth_error sel (length sel - 1) = Some l ->
  forall x, In x sel -> f <= x /\ x <= l.
Proof.
  intros Hd Ha Hf Hl x Hx. apply In_nth_error in Hx. destruct Hx as [k Hk]. assert (k < length sel)%nat by (apply nth_error_Some; congruence). split.
  - destruct k as [|k]; [rewrite Hf in Hk; injection Hk as <-; lra|]. pose proof (Ha 0%nat (S k) f x ltac:(lia) Hf Hk). lra.
  - destruct (Nat.eq_dec k (length sel - 1)) as [->|N]; [rewrite Hl in Hk; injection Hk as <-; lra|]. pose proof (Ha k (length sel - 1)%nat x l ltac:(lia) Hk Hl). lra.
Qed.
Lemma window srt d sel f l lo hi : sorts_by t_end srt -> 0 < d -> apart d sel ->
  nth_error sel 0 = Some f -> nth_error sel (length sel - 1) = Some l -> lo == f - d / 2 -> l + d / 2 <= hi ->
  exists g1, cross_two_gtis srt [(lo, hi)] (map (fun t => (t - d / 2, t + d / 2)) sel) = Ok g1 /\ good g1 /\
    (forall t, covered g1 t <-> covered_bins d sel t) /\
    (forall g, off_bins d g sel -> no_touching g g1).
Proof.
  intros Hs Hd Ha Hf Hl Hlo Hhi. assert (HH : d / 2 == (1 # 2) * d) by field.
  assert (N : sel <> []) by (intros ->; discriminate).
  pose proof (apart_bounds d sel f l Hd Ha Hf Hl) as B. assert (If : In f sel) by (apply nth_error_In in Hf; assumption). assert (Il : In l sel) by (apply nth_error_In in Hl; assumption).
  pose proof (B l Il) as [Fl _]. pose proof (bins_good d sel Hd N Ha) as G1. assert (G0 : good [(lo, hi)]) by (apply good_one; lra).
  assert (NT : no_touching [(lo, hi)] (map (fun t => (t - d / 2, t + d / 2)) sel)).
  { intros a b c e [E|[]] Hin. injection E as <- <-. apply in_map_iff in Hin. destruct Hin as (x & E & Hx). injection E as <- <-. pose proof (B x Hx). split; lra. }
  pose proof G0 as (N0 & W0 & P0). pose proof G1 as (N1 & W1 & P1).
  destruct (cross_two_main srt _ _ Hs N0 N1 W0 W1 P0 P1) as (g1 & Ec & Wr & Pr & Gr & C1 & C2 & C3 & Ed).
  assert (CV : forall t, covered g1 t <-> covered_bins d sel t).
  { intros t. split.
    - intros H. apply bins_covered. apply (C3 NT). assumption.
    - intros H. apply C1; [|apply bins_covered; assumption]. destruct H as (x & Hx & H1 & H2). pose proof (B x Hx). exists lo, hi. split; [left; reflexivity|]. lra. }
  exists g1. split; [assumption|]. split; [|split; [assumption|]].
  - split; [|split; assumption]. intros ->. assert (C : covered [] f) by (apply CV; exists f; split; [assumption|lra]). destruct C as (? & ? & [] & _).
  - intros g Hoff a b s e Hg Hin. pose proof (Pr s e Hin) as Pse. destruct (Ed s e Hin) as [(ga & xa & Ga & Ia) (gb & xb & Gb & Ib)]. split.
    + destruct Ga as [<-|[<-|[]]].
      * destruct Ia as [E|[]]. assert (s = lo) by congruence. subst s. intros K. apply (proj1 (Hoff a b f Hg If)). lra.
      * apply in_map_iff in Ia. destruct Ia as (x & E & Hx). injection E as <- _. apply (proj1 (Hoff a b x Hg Hx)).
    + destruct Gb as [<-|[<-|[]]].
      * destruct Ib as [E|[]]. assert (e = hi) by congruence. subst e. intros K.
        destruct (Qlt_le_dec (l + d / 2) hi) as [C|C].
        -- assert (CC : covered g1 (qmax s (l + d / 2))).
           { exists s, hi. split; [assumption|]. destruct (qmax_cases s (l + d / 2)) as [[-> ?]|[-> ?]]; lra. }
           apply CV in CC. destruct CC as (x & Hx & X1 & X2). pose proof (B x Hx). destruct (qmax_cases s (l + d / 2)) as [[EE ?]|[EE ?]]; rewrite EE in X2; lra.
        -- apply (proj2 (Hoff a b l Hg Il)). lra.
      * apply in_map_iff in Ib. destruct Ib as (x & E & Hx). injection E as _ <-. intros K. apply (proj2 (Hoff a b x Hg Hx)). lra.
Qed.
Lemma strided_length {A} i j step (l r : list A) : strided i j step l r -> (i < j)%nat -> (j <= length l)%nat -> (0 < length r)%nat.
Proof. intros H Hi Hj. apply nth_error_Some. rewrite H. rewrite Nat.add_0_r. replace (i <? j)%nat with true by (symmetry; apply Nat.ltb_lt; assumption). apply nth_error_Some. lia. Qed.

Lemma slice_gtis srt d g time sel i j step lo hi : sorts_by t_end srt -> 0 < d -> apart d time -> (1 <= step)%nat -> (i < j)%nat -> (j <= length time)%nat ->
  strided i j step time sel -> good g -> off_bins d g time ->
  (forall f, nth_error sel 0 = Some f -> lo == f - d / 2) ->
  (forall l, nth_error sel (length sel - 1) = Some l -> l + d / 2 <= hi /\ (step = 1%nat -> hi == l + d / 2)) ->
  exists g1 g2, (if (1 <? step)%nat then cross_two_gtis srt [(lo, hi)] (map (fun t => (t - d / 2, t + d / 2)) sel) else Ok [(lo, hi)]) = Ok g1 /\
    cross_two_gtis srt g g1 = Ok g2 /\ well_formed g2 /\ positive_lengths g2 /\ forall t, covered g2 t <-> covered g t /\ slice_cover d step sel t.
Proof.
  intros Hs Hd Ha Hst Hij Hj Hsel G Hoff Hlo Hhi. assert (HH : d / 2 == (1 # 2) * d) by field.
  pose proof (strided_length _ _ _ _ _ Hsel Hij Hj) as L. pose proof (strided_apart d _ _ _ _ _ Hst Ha Hsel) as As.
  destruct (nth_error_ex sel 0 L) as [f Ef]. destruct (nth_error_ex sel (length sel - 1)) as [l El]; [lia|].
  specialize (Hlo f Ef). destruct (Hhi l El) as [Hh1 Hh2]. pose proof (apart_bounds d sel f l Hd As Ef El) as B.
  assert (Offs : off_bins d g sel) by (intros a b x Hin Hx; apply Hoff; [assumption|apply (strided_in _ _ _ _ _ _ Hsel Hx)]).
  assert (If : In f sel) by (apply nth_error_In in Ef; assumption). assert (Il : In l sel) by (apply nth_error_In in El; assumption). pose proof (B l Il) as [Fl _].
  unfold slice_cover. destruct (1 <? step)%nat eqn:E1.
  - apply Nat.ltb_lt in E1. replace (step =? 1)%nat with false by (symmetry; apply Nat.eqb_neq; lia).
    destruct (window srt d sel f l lo hi Hs Hd As Ef El Hlo Hh1) as (g1 & Ec & G1 & C1 & NT).
    destruct (cross_two_exact srt g g1 Hs G G1 (NT g Offs)) as (g2 & Ec2 & W2 & P2 & _ & C2).
    exists g1, g2. split; [assumption|]. split; [assumption|]. split; [assumption|]. split; [assumption|]. intros t. rewrite C2, C1. reflexivity.
  - apply Nat.ltb_ge in E1. assert (step = 1%nat) by lia. subst step. cbn [Nat.eqb]. specialize (Hh2 eq_refl).
    assert (G1 : good [(lo, hi)]) by (apply good_one; lra).
    assert (NT : no_touching g [(lo, hi)]).
    { intros a b c e Hin [E|[]]. injection E as <- <-. split; intros K; [apply (proj1 (Offs a b f Hin If))|apply (proj2 (Offs a b l Hin Il))]; lra. }
    destruct (cross_two_exact srt g [(lo, hi)] Hs G G1 NT) as (g2 & Ec2 & W2 & P2 & _ & C2).
    exists [(lo, hi)], g2. split; [reflexivity|]. split; [assumption|]. split; [assumption|]. split; [assumption|]. intros t. rewrite C2. split; intros [H1 H2]; (split; [assumption|]).
    + destruct H2 as (a & b & [E|[]] & H2). injection E as <- <-. exists f, l. repeat split; try assumption; lra.
    + destruct H2 as (f' & l' & F' & L' & H2 & H3). rewrite Ef in F'. rewrite El in L'. injection F' as <-. injection L' as <-.
      exists lo, hi. split; [left; reflexivity|]. lra.
Qed.
Lemma getitem_main srt s i j step g : sorts_by t_end srt -> (1 <= step)%nat -> (i < j)%nat -> (j <= length (s_time s))%nat -> 0 < s_dt s ->
  apart (s_dt s) (s_time s) -> gti_of s = Some g -> good g -> off_bins (s_dt s) g (s_time s) ->
  exists r g', getitem srt s (Z.of_nat i) (Some (Z.of_nat j)) step = Ok r /\
    strided i j step (s_time s) (s_time r) /\ strided_cols i j step (s_cols s) (s_cols r) /\ strided_cols i j step (s_errs s) (s_errs r) /\
    s_dt r = s_dt s /\ s_mjdref r = s_mjdref s /\ gti_of r = Some g' /\ well_formed g' /\ positive_lengths g' /\
    forall t, covered g' t <-> covered g t /\ slice_cover (s_dt s) step (s_time r) t.
Proof.
  intros Hs Hst Hij Hj Hd Ha Hg G Hoff. assert (HH : s_dt s / 2 == (1 # 2) * s_dt s) by field.
  set (sel := every step (slice (s_time s) i j)). pose proof (every_strided (s_time s) i j step Hst) as Hsel. fold sel in Hsel.
  pose proof (strided_length _ _ _ _ _ Hsel Hij Hj) as L.
  destruct (nth_error_ex sel 0 L) as [f Ef]. destruct (nth_error_ex sel (length sel - 1)) as [l El]; [lia|].
  destruct (slice_gtis srt (s_dt s) g (s_time s) sel i j step (f - s_dt s * (1 # 2)) (l + s_dt s * (1 # 2)) Hs Hd Ha Hst Hij Hj Hsel G Hoff) as (g1 & g2 & E1 & E2 & W2 & P2 & C2).
  { intros x Hx. rewrite Ef in Hx. injection Hx as <-. lra. }
  { intros x Hx. rewrite El in Hx. injection Hx as <-. split; [lra|intros _; lra]. }
  unfold getitem. unfold zslice_opt. rewrite zslice_nat. fold sel.
  assert (A1 : get sel 0 = Ok f) by (apply get_nth; assumption).
  assert (A2 : get_last sel = Ok l) by (apply get_last_nth'; split; [assumption|destruct sel; [simpl in L; lia|discriminate]]).
  rewrite A1, A2, Hg. replace (qlt 0 (s_dt s * (1 # 2))) with true by (symmetry; destruct (qlt 0 (s_dt s * (1 # 2))) eqn:Z; [reflexivity|qb; lra]).
  rewrite andb_true_r. rewrite E1. cbn [bind]. rewrite E2. cbn [bind].
  eexists. exists g2. split; [reflexivity|]. cbn [with_gti apply_mask s_time s_cols s_errs s_dt s_mjdref]. rewrite zslice_nat. fold sel.
  repeat (split; [first [assumption|reflexivity|apply strided_cols_map; intros v; rewrite zslice_nat; apply every_strided; assumption]|]). assumption.
Qed.
Lemma py_get_nat {A} (l : list A) i a : nth_error l i = Some a -> py_get l (Z.of_nat i) = Ok a.
Proof. intros H. unfold py_get. replace (Z.of_nat i <? 0)%Z with false by (symmetry; apply Z.ltb_ge; lia). rewrite Nat2Z.id. apply get_nth. assumption. Qed.
Lemma lc_getitem_main srt s i j step g : sorts_by t_end srt -> (1 <= step)%nat -> (i < j)%nat -> (j <= length (s_time s))%nat -> 0 < s_dt s ->
  apart (s_dt s) (s_time s) -> gti_of s = Some g -> good g -> off_bins (s_dt s) g (s_time s) ->
  exists r g' f l ts tg, lc_getitem srt s (Z.of_nat i) (Some (Z.of_nat j)) step = Ok r /\
    strided i j step (s_time s) (s_time r) /\ strided_cols i j step (s_cols s) (s_cols r) /\ strided_cols i j step (s_errs s) (s_errs r) /\
    s_dt r = s_dt s /\ s_mjdref r = s_mjdref s /\ gti_of r = Some g' /\ well_formed g' /\ positive_lengths g' /\
    (forall t, covered g' t <-> covered g t /\ slice_cover (s_dt s) step (s_time r) t) /\
    nth_error (s_time r) 0 = Some f /\ nth_error (s_time r) (length (s_time r) - 1) = Some l /\
    s_tstart r = Some ts /\ ts == f - s_dt s / 2 /\ s_tseg r = Some tg /\ tg == l - f + s_dt s.
Proof.
  intros Hs Hst Hij Hj Hd Ha Hg G Hoff. assert (HH : s_dt s / 2 == (1 # 2) * s_dt s) by field.
  set (sel := every step (slice (s_time s) i j)). pose proof (every_strided (s_time s) i j step Hst) as Hsel. fold sel in Hsel.
  pose proof (strided_length _ _ _ _ _ Hsel Hij Hj) as L.
  destruct (nth_error_ex sel 0 L) as [f Ef]. destruct (nth_error_ex sel (length sel - 1)) as [l El]; [lia|].
  destruct (nth_error_ex (s_time s) i) as [t0 E0]; [lia|]. destruct (nth_error_ex (s_time s) (j - 1)) as [tl Etl]; [lia|].
  assert (F0 : f = t0). { pose proof Ef as K. rewrite Hsel, Nat.add_0_r in K. destruct (i <? j)%nat; [congruence|discriminate]. }
  pose proof El as K. rewrite Hsel in K. set (p := (i + (length sel - 1) * step)%nat) in *. destruct (p <? j)%nat eqn:Ep; [|discriminate]. apply Nat.ltb_lt in Ep.
  assert (Ltl : l <= tl).
  { destruct (Nat.eq_dec p (j - 1)) as [E|E]; [rewrite E in K; rewrite K in Etl; injection Etl as <-; lra|]. pose proof (Ha p (j - 1)%nat l tl ltac:(lia) K Etl). lra. }
  destruct (slice_gtis srt (s_dt s) g (s_time s) sel i j step (t0 - (1 # 2) * s_dt s) (tl + (1 # 2) * s_dt s) Hs Hd Ha Hst Hij Hj Hsel G Hoff) as (g1 & g2 & E1 & E2 & W2 & P2 & C2).
  { intros x Hx. rewrite Ef in Hx. injection Hx as <-. subst f. lra. }
  { intros x Hx. rewrite El in Hx. injection Hx as <-. split; [lra|]. intros Es.
    assert (p = (j - 1)%nat) as Hp.
    { destruct (Nat.le_gt_cases (j - 1) p) as [|C]; [lia|]. exfalso. assert (Z : nth_error sel (length sel) = None) by (apply nth_error_None; lia).
      rewrite Hsel, Es in Z. unfold p in C. rewrite Es in C. replace (i + length sel * 1 <? j)%nat with true in Z by (symmetry; apply Nat.ltb_lt; lia).
      apply nth_error_None in Z. lia. }
    rewrite Hp in K. rewrite K in Etl. injection Etl as <-. lra. }
  unfold lc_getitem. rewrite zslice_nat. fold sel. rewrite (py_get_nat _ _ _ E0). cbn [bind].
  replace (Z.of_nat j - 1)%Z with (Z.of_nat (j - 1)) by lia. rewrite (py_get_nat _ _ _ Etl). cbn [bind]. rewrite Hg, E1. cbn [bind]. rewrite E2. cbn [bind].
  assert (A1 : get sel 0 = Ok f) by (apply get_nth; assumption).
  assert (A2 : get_last sel = Ok l) by (apply get_last_nth'; split; [assumption|destruct sel; [simpl in L; lia|discriminate]]).
  rewrite A1, A2. eexists. exists g2, f, l. do 2 eexists. split; [reflexivity|]. cbn [s_time s_cols s_errs s_dt s_mjdref s_tstart s_tseg].
  repeat (split; [first [assumption|reflexivity|apply strided_cols_map; intros v; rewrite zslice_nat; apply every_strided; assumption]|]).
  destruct sel as [|x sel'] eqn:Es; [simpl in L; lia|]. cbn [nth_error] in Ef. injection Ef as ->.
  repeat (split; [first [assumption|reflexivity]|]). split; [lra|]. split; reflexivity.
Qed.
