(* P_lcops4.v: splitting at gaps with given good times; sorting by counts; good time intervals; checks of values. *)
From Coq Require Import Lqa Lia Permutation.
From Verif Require Import Np Lib S_gti S_seg S_base S_lc S_utils M_gti M_seg M_merge M_utils M_lc M_base M_segan S_lcops P_gti_cross P_gti_final P_seg_cut P_helpers P_base P_base2 P_base4 P_segan M_lcops P_lcops P_lcops2 P_lcops3.
Open Scope Q_scope.

Lemma run_of mg l x : In x l -> exists k q, nth_error (runs mg l) k = Some q /\ In x q.
Proof.
  intros H. rewrite <- (runs_concat mg l) in H. apply in_concat in H. destruct H as (q & Hq & Hx). destruct (In_nth_error _ _ Hq) as (k & Hk). exists k, q. split; assumption.
Qed.
Lemma split_pieces srt mg md n s g l : sorts_by t_end srt -> increasing (s_time s) -> gti_of s = Some g -> good g -> 0 < s_dt s -> (1 <= n)%nat ->
  smallest_step (s_time s) md -> md < mg -> median (diffs (s_time s)) = Some (s_dt s) ->
  (forall a b t, In (a, b) g -> In t (s_time s) -> ~ a == t + md / 2 /\ ~ b == t - md / 2) ->
  lc_split true srt mg n s = Ok l ->
  Forall (fun r => (exists q, In q (runs mg (s_time s)) /\ incl (s_time r) q) /\ (n <= length (s_time r))%nat /\ s_dt r = s_dt s /\ s_mjdref r = s_mjdref s /\
    (exists a b, gti_of r = Some [(a, b)] /\ (forall t, a <= t -> t < b -> covered g t) /\
       forall t, In t (s_time r) <-> In t (s_time s) /\ bin_in [(a, b)] ((1 # 1000) * s_dt s) (s_dt s) t) /\
    exists m, s_time r = keep m (s_time s) /\ s_cols r = map_cols (keep m) (s_cols s) /\ s_errs r = map_cols (keep m) (s_errs s)) l.
Proof.
  intros Hs I Gs Gg Hd Hn [(x0 & y0 & N0 & D0) Dm] Hm Md NT EL.
  set (time := s_time s) in *. assert (Nt : exists a t, time = a :: t). { destruct N0 as (k & H & _). destruct time as [|a t]; [destruct k; discriminate|]. eauto. }
  destruct Nt as (a & t & Et).
  assert (Nd : diffs time <> []). { intros E. assert (K : In (y0 - x0) (diffs time)) by (apply neighbours_diffs; exists x0, y0; split; [assumption|reflexivity]). rewrite E in K. destruct K. }
  destruct (qmin_list_ok _ Nd) as (md' & Emd & Imd & Lmd). apply neighbours_diffs in Imd. destruct Imd as (xm & ym & Nm & Dmd).
  assert (Hmd : md' == md). { pose proof (Dm xm ym Nm). assert (md' <= y0 - x0) by (apply Lmd, neighbours_diffs; exists x0, y0; split; [assumption|reflexivity]). subst md'. lra. }
  assert (Hpos : 0 < md'). { subst md'. destruct Nm as (k & K1 & K2). pose proof (I k (S k) xm ym ltac:(lia) K1 K2). lra. }
  set (h := md' / 2). assert (Hh : h == (1 # 2) * md) by (unfold h; rewrite Hmd; field). assert (Hh2 : md / 2 == (1 # 2) * md) by field. assert (Hh0 : 0 < h) by lra. assert (Hh3 : 2 * h < mg) by lra.
  assert (Lt : get_last time = Ok (last time 0)) by (rewrite Et; apply last_get).
  destruct (span_good mg h time I ltac:(rewrite Et; discriminate) Hh0 Hh3) as [Gn Ggap]. set (new := map (span h) (runs mg time)) in *.
  assert (En : gap_gtis mg h a (last time 0) time = new). { unfold new. rewrite Et. apply gap_gtis_runs. reflexivity. }
  destruct (cross_two_exact srt g new Hs Gg Gn) as (r & Er & Wr & Pr & Gr & Cr).
  { intros x y c d Hxy Hcd. unfold new in Hcd. apply in_map_iff in Hcd. destruct Hcd as (q & E & Hq). destruct (runs_shape mg time I q Hq) as (p & q' & -> & Iq & Lq).
    unfold span in E. cbn [hd] in E. assert (c = p - h) by congruence. assert (d = last (p :: q') 0 + h) by congruence.
    pose proof (NT x y p Hxy (Lq p (or_introl eq_refl))) as [_ N1]. pose proof (NT x y (last (p :: q') 0) Hxy (Lq _ (last_in p q'))) as [N2 _]. subst c d. split; intros K; [apply N1|apply N2]; lra. }
  assert (EL2 : split_by_gti true (touch s) (Some r) n = Ok l).
  { unfold lc_split in EL. fold time in EL. rewrite Emd in EL. cbn [bind] in EL. rewrite Lt, Gs in EL. rewrite Et in EL at 1. cbn [get nth_error bind] in EL. fold h in EL. rewrite En, Er in EL. cbn [bind] in EL. exact EL. }
  assert (FP : Forall2 (piece (touch s)) (filter (enough (touch s) n) r) l) by (apply split_main; try assumption; cbn; fold time; rewrite Et; discriminate).
  set (tol := gti_eps * s_dt s) in *.
  apply Forall_forall. intros p Hp.
  assert (EX : exists iv, In iv r /\ enough (touch s) n iv = true /\ piece (touch s) iv p).
  { clear - FP Hp. remember (filter (enough (touch s) n) r) as r0 eqn:E0. assert (S0 : forall iv, In iv r0 -> In iv r /\ enough (touch s) n iv = true) by (intros iv H; subst r0; apply filter_In in H; exact H). clear E0.
    induction FP as [|iv q r1 l1 Pp FP IH]; [destruct Hp|]. destruct Hp as [<-|Hp]; [exists iv; destruct (S0 iv (or_introl eq_refl)); repeat split; try assumption; apply Pp|]. apply IH; [assumption|]. intros z Hz. apply S0. right. assumption. }
  destruct EX as ([c d] & Hiv & En2 & (Pg & Pd & Pm & m & Fm & E1 & E2 & E3)).
  assert (Ti : s_time p = filter (bin_test tol (s_dt s) (c, d)) time). { rewrite E1. apply (flags_keep _ _ _ _ (fun t => bin_test_iff tol (s_dt s) (c, d) t) Fm). }
  assert (Cn : (n <= length (s_time p))%nat).
  { rewrite Ti. unfold enough in En2. cbn [touch with_gti s_time s_dt] in En2. fold time tol in En2. apply Nat.leb_le in En2. replace (length (filter (bin_test tol (s_dt s) (c, d)) time)) with (S_utils.count (bin_test tol (s_dt s) (c, d)) time); [assumption|].
    clear. generalize time as l0. induction l0 as [|z l0 IH0]; [reflexivity|]. cbn [filter S_utils.count]. destruct (bin_test tol (s_dt s) (c, d) z); cbn [length Nat.add]; rewrite IH0; reflexivity. }
  assert (Mem : forall z, In z (s_time p) <-> In z time /\ bin_in [(c, d)] tol (s_dt s) z). { intros z. rewrite Ti, filter_In, bin_test_iff. reflexivity. }
  split; [|split; [exact Cn|split; [exact Pd|split; [exact Pm|split; [|exists m; split; [exact E1|split; assumption]]]]]].
  - assert (Ht0 : tol == (1 # 1000) * s_dt s) by reflexivity.
    assert (In1 : forall z, In z (s_time p) -> In z time /\ c <= z /\ z < d).
    { intros z Hz. apply Mem in Hz. destruct Hz as [Hz (x & y & [E|[]] & H1 & H2)]. injection E as <- <-. split; [assumption|].
      assert (s_dt s / 2 == (1 # 2) * s_dt s) by field. split; lra. }
    assert (Ex : exists x, In x (s_time p)) by (destruct (s_time p) as [|x xs]; [cbn in Cn; lia|exists x; left; reflexivity]).
    destruct Ex as (x & Hxp).
    destruct (run_of mg time x) as (i & q & Hi & Hx); [apply In1; assumption|]. exists q. split; [apply nth_error_In with i; assumption|].
    intros y Hy. destruct (run_of mg time y) as (j & q2 & Hj & Hy2); [apply In1; assumption|].
    (* two samples of the interval are in the same run *)
    assert (KEY : forall x y i j q q2, In x (s_time p) -> In y (s_time p) -> nth_error (runs mg time) i = Some q -> In x q -> nth_error (runs mg time) j = Some q2 -> In y q2 -> ~ (i < j)%nat).
    { clear x Hxp y q q2 i j Hi Hx Hy Hj Hy2 In1. intros x y i j q q2 Hxp Hyp Hi Hx Hj Hy Hij.
      assert (In1 : forall z, In z (s_time p) -> c <= z /\ z < d).
      { intros z Hz. apply Mem in Hz. destruct Hz as [Hz (u & v & [E|[]] & H1 & H2)]. injection E as <- <-. assert (s_dt s / 2 == (1 # 2) * s_dt s) by field. split; lra. }
      destruct (runs_shape mg time I q ltac:(apply nth_error_In with i; assumption)) as (p1 & q' & -> & Iq & Lq).
      destruct (runs_shape mg time I q2 ltac:(apply nth_error_In with j; assumption)) as (p2 & q2' & -> & Iq2 & Lq2).
      set (e := last (p1 :: q') 0 + h).
      assert (Si : nth_error new i = Some (p1 - h, e)) by (unfold new; rewrite nth_error_map, Hi; reflexivity).
      assert (Sj : nth_error new j = Some (p2 - h, last (p2 :: q2') 0 + h)) by (unfold new; rewrite nth_error_map, Hj; reflexivity).
      pose proof (Ggap i j _ _ _ _ Hij Si Sj) as Lij. pose proof (last_max p1 q' x Iq Hx) as Lx.
      assert (Ly : p2 <= y) by (destruct Hy as [<-|Hy]; [apply Qle_refl|apply Qlt_le_weak, (inc_head p2 q2'); assumption]).
      pose proof (In1 x Hxp). pose proof (In1 y Hyp).
      assert (Cov : covered new e). { apply (Cr e). exists c, d. split; [assumption|]. unfold e in *. split; lra. }
      destruct Cov as (u & v & Huv & H1 & H2). destruct (In_nth_error _ _ Huv) as (k & Hk). destruct (Nat.lt_trichotomy k i) as [Hki|[->|Hki]].
      - pose proof (Ggap k i _ _ _ _ Hki Hk Si). pose proof (last_max p1 q' p1 Iq (or_introl eq_refl)). unfold e in *. lra.
      - rewrite Si in Hk. assert (v = e) by congruence. subst v. lra.
      - pose proof (Ggap i k _ _ _ _ Hki Si Hk). lra. }
    destruct (Nat.lt_trichotomy i j) as [H|[->|H]]; [exfalso; apply (KEY x y i j q q2); assumption| |exfalso; apply (KEY y x j i q2 q); assumption].
    rewrite Hi in Hj. injection Hj as <-. assumption.
  - exists c, d. split; [exact Pg|]. split; [|exact Mem]. intros z H1 H2. apply (Cr z). exists c, d. split; [assumption|split; assumption].
Qed.
Lemma split_short numba srt mg n s : (length (s_time s) <= 1)%nat -> lc_split numba srt mg n s = Err ValueError.
Proof.
  intros H. unfold lc_split. destruct (s_time s) as [|a [|b t]]; [reflexivity|reflexivity|cbn in H; lia].
Qed.
(* samples min_gap apart are not separated when this is the smallest step *)
Lemma split_joined : exists s r, s_time s = [1; 2; 3] /\ s_gti s = None /\ s_dt s = 1 /\ lc_split true (isort_by t_end) 1 1 s = Ok [r] /\ length (s_time r) = 3%nat.
Proof.
  exists (mkSeries [1; 2; 3] [] [] 1 None 0 None None). eexists. split; [reflexivity|]. split; [reflexivity|]. split; [reflexivity|]. split; [vm_compute; reflexivity|reflexivity].
Qed.
(* samples closer than dt: first and last are lost *)
Lemma split_lost : exists s r, s_time s = [0; 1; 3; 5; 7] /\ s_gti s = None /\ s_dt s = 2 /\ lc_split true (isort_by t_end) 10 1 s = Ok [r] /\ ~ In 0 (s_time r) /\ ~ In 7 (s_time r).
Proof.
  exists (mkSeries [0; 1; 3; 5; 7] [] [] 2 None 0 None None). eexists. split; [reflexivity|]. split; [reflexivity|]. split; [reflexivity|]. split; [vm_compute; reflexivity|].
  split; intros [H|[H|[H|[]]]]; discriminate.
Qed.
(* ---------- sorting by counts ---------- *)
Lemma sort_counts_main argsort counts c reverse inplace s : is_argsort argsort -> column counts (s_cols s) = Some c ->
  all_of_length (length (s_time s)) (s_cols s) -> all_of_length (length (s_time s)) (s_errs s) ->
  exists r c', sort_counts argsort counts reverse inplace s = Ok r /\ column counts (s_cols r) = Some c' /\
  (if reverse then nonincreasing c' else nondecreasing c') /\ Permutation (combine (s_time s) c) (combine (s_time r) c') /\
  rows_kept (s_time s) (s_time r) (s_cols s) (s_cols r) /\ rows_kept (s_time s) (s_time r) (s_errs s) (s_errs r) /\
  s_dt r = s_dt s /\ s_mjdref r = s_mjdref s.
Proof.
  intros Ha Hc Lc Le. unfold sort_counts. rewrite find_column, Hc.
  assert (L : length c = length (s_time s)). { apply (Lc counts c). clear - Hc. induction (s_cols s) as [|[k v] l IH]; [discriminate|]. cbn [column] in Hc. destruct (Nat.eqb_spec k counts) as [->|]; [injection Hc as ->; left; reflexivity|right; apply IH; assumption]. }
  destruct (Ha c) as [Hp Hn]. set (o := if reverse then rev (argsort c) else argsort c).
  assert (Po : Permutation o (seq 0 (length (s_time s)))).
  { rewrite <- L. unfold o. destruct reverse; [|assumption]. eapply Permutation_trans; [apply Permutation_sym, Permutation_rev|assumption]. }
  eexists. exists (take_all o c). split; [reflexivity|].
  assert (R : forall c, all_of_length (length (s_time s)) c -> rows_kept (s_time s) (take_all o (s_time s)) c (map_cols (take_all o) c)).
  { intros c0 L0. unfold rows_kept, map_cols. induction c0 as [|[k v] c0 IH]; [constructor|]. constructor.
    - cbn [fst snd]. split; [reflexivity|]. apply Permutation_sym, take_rows; [symmetry; apply (L0 k v); left; reflexivity|assumption].
    - apply IH. intros k' v' Hin. apply (L0 k' v'). right. assumption. }
  cbn [apply_mask s_cols s_time s_errs s_dt s_mjdref]. split.
  { clear - Hc. induction (s_cols s) as [|[k v] l IH]; [discriminate|]. cbn [column map_cols map fst snd] in *. destruct (Nat.eqb k counts); [congruence|apply IH; assumption]. }
  split.
  { unfold take_all, o. destruct reverse; [|assumption]. unfold nonincreasing. rewrite map_rev, rev_involutive. assumption. }
  split; [apply Permutation_sym, take_rows; [symmetry; assumption|assumption]|]. split; [apply R; assumption|]. split; [apply R; assumption|]. split; reflexivity.
Qed.
(* ---------- good time intervals ---------- *)
Lemma lc_apply_main numba inplace s g : s_time s <> [] -> nondecreasing (s_time s) -> gti_of s = Some g -> g <> [] -> well_formed g -> 0 < s_dt s ->
  (numba = false \/ all_hold_bins g ((1 # 1000) * s_dt s) (s_dt s) (s_time s)) ->
  exists r ts d m lo hi, lc_apply_gtis numba inplace s = Ok (r, ts, d) /\ flags (bin_in g ((1 # 1000) * s_dt s) (s_dt s)) (s_time s) m /\
    s_time r = keep m (s_time s) /\ s_cols r = map_cols (keep m) (s_cols s) /\ s_errs r = map_cols (keep m) (s_errs s) /\ s_dt r = s_dt s /\
    gti_of r = Some g /\ ts = map (fun t => t - s_dt s / 2) (s_time r) /\ smallest (flatten g) lo /\ largest (flatten g) hi /\ d == hi - lo.
Proof.
  intros Nt Hnd Gs Ng W Hd Hb. unfold lc_apply_gtis. rewrite Gs.
  assert (CK : check_gtis g = Ok tt) by (apply check_gtis_iff; split; assumption). rewrite CK. cbn [bind].
  destruct (mask_ok numba (s_time s) g (s_dt s) Nt Hnd Ng W (or_introl Hd) Hb) as (m & new & E & F).
  unfold mask_of. assert (T : s_gti (touch s) = Some g) by (unfold touch; cbn; assumption). rewrite T. cbn [touch with_gti s_time s_dt]. rewrite E. cbn [bind fst].
  assert (Nf : flatten g <> []) by (destruct g as [|[x y] g]; [congruence|discriminate]).
  destruct (qmax_list_ok _ Nf) as (hi & Eh & H1 & H2). destruct (qmin_list_ok _ Nf) as (lo & El & H3 & H4). rewrite Eh, El. cbn [bind].
  do 3 eexists. exists m, lo, hi. split; [reflexivity|]. split; [exact F|]. cbn [apply_mask s_time s_cols s_errs s_dt with_gti]. rewrite select_keep, !map_cols_select.
  split; [reflexivity|]. split; [reflexivity|]. split; [reflexivity|]. split; [reflexivity|]. split.
  { destruct inplace; unfold gti_of at 1; cbn [apply_mask s_gti with_gti touch]; rewrite ?gti_touch, Gs; reflexivity. }
  split; [reflexivity|]. split; [split; assumption|]. split; [split; assumption|reflexivity].
Qed.
(* tstart is one value per sample *)
Lemma lc_apply_tstart : exists s r ts d, s_time s = [1; 2; 3] /\ lc_apply_gtis true true s = Ok (r, ts, d) /\ s_time r = [1; 2; 3] /\ length ts = 3%nat.
Proof.
  exists (mkSeries [1; 2; 3] [] [] 1 None 0 None None). do 3 eexists. split; [reflexivity|]. split; [vm_compute; reflexivity|]. split; reflexivity.
Qed.
(* ---------- checks of values ---------- *)
Lemma all_finite_iff l : all_finite l = true <-> forall i, nth_error l i <> Some None.
Proof.
  unfold all_finite. rewrite forallb_forall. split.
  - intros H i E. apply nth_error_In in E. specialize (H _ E). discriminate.
  - intros H [v|] Hv; [reflexivity|]. destruct (In_nth_error _ _ Hv) as (i & Hi). destruct (H i Hi).
Qed.
Lemma finite_kept (P : Q -> Prop) time m v : flags P time m -> length v = length time ->
  (all_finite (select v m) = true <-> bad_only (fun t => ~ P t) time v).
Proof.
  rewrite select_keep. intros [L F] Lv. revert m v L F Lv. induction time as [|t time IH]; intros [|b m] [|x v] L F Lv; try discriminate.
  - split; [intros _ i t Hi; destruct i; discriminate|reflexivity].
  - assert (K := IH m v ltac:(cbn in L; lia) (fun i t Hi => F (S i) t Hi) ltac:(cbn in Lv; lia)). pose proof (F 0%nat t eq_refl) as F0. cbn in F0.
    assert (D : bad_only (fun t => ~ P t) (t :: time) (x :: v) <-> (x = None -> ~ P t) /\ bad_only (fun t => ~ P t) time v).
    { split.
      - intros H. split; [intros ->; exact (H 0%nat t eq_refl eq_refl)|]. intros i u H1 H2. exact (H (S i) u H1 H2).
      - intros [H1 H2] [|i] u E1 E2; [cbn in E1, E2; injection E1 as <-; apply H1; congruence|exact (H2 i u E1 E2)]. }
    rewrite D, <- K. cbn [keep]. destruct b.
    + cbn [all_finite forallb]. destruct x as [x|]; cbn [andb].
      * split; [intros H; split; [discriminate|exact H]|intros [_ H]; exact H].
      * split; [discriminate|]. intros [H _]. exfalso. apply H; [reflexivity|apply F0; reflexivity].
    + split; [intros H; split; [|exact H]|intros [_ H]; exact H]. intros _ HP. apply F0 in HP. discriminate.
Qed.
Lemma bad_if_all (P : Q -> Prop) time v : length v = length time -> all_finite v = true -> bad_only P time v.
Proof. intros _ H i t H1 H2. rewrite all_finite_iff in H. destruct (H i H2). Qed.
Lemma checks_main numba time counts err g : time <> [] -> nondecreasing time -> g <> [] -> well_formed g -> gaps_between g ->
  (numba = false \/ forall a b, In (a, b) g -> exists t, In t time /\ a <= t /\ t <= b) ->
  length counts = length time -> (forall e, err = Some e -> length e = length time) ->
  (initial_checks numba time counts err (Some g) = Ok tt \/ initial_checks numba time counts err (Some g) = Err ValueError) /\
  (initial_checks numba time counts err (Some g) = Ok tt <->
   bad_only (fun t => ~ covered_closed g t) time counts /\ forall e, err = Some e -> bad_only (fun t => ~ covered_closed g t) time e).
Proof.
  intros Nt Hnd Ng W Gg Hb Lc Le. unfold initial_checks.
  destruct (mask_ok numba time g 0 Nt Hnd Ng W) as (m & new & E & F).
  { right. split; [lra|assumption]. }
  { destruct Hb as [Hb|Hb]; [left; assumption|]. right. intros a b Hab. destruct (Hb a b Hab) as (t & Ht & H1 & H2). exists t. split; [assumption|]. split; [change (a - gti_eps * 0 <= t - 0 / 2)|change (t + 0 / 2 <= b + gti_eps * 0)]; unfold gti_eps; setoid_replace (0 / 2) with 0 by reflexivity; lra. }
  rewrite E. cbn [bind fst].
  assert (F' : flags (covered_closed g) time m).
  { destruct F as [L F]. split; [assumption|]. intros i t Hi. rewrite (F i t Hi). unfold bin_in, covered_closed, gti_eps. assert (Z0 : 0 / 2 == 0) by reflexivity. split; intros (a & b & Hab & H1 & H2); exists a, b; (split; [assumption|]); split; lra. }
  assert (BAD : forall v, length v = length time -> (negb (all_finite v) && negb (all_finite (select v m)))%bool = false <-> bad_only (fun t => ~ covered_closed g t) time v).
  { intros v Lv. destruct (all_finite v) eqn:Ev; cbn [negb andb].
    - split; [intros _; apply bad_if_all; assumption|reflexivity].
    - rewrite <- (finite_kept _ _ _ _ F' Lv). destruct (all_finite (select v m)); cbn; split; congruence. }
  specialize (BAD counts Lc) as B1.
  destruct (negb (all_finite counts) && negb (all_finite (select counts m)))%bool; cbn [orb].
  - split; [right; reflexivity|]. split; [discriminate|]. intros [H _]. apply B1 in H. discriminate.
  - destruct err as [e|].
    + specialize (BAD e (Le e eq_refl)) as B2. destruct (negb (all_finite e) && negb (all_finite (select e m)))%bool.
      * split; [right; reflexivity|]. split; [discriminate|]. intros [_ H]. specialize (H e eq_refl). apply B2 in H. discriminate.
      * split; [left; reflexivity|]. split; [|reflexivity]. intros _. split; [apply B1; reflexivity|]. intros e' He. injection He as <-. apply B2. reflexivity.
    + split; [left; reflexivity|]. split; [|reflexivity]. intros _. split; [apply B1; reflexivity|discriminate].
Qed.
Lemma checks_no_gti numba time counts err : 
  initial_checks numba time counts err None = Ok tt <-> (forall i, nth_error counts i <> Some None) /\ forall e i, err = Some e -> nth_error e i <> Some None.
Proof.
  unfold initial_checks. cbn [bind]. rewrite !andb_true_r. rewrite <- all_finite_iff. destruct (all_finite counts); cbn [negb orb andb].
  - destruct err as [e|].
    + rewrite andb_true_r. pose proof (all_finite_iff e) as K. destruct (all_finite e); cbn [negb].
      * split; [|reflexivity]. intros _. split; [reflexivity|]. intros e' i He. injection He as <-. apply K. reflexivity.
      * split; [discriminate|]. intros [_ H]. assert (X : false = true) by (apply K; intros i; apply (H e i eq_refl)). discriminate.
    + split; [intros _; split; [reflexivity|discriminate]|reflexivity].
  - split; [discriminate|]. intros [H _]. discriminate.
Qed.
