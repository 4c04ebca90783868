(* P_lcops3.v: splitting at gaps, main results; sorting by counts; good time intervals; checks. *)
From Coq Require Import Lqa Lia Permutation.
From Verif Require Import Np Lib S_gti S_seg S_base S_lc S_utils M_gti M_seg M_merge M_utils M_lc M_base M_segan S_lcops P_gti_cross P_gti_final P_seg_cut P_helpers P_base P_base2 P_base4 P_segan M_lcops P_lcops P_lcops2.
Open Scope Q_scope.

Lemma inc_nondec2 l : increasing l -> nondecreasing l.
Proof. intros H i j x y Hij Hi Hj. apply Qlt_le_weak, (H i j x y); assumption. Qed.
Lemma split_total s g n : s_time s <> [] -> increasing (s_time s) -> median (diffs (s_time s)) = Some (s_dt s) -> 0 < s_dt s ->
  g <> [] -> well_formed g -> all_hold_bins g (gti_eps * s_dt s) (s_dt s) (s_time s) -> exists l, split_by_gti true s (Some g) n = Ok l.
Proof.
  intros Nt I Hm Hd Ng W A. unfold split_by_gti.
  destruct (gti_border_bins_total g (s_time s) (s_dt s) gti_eps) as (b & ->); [apply inc_nondec2; assumption|assumption|lra|vm_compute; discriminate|vm_compute; discriminate| |].
  - intros x y Hxy. split; [apply (proj1 W x y Hxy)|]. exact (A x y Hxy).
  - cbn [bind]. assert (K : forall gb, incl (map fst gb) g -> exists l, split_loop true s n gb = Ok l).
    { induction gb as [|[iv [i j]] gb IH]; intros H; [exists []; reflexivity|]. cbn [split_loop].
      destruct IH as (l & E); [intros z Hz; apply H; right; assumption|]. destruct (j - i <? n)%nat; [exists l; assumption|].
      destruct iv as [a c]. assert (Hin : In (a, c) g) by (apply H; left; reflexivity).
      destruct (mask_ok true (s_time s) [(a, c)] (s_dt s)) as (m' & new' & Em & Fm).
      - assumption.
      - apply inc_nondec2. assumption.
      - discriminate.
      - apply well_formed_one. apply (proj1 W). assumption.
      - left. assumption.
      - right. intros x y [Ex|[]]. injection Ex as <- <-. exact (A a c Hin).
      - rewrite (mask_median _ _ _ Nt Hm), Em. cbn [bind fst]. rewrite E. cbn [bind]. eexists. reflexivity. }
    apply K. intros z Hz. apply in_map_iff in Hz. destruct Hz as ([p q] & <- & Hz). apply in_combine_l in Hz. assumption.
Qed.
Lemma last_get (a : Q) l : get_last (a :: l) = Ok (last (a :: l) 0).
Proof.
  destruct (exists_last (l := a :: l) ltac:(discriminate)) as (l' & x & E). rewrite E. unfold get_last. rewrite rev_app_distr. cbn [rev app]. rewrite last_last. reflexivity.
Qed.
Lemma gti_touch s : gti_of (touch s) = gti_of s.
Proof. unfold touch, gti_of. cbn [with_gti s_gti s_time s_dt]. destruct (s_gti s); [reflexivity|]. destruct (get (s_time s) 0), (get_last (s_time s)); reflexivity. Qed.
(* the default good time: the pieces are the runs of samples with enough of them *)
Lemma split_runs srt mg n s : sorts_by t_end srt -> increasing (s_time s) -> s_gti s = None -> 0 < s_dt s -> s_dt s < mg -> (1 <= n)%nat ->
  smallest_step (s_time s) (s_dt s) -> median (diffs (s_time s)) = Some (s_dt s) ->
  exists l, lc_split true srt mg n s = Ok l /\ map s_time l = filter (fun r => Nat.leb n (length r)) (runs mg (s_time s)) /\
    Forall (fun r => s_dt r = s_dt s /\ s_mjdref r = s_mjdref s /\
      exists m, s_time r = keep m (s_time s) /\ s_cols r = map_cols (keep m) (s_cols s) /\ s_errs r = map_cols (keep m) (s_errs s)) l.
Proof.
  intros Hs I G0 Hd Hm Hn [(x0 & y0 & N0 & D0) Dm] Md.
  set (time := s_time s) in *. assert (Nt : exists a t, time = a :: t). { destruct N0 as (k & H & _). destruct time as [|a t]; [destruct k; discriminate|]. eauto. }
  destruct Nt as (a & t & Et).
  assert (Nd : diffs time <> []). { intros E. assert (K : In (y0 - x0) (diffs time)) by (apply neighbours_diffs; exists x0, y0; split; [assumption|reflexivity]). rewrite E in K. destruct K. }
  destruct (qmin_list_ok _ Nd) as (md & Emd & Imd & Lmd). apply neighbours_diffs in Imd. destruct Imd as (xm & ym & Nm & Dmd).
  assert (Hmd : md == s_dt s). { pose proof (Dm xm ym Nm). assert (md <= y0 - x0) by (apply Lmd, neighbours_diffs; exists x0, y0; split; [assumption|reflexivity]). subst md. lra. }
  set (h := md / 2). assert (Hh : h == s_dt s / 2) by (unfold h; rewrite Hmd; reflexivity).
  assert (Hh2 : s_dt s / 2 == (1 # 2) * s_dt s) by field. assert (Hh0 : 0 < h) by lra. assert (Hh3 : 2 * h < mg) by lra.
  assert (Lt : get_last time = Ok (last time 0)) by (rewrite Et; apply last_get).
  assert (Gs : gti_of s = Some [(a - s_dt s / 2, last time 0 + s_dt s / 2)]).
  { unfold gti_of. rewrite G0. fold time. rewrite Lt, Et. reflexivity. }
  destruct (span_good mg h time I ltac:(rewrite Et; discriminate) Hh0 Hh3) as [Gn Gg]. set (new := map (span h) (runs mg time)) in *.
  assert (En : gap_gtis mg h a (last time 0) time = new). { unfold new. rewrite Et. apply gap_gtis_runs. reflexivity. }
  assert (Bn : forall x y, In (x, y) new -> exists p q, x = p - h /\ y = q + h /\ In p time /\ In q time /\ p <= q).
  { intros x y Hxy. unfold new in Hxy. apply in_map_iff in Hxy. destruct Hxy as (r & E & Hr). destruct (runs_shape mg time I r Hr) as (p & r' & -> & Ir & Lr).
    exists p, (last (p :: r') 0). unfold span in E. cbn [hd] in E. split; [congruence|]. split; [congruence|]. split; [apply Lr; left; reflexivity|]. split; [apply Lr, last_in|].
    apply last_max; [assumption|left; reflexivity]. }
  assert (Bt : forall p, In p time -> a <= p /\ p <= last time 0).
  { intros p Hp. rewrite Et in *. split; [|apply last_max; assumption]. destruct Hp as [<-|Hp]; [apply Qle_refl|apply Qlt_le_weak, (inc_head a t); assumption]. }
  destruct (cross_two_exact srt [(a - s_dt s / 2, last time 0 + s_dt s / 2)] new Hs) as (r & Er & Wr & Pr & Gr & Cr).
  { split; [discriminate|]. pose proof (Bt (last time 0) ltac:(rewrite Et; apply last_in)). split; [apply well_formed_one; lra|]. intros x y [E|[]]. injection E as <- <-. lra. }
  { assumption. }
  { intros x y c d [E|[]] Hcd. injection E as <- <-. destruct (Bn c d Hcd) as (p & q & -> & -> & Hp & Hq & _). pose proof (Bt p Hp). pose proof (Bt q Hq). split; lra. }
  assert (SI : same_intervals r new).
  { destruct Gn as (Nn & Wn & Pn). apply cover_unique; try assumption. intros z. rewrite Cr. split; [intros [_ K]; exact K|]. intros K. split; [|exact K].
    destruct K as (c & d & Hcd & H1 & H2). destruct (Bn c d Hcd) as (p & q & -> & -> & Hp & Hq & _). pose proof (Bt p Hp). pose proof (Bt q Hq).
    exists (a - s_dt s / 2), (last time 0 + s_dt s / 2). split; [left; reflexivity|]. split; lra. }
  assert (Nr : r <> []). { intros E0. assert (K : forall q : gtis, same_intervals [] q -> q = []) by (intros q0 H0; inversion H0; reflexivity). destruct Gn as [Nn _]. apply Nn, K. rewrite <- E0. exact SI. }
  set (tol := gti_eps * s_dt s). assert (Ht0 : 0 < tol) by (unfold tol, gti_eps; lra). assert (Ht1 : tol < s_dt s) by (unfold tol, gti_eps; lra).
  assert (FB : Forall2 (fun iv q => filter (bin_test tol (s_dt s) iv) time = q) r (runs mg time)).
  { assert (K : forall k iv q, nth_error r k = Some iv -> nth_error (runs mg time) k = Some q -> filter (bin_test tol (s_dt s) iv) time = q).
    { intros k iv q Hk Hq. assert (Hin : In q (runs mg time)) by (apply nth_error_In with k; assumption). destruct (runs_shape mg time I q Hin) as (p & q' & -> & Iq & Lq).
      assert (Sp : fst iv == p - h /\ snd iv == last (p :: q') 0 + h).
      { assert (Hs2 : nth_error new k = Some (span h (p :: q'))) by (unfold new; rewrite nth_error_map, Hq; reflexivity). clear - SI Hk Hs2. revert k Hk Hs2. induction SI as [|u v r new [U V] SI IH]; intros k Hk Hs2; [destruct k; discriminate|].
        destruct k as [|k]; [|apply (IH k); assumption]. cbn in Hk, Hs2. injection Hk as <-. assert (E : v = span h (p :: q')) by congruence. subst v. split; assumption. }
      destruct Sp as [S1 S2]. apply (run_filter mg time _ k (p :: q') I ltac:(lra) Hq).
      - intros x Hx. assert (p <= x) by (destruct Hx as [<-|Hx]; [apply Qle_refl|apply Qlt_le_weak, (inc_head p q'); assumption]). pose proof (last_max p q' x Iq Hx).
        unfold bin_test. apply andb_true_iff. split; qb; lra.
      - intros x [H|H].
        + pose proof (H p (or_introl eq_refl)). unfold bin_test. apply andb_false_iff. left. qb. lra.
        + pose proof (H _ (last_in p q')). unfold bin_test. apply andb_false_iff. right. qb. lra. }
    assert (Lr : length r = length (runs mg time)). { clear - SI. unfold new in SI. assert (K : length r = length (map (span h) (runs mg time))) by (induction SI; cbn; congruence). rewrite K. apply map_length. }
    clear - K Lr. revert K Lr. generalize (runs mg time). induction r as [|iv r IH]; intros [|q l] K L; try discriminate; constructor; [apply (K 0%nat); reflexivity|]. apply IH; [intros k; apply (K (S k))|cbn in L; lia]. }
  assert (Tt : s_time (touch s) = time) by reflexivity.
  assert (Dt : s_dt (touch s) = s_dt s) by reflexivity.
  destruct (split_total (touch s) r n) as (l & El); try assumption.
  { rewrite Tt, Et. discriminate. }
  { intros x y Hxy. destruct (In_nth_error _ _ Hxy) as (k & Hk).
    assert (Hq : exists q, nth_error (runs mg time) k = Some q /\ filter (bin_test tol (s_dt s) (x, y)) time = q).
    { clear - FB Hk. revert k Hk. induction FB as [|u v r l H FB IH]; intros k Hk; [destruct k; discriminate|]. destruct k as [|k]; [injection Hk as <-; exists v; split; [reflexivity|assumption]|apply (IH k Hk)]. }
    destruct Hq as (q & Hq & F). destruct (runs_shape mg time I q ltac:(apply nth_error_In with k; assumption)) as (p & q' & -> & _ & Lq).
    assert (Hp : In p (filter (bin_test tol (s_dt s) (x, y)) time)) by (rewrite F; left; reflexivity). apply filter_In in Hp. destruct Hp as [Hp1 Hp2]. exists p. split; [assumption|].
    unfold bin_test in Hp2. apply andb_true_iff in Hp2. destruct Hp2 as [U V]. qb. cbn [fst snd] in U, V. split; assumption. }
  exists l. assert (EL : lc_split true srt mg n s = Ok l).
  { unfold lc_split. fold time. rewrite Emd. cbn [bind]. rewrite Lt. rewrite Gs. rewrite Et at 1. cbn [get nth_error bind]. fold h. rewrite En, Er. cbn [bind]. exact El. }
  split; [exact EL|].
  pose proof (split_main (touch s) r n l ltac:(rewrite Tt, Et; discriminate) I Md Hd Hn Wr El) as FP.
  split.
  - assert (EN : forall iv q, filter (bin_test tol (s_dt s) iv) time = q -> enough (touch s) n iv = Nat.leb n (length q)).
    { intros iv q <-. unfold enough. cbn [touch with_gti s_time s_dt]. fold time tol. f_equal. generalize time as l0. induction l0 as [|z l0 IH0]; [reflexivity|]. cbn [filter S_utils.count]. destruct (bin_test tol (s_dt s) iv z); cbn [length Nat.add]; rewrite IH0; reflexivity. }
    assert (PT : forall iv p q, piece (touch s) iv p -> filter (bin_test tol (s_dt s) iv) time = q -> s_time p = q).
    { intros iv p q (_ & _ & _ & m & Fm & E & _) <-. rewrite E, Tt. apply (flags_keep _ _ _ _ (fun t => bin_test_iff tol (s_dt s) iv t) Fm). }
    clear - FB FP EN PT. revert l FP. induction FB as [|iv q r1 rs H FB IH]; intros l FP; [inversion FP; reflexivity|].
    cbn [filter] in FP |- *. rewrite (EN _ _ H) in FP. destruct (n <=? length q)%nat; [|apply IH; assumption].
    inversion FP as [|x p r0 l0 Pp FP0]. clear FP. subst. cbn [map]. f_equal; [apply (PT iv p _ Pp); reflexivity|apply IH; assumption].
  - clear - FP. remember (filter (enough (touch s) n) r) as r0 eqn:E0. clear E0. induction FP as [|iv p r1 l1 Pp FP IH]; constructor; [|assumption]. destruct Pp as (_ & P1 & P2 & m & _ & E & E2 & E3). split; [exact P1|]. split; [exact P2|]. exists m. split; [exact E|split; assumption].
Qed.
