(* P_lc_make.v: proofs about make_lightcurve and from_lc. *)
From Verif Require Import Np Lib S_gti S_seg S_utils S_lc M_gti M_seg M_utils M_lc P_seg_regions P_seg_cut P_rebin P_rebin2 P_hist P_helpers.
From Coq Require Import Lqa Sorted Permutation.
Open Scope Q_scope.

Lemma count_filter {A} (p q : A -> bool) l : count p (filter q l) = count (fun a => q a && p a)%bool l.
Proof. induction l as [|a l IH]; [reflexivity|]. simpl. destruct (q a); simpl; rewrite IH; reflexivity. Qed.
Lemma count_map {A B} (f : A -> B) (p : B -> bool) l : count p (map f l) = count (fun a => p (f a)) l.
Proof. induction l as [|a l IH]; [reflexivity|]. simpl. rewrite IH. reflexivity. Qed.
Lemma count_sort p l : count p (np_sort l) = count p l.
Proof. apply count_perm, isort_by_perm. Qed.
Lemma within_iff a b t : within a b t = true <-> a <= t /\ t < b.
Proof.
  unfold within. rewrite andb_true_iff. split; intros [H1 H2]; split; qb; try assumption; try (apply qle_t; assumption); apply qlt_t; assumption.
Qed.
Lemma bool_iff (a b : bool) : (a = true <-> b = true) -> a = b.
Proof. destruct a, b; intuition congruence. Qed.

(* Floor and bins *)
Lemma floor_bin s dt t (i : nat) : 0 < dt ->
  (Qfloor ((t - s) / dt) =? Z.of_nat i)%Z = within (bin_edge s dt i) (bin_edge s dt (S i)) t.
Proof.
  intros Hd. apply bool_iff. rewrite Z.eqb_eq, floor_iff, within_iff. unfold bin_edge.
  assert (E : (t - s) / dt * dt == t - s) by (field; lra).
  set (q := (t - s) / dt) in *. assert (E2 : inject_Z (Z.of_nat (S i)) = inject_Z (Z.of_nat i + 1)) by (f_equal; lia).
  rewrite E2. set (a := inject_Z (Z.of_nat i)). set (b := inject_Z (Z.of_nat i + 1)).
  split; intros [H1 H2]; split; nra.
Qed.
Lemma edge_mono s dt i j : 0 < dt -> (i <= j)%nat -> bin_edge s dt i <= bin_edge s dt j.
Proof. intros Hd H. unfold bin_edge. assert (K := zof_le i j H). nra. Qed.
Lemma edge_lt s dt i j : 0 < dt -> (i < j)%nat -> bin_edge s dt i < bin_edge s dt j.
Proof. intros Hd H. unfold bin_edge. assert (K := zof_lt i j H). nra. Qed.
Lemma edge_0 s dt : bin_edge s dt 0 == s.
Proof. unfold bin_edge. change (inject_Z (Z.of_nat 0)) with 0. ring. Qed.
Lemma edge_S s dt i : bin_edge s dt (S i) == bin_edge s dt i + dt.
Proof. unfold bin_edge. rewrite zof_S. ring. Qed.

Lemma bins_total s dt l : 0 < dt -> forall n k,
  sum_of (map (fun i => inject_Z (Z.of_nat (count (within (bin_edge s dt i) (bin_edge s dt (S i))) l))) (seq k n)) ==
  inject_Z (Z.of_nat (count (within (bin_edge s dt k) (bin_edge s dt (k + n))) l)).
Proof.
  intros Hd. induction n as [|n IH]; intros k.
  - simpl. replace (count (within (bin_edge s dt k) (bin_edge s dt (k + 0))) l) with 0%nat; [reflexivity|].
    rewrite Nat.add_0_r. symmetry. induction l as [|a l IHl]; [reflexivity|]. cbn [count]. rewrite IHl.
    destruct (within _ _ a) eqn:E; [|reflexivity]. apply within_iff in E. lra.
  - cbn [seq map sum_of]. rewrite IH. change (inject_Z (Z.of_nat ?a) + inject_Z (Z.of_nat ?b)) with
      (inject_Z (Z.of_nat a) + inject_Z (Z.of_nat b)). rewrite <- inject_Z_plus, <- Nat2Z.inj_add.
    replace (k + S n)%nat with (S k + n)%nat by lia.
    assert (A := edge_lt s dt k (S k) Hd ltac:(lia)). assert (B := edge_mono s dt (S k) (S k + n) Hd ltac:(lia)).
    set (e0 := bin_edge s dt k) in *. set (e1 := bin_edge s dt (S k)) in *. set (e2 := bin_edge s dt (S k + n)) in *.
    replace (count (within e0 e1) l + count (within e1 e2) l)%nat with (count (within e0 e2) l); [reflexivity|].
    clear IH. induction l as [|a l IHl]; [reflexivity|]. cbn [count]. rewrite IHl.
    destruct (within e0 e2 a) eqn:E02; destruct (within e0 e1 a) eqn:E01; destruct (within e1 e2 a) eqn:E12; try lia; exfalso;
    repeat match goal with H : within _ _ _ = true |- _ => apply within_iff in H end;
    repeat match goal with H : within _ _ _ = false |- _ => unfold within in H; apply andb_false_iff in H; destruct H; qb end; lra.
Qed.

(* np.bincount *)
Lemma fold_max_bound l n : (forall z, In z l -> (z <= n)%Z) -> fold_left Z.max l n = n.
Proof.
  induction l as [|a l IH]; intros H; [reflexivity|]. simpl. rewrite Z.max_l by (apply H; left; reflexivity).
  apply IH. intros z Hz. apply H. right. assumption.
Qed.
Lemma bincount_ok l n : (forall z, In z l -> (0 <= z < Z.of_nat n)%Z) ->
  bincount l (Z.of_nat n) = Ok (map (fun i => count (fun z => z =? Z.of_nat i)%Z l) (seq 0 n)).
Proof.
  intros H. unfold bincount. replace (Z.of_nat n <? 0)%Z with false by (symmetry; apply Z.ltb_ge; lia).
  replace (existsb (fun z => z <? 0)%Z l) with false.
  2:{ symmetry. apply not_true_is_false. intros E. apply existsb_exists in E. destruct E as (z & Hz & E).
      apply Z.ltb_lt in E. specialize (H z Hz). lia. }
  cbn [orb]. cbv zeta. rewrite fold_max_bound.
  2:{ intros z Hz. apply in_map_iff in Hz. destruct Hz as (w & <- & Hw). specialize (H w Hw). lia. }
  rewrite Nat2Z.id. f_equal. apply map_ext. intros i. apply filter_count.
Qed.
(* np.histogram *)
Lemma histogram_edges_ok e l : forall m k, (forall v, In v l -> v < e (k + m)%nat) -> 
  np_histogram_edges (map e (seq k (S m))) l = map (fun i => count (within (e i) (e (S i))) l) (seq k m).
Proof.
  induction m as [|m IH]; intros k H; [reflexivity|].
  specialize (IH (S k)). change (seq k (S (S m))) with (k :: S k :: seq (S (S k)) m).
  change (seq (S k) (S m)) with (S k :: seq (S (S k)) m) in IH. cbn [map] in IH |- *.
  cbn [np_histogram_edges]. cbn [np_histogram_edges] in IH. rewrite IH.
  2:{ intros v Hv. specialize (H v Hv). replace (k + S m)%nat with (S k + m)%nat in H by lia. assumption. }
  change (seq k (S m)) with (k :: seq (S k) m). cbn [map]. f_equal. rewrite filter_count. apply count_ext.
  intros a Ha. specialize (H a Ha). destruct m as [|m]; [|reflexivity]. cbn [seq map]. unfold within. f_equal.
  replace (k + 1)%nat with (S k) in H by lia. replace (qlt a (e (S k))) with true by (symmetry; apply qlt_t; assumption).
  apply qle_t. lra.
Qed.

(* The number of bins *)
Lemma timebin_is len dt (n : nat) : 0 < dt ->
  inject_Z (Z.of_nat n) * dt <= len + dt * (1 # 100) -> len + dt * (1 # 100) < (inject_Z (Z.of_nat n) + 1) * dt ->
  (if qle (99 # 100) (len / dt - inject_Z (py_int (len / dt))) then (py_int (len / dt) + 1)%Z else py_int (len / dt)) = Z.of_nat n.
Proof.
  intros Hd H1 H2. assert (E : len / dt * dt == len) by (field; lra). set (q := len / dt) in *. clearbody q.
  assert (A : inject_Z (Z.of_nat n) - (1 # 100) <= q) by nra.
  assert (B : q < inject_Z (Z.of_nat n) + (99 # 100)) by nra.
  assert (N0 := zof_0 n).
  destruct (Qlt_le_dec q (inject_Z (Z.of_nat n))) as [C|C].
  - destruct n as [|n].
    + change (inject_Z (Z.of_nat 0)) with 0 in *. assert (P : py_int q = 0%Z).
      { unfold py_int. replace (qle 0 q) with false by (symmetry; apply qle_f; assumption).
        assert (K := Qceiling_lt q). assert (K2 := Qle_ceiling q). 
        assert ((Qceiling q <= 0)%Z). { apply Z.lt_pred_le. rewrite Zlt_Qlt. replace (Z.pred (Qceiling q)) with (Qceiling q - 1)%Z by lia. change (inject_Z 0) with 0. lra. }
        assert ((-1 < Qceiling q)%Z). { rewrite Zlt_Qlt. change (inject_Z (-1)) with (-(1)). lra. } lia. }
      rewrite P. change (inject_Z 0) with 0. replace (qle (99 # 100) (q - 0)) with false; [reflexivity|]. symmetry. apply qle_f. lra.
    + rewrite zof_S in *. assert (P : py_int q = Z.of_nat n).
      { unfold py_int. assert (K := zof_0 n). replace (qle 0 q) with true by (symmetry; apply qle_t; lra).
        apply floor_iff. rewrite inject_Z_plus. change (inject_Z 1) with 1. lra. }
      rewrite P. replace (qle (99 # 100) (q - inject_Z (Z.of_nat n))) with true by (symmetry; apply qle_t; lra). lia.
  - assert (P : py_int q = Z.of_nat n).
    { unfold py_int. replace (qle 0 q) with true by (symmetry; apply qle_t; lra).
      apply floor_iff. rewrite inject_Z_plus. change (inject_Z 1) with 1. lra. }
    rewrite P. replace (qle (99 # 100) (q - inject_Z (Z.of_nat n))) with false by (symmetry; apply qle_f; lra). reflexivity.
Qed.

Lemma arange_grid a step n b : 0 < step -> b == a + inject_Z (Z.of_nat n) * step ->
  arange a b step = map (fun i => a + inject_Z (Z.of_nat i) * step) (seq 0 n).
Proof.
  intros Hs E. unfold arange. replace (arange_len a b step) with n; [reflexivity|].
  destruct (Nat.lt_trichotomy n (arange_len a b step)) as [H|[H|H]]; [|assumption|]; exfalso.
  - apply arange_len_spec in H; [|assumption]. lra.
  - assert (~ (arange_len a b step < arange_len a b step)%nat) as K by lia. apply K. apply arange_len_spec; [assumption|].
    assert (L := zof_lt _ _ H). nra.
Qed.

Definition lc_is (toa : list Q) (s dt : Q) (n : nat) (gti : option (list (Q * Q))) (lc : lightcurve) : Prop :=
  lc_dt lc = dt /\ length (lc_time lc) = n /\ ((0 < n)%nat -> lc_gti lc = gti) /\
  (forall i t, nth_error (lc_time lc) i = Some t -> t == bin_edge s dt i + dt / 2) /\
  lc_counts lc = map (fun i => inject_Z (Z.of_nat (count (within (bin_edge s dt i) (bin_edge s dt (S i))) toa))) (seq 0 n).

Lemma good_bins toa s dt n i : 0 < dt -> (i < n)%nat ->
  count (fun t => Qfloor ((t - s) / dt) =? Z.of_nat i)%Z (filter (fun t => qle s t && qlt t (s + inject_Z (Z.of_nat n) * dt))%bool (np_sort toa)) =
  count (within (bin_edge s dt i) (bin_edge s dt (S i))) toa /\
  count (within (bin_edge s dt i) (bin_edge s dt (S i))) (filter (fun t => qle s t && qlt t (s + inject_Z (Z.of_nat n) * dt))%bool (np_sort toa)) =
  count (within (bin_edge s dt i) (bin_edge s dt (S i))) toa.
Proof.
  intros Hd Hi. 
  assert (K : count (within (bin_edge s dt i) (bin_edge s dt (S i))) (filter (fun t => qle s t && qlt t (s + inject_Z (Z.of_nat n) * dt))%bool (np_sort toa)) =
     count (within (bin_edge s dt i) (bin_edge s dt (S i))) toa).
  { rewrite count_filter, count_sort. apply count_ext. intros t _. apply bool_iff. rewrite andb_true_iff, within_iff.
    change (qle s t && qlt t (s + inject_Z (Z.of_nat n) * dt))%bool with (within s (bin_edge s dt n) t). rewrite within_iff.
    assert (A := edge_mono s dt 0 i Hd ltac:(lia)). assert (B := edge_mono s dt (S i) n Hd ltac:(lia)).
    assert (C := edge_0 s dt). split; [tauto|]. intros [H1 H2]. repeat split; lra. }
  split; [|exact K]. rewrite <- K. apply count_ext. intros t _. apply floor_bin. assumption.
Qed.

Lemma make_core toa dt tseg tstart gti use_hist s len n : 0 < dt ->
  (let! t0 := match tstart with Some t => Ok t | None => let! t0 := get (np_sort toa) 0 in
                match gti with Some g => qmin_list (flatten g) | None => Ok t0 end end in
   let! l := match tseg with
               | Some t => Ok t
               | None => let! tl := get_last (np_sort toa) in
                         match gti with
                         | Some g => let! m := qmax_list (flatten g) in Ok (m - t0)
                         | None => Ok (tl - t0) end end in Ok (t0, l)) = Ok (s, len) ->
  inject_Z (Z.of_nat n) * dt <= len + dt * (1 # 100) -> len + dt * (1 # 100) < (inject_Z (Z.of_nat n) + 1) * dt ->
  exists lc, make_lightcurve toa dt tseg tstart gti use_hist = Ok lc /\ lc_is toa s dt n gti lc.
Proof.
  intros Hd E H1 H2. unfold make_lightcurve. cbv zeta.
  match type of E with bind ?x _ = _ => destruct x as [t0|e] eqn:E0; cbn [bind] in E |- *; [|discriminate] end.
  match type of E with bind ?x _ = _ => destruct x as [l0|e] eqn:E1; cbn [bind] in E |- *; [|discriminate] end.
  assert (E' : t0 = s /\ l0 = len) by (split; congruence). destruct E' as [-> ->]. clear E.
  rewrite (timebin_is len dt n Hd H1 H2). set (good := filter _ _).
  destruct use_hist.
  - rewrite (arange_grid s dt (S n)); [|assumption|rewrite zof_S; ring].
    eexists. split; [reflexivity|]. unfold new_lightcurve. set (tt := map _ (removelast _)).
    assert (Ltt : length tt = n).
    { unfold tt. rewrite map_length. change (fun i => s + inject_Z (Z.of_nat i) * dt) with (bin_edge s dt).
      rewrite seq_S, map_app. simpl. rewrite removelast_last, map_length, seq_length. reflexivity. }
    split; [reflexivity|]. cbn [lc_dt lc_time lc_gti lc_counts].
    split; [exact Ltt|]. split. { intros Hn. destruct tt; [simpl in Ltt; lia|reflexivity]. }
    split.
    + intros i t Ht. unfold tt in Ht. rewrite seq_S, map_app in Ht. simpl in Ht. rewrite removelast_last, map_map, nth_error_map in Ht.
      destruct (nth_error (seq 0 n) i) as [j|] eqn:Ej; [|discriminate]. cbn [option_map] in Ht.
      assert (j = i). { assert (i < length (seq 0 n))%nat by (apply nth_error_Some; congruence). rewrite seq_length in *.
        apply nth_error_nth with (d := 0%nat) in Ej. rewrite seq_nth in Ej by assumption. lia. }
      subst j. assert (t = s + inject_Z (Z.of_nat i) * dt + (1 # 2) * dt) by congruence. subst t. unfold bin_edge. field.
    + rewrite histogram_edges_ok.
      * rewrite map_map. apply map_ext_in. intros i Hi. apply in_seq in Hi. f_equal. f_equal.
        change (s + inject_Z (Z.of_nat i) * dt) with (bin_edge s dt i).
        change (s + inject_Z (Z.of_nat (S i)) * dt) with (bin_edge s dt (S i)).
        apply (good_bins toa s dt n i Hd); lia.
      * intros v Hv. apply filter_In in Hv. destruct Hv as [_ Hv]. apply andb_true_iff in Hv. destruct Hv as [_ Hv]. qb. simpl. assumption.
  - assert (Hgood : forall z, In z (map (fun t => Qfloor ((t - s) / dt)) good) -> (0 <= z < Z.of_nat n)%Z).
    { intros z Hz. apply in_map_iff in Hz. destruct Hz as (t & <- & Ht). apply filter_In in Ht. destruct Ht as [_ Ht].
      apply andb_true_iff in Ht. destruct Ht as [A B]. qb. assert (E : (t - s) / dt * dt == t - s) by (field; lra).
      set (q := (t - s) / dt) in *. clearbody q. assert (0 <= q) by nra. assert (q < inject_Z (Z.of_nat n)) by nra.
      split.
      - apply (Qfloor_resp_le 0 q). assumption.
      - rewrite Zlt_Qlt. eapply Qle_lt_trans; [apply Qfloor_le|assumption]. }
    rewrite (bincount_ok _ n Hgood). cbn [bind]. eexists. split; [reflexivity|]. rewrite map_length, seq_length.
    rewrite (arange_grid (1 # 2) 1 n); [|lra|ring]. unfold new_lightcurve. set (tt := map _ (map _ (seq 0 n))).
    assert (Ltt : length tt = n) by (unfold tt; rewrite !map_length, seq_length; reflexivity).
    split; [reflexivity|]. cbn [lc_dt lc_time lc_gti lc_counts].
    split; [exact Ltt|]. split. { intros Hn. destruct tt; [simpl in Ltt; lia|reflexivity]. }
    split.
    + intros i t Ht. unfold tt in Ht. rewrite map_map, nth_error_map in Ht.
      destruct (nth_error (seq 0 n) i) as [j|] eqn:Ej; [|discriminate]. cbn [option_map] in Ht.
      assert (j = i). { assert (i < length (seq 0 n))%nat by (apply nth_error_Some; congruence). rewrite seq_length in *.
        apply nth_error_nth with (d := 0%nat) in Ej. rewrite seq_nth in Ej by assumption. lia. }
      subst j. assert (t = s + ((1 # 2) + inject_Z (Z.of_nat i) * 1) * dt) by congruence. subst t. unfold bin_edge. field.
    + rewrite map_map. apply map_ext_in. intros i Hi. apply in_seq in Hi. f_equal. f_equal. rewrite count_map.
      apply (good_bins toa s dt n i Hd); lia.
Qed.

Lemma flatten_edges g : flatten g = interval_edges g.
Proof. unfold flatten. induction g as [|[a b] g IH]; [reflexivity|]. simpl. rewrite IH. reflexivity. Qed.
Lemma sort_first l m : get (np_sort l) 0 = Ok m -> smallest l m.
Proof.
  intros H. unfold np_sort in H. assert (S := isort_by_sorted (fun x : Q => x) l). assert (P := isort_by_perm (fun x : Q => x) l).
  destruct (isort_by (fun x : Q => x) l) as [|a r] eqn:E; [discriminate|]. assert (a = m) by (unfold get in H; simpl in H; congruence). subst a.
  split.
  - apply (Permutation_in _ P). left. reflexivity.
  - intros e He. apply (Permutation_in _ (Permutation_sym P)) in He. inversion S as [|x y S2 F]; subst. destruct He as [ -> | He]; [lra|].
    rewrite Forall_forall in F. apply (F e He).
Qed.
Lemma sort_last l m : get_last (np_sort l) = Ok m -> largest l m.
Proof.
  intros H. unfold np_sort in H. assert (S := isort_by_sorted (fun x : Q => x) l). assert (P := isort_by_perm (fun x : Q => x) l).
  destruct (isort_by (fun x : Q => x) l) as [|a r _] using rev_ind; [discriminate|]. unfold get_last in H. rewrite rev_unit in H.
  assert (a = m) by congruence. subst a. split.
  - apply (Permutation_in _ P). apply in_or_app. right. left. reflexivity.
  - intros e He. apply (Permutation_in _ (Permutation_sym P)) in He. apply in_app_or in He. destruct He as [He|[ -> |[] ]]; [|lra].
    clear P H. induction r as [|x r IH]; [destruct He|]. simpl in S. inversion S as [|y z S2 F]; subst. destruct He as [ -> |He]; [|apply IH; assumption].
    rewrite Forall_forall in F. apply F. apply in_or_app. right. left. reflexivity.
Qed.
Lemma sort_nonempty {A} (l : list A) key : l <> [] -> isort_by key l <> [].
Proof.
  intros H E. assert (P := isort_by_perm key l). rewrite E in P. apply Permutation_nil in P. contradiction.
Qed.

(* When photons are needed to find the limits there must be some. *)
Definition limits_known (toa : list Q) (gti : option (list (Q * Q))) (tstart tseg : option Q) : Prop :=
  (toa <> [] \/ (tstart <> None /\ tseg <> None)) /\ (gti <> Some [] \/ (tstart <> None /\ tseg <> None)).

Lemma make_main toa dt tseg tstart gti use_hist : 0 < dt -> limits_known toa gti tstart tseg ->
  exists s len, start_is toa gti tstart s /\ duration_is toa gti tseg s len /\
  forall n : nat, inject_Z (Z.of_nat n) * dt <= len + dt * (1 # 100) -> len + dt * (1 # 100) < (inject_Z (Z.of_nat n) + 1) * dt ->
  exists lc, make_lightcurve toa dt tseg tstart gti use_hist = Ok lc /\
    lc_dt lc = dt /\ length (lc_time lc) = n /\ length (lc_counts lc) = n /\ ((0 < n)%nat -> lc_gti lc = gti) /\
    (forall i t, nth_error (lc_time lc) i = Some t -> t == bin_edge s dt i + dt / 2) /\
    (forall i c, nth_error (lc_counts lc) i = Some c ->
       c = inject_Z (Z.of_nat (count (within (bin_edge s dt i) (bin_edge s dt (S i))) toa))) /\
    sum_of (lc_counts lc) == inject_Z (Z.of_nat (count (within s (bin_edge s dt n)) toa)).
Proof.
  intros Hd [K1 K2].
  assert (E : exists s len, start_is toa gti tstart s /\ duration_is toa gti tseg s len /\
    (let! t0 := match tstart with Some t => Ok t | None => let! t0 := get (np_sort toa) 0 in
                match gti with Some g => qmin_list (flatten g) | None => Ok t0 end end in
   let! l := match tseg with
               | Some t => Ok t
               | None => let! tl := get_last (np_sort toa) in
                         match gti with
                         | Some g => let! m := qmax_list (flatten g) in Ok (m - t0)
                         | None => Ok (tl - t0) end end in Ok (t0, l)) = Ok (s, len)).
  { assert (S1 : exists s, start_is toa gti tstart s /\ match tstart with Some t => Ok t | None => let! t0 := get (np_sort toa) 0 in
                match gti with Some g => qmin_list (flatten g) | None => Ok t0 end end = Ok s).
    { destruct tstart as [t|]; [exists t; split; reflexivity|].
      assert (toa <> []) by (destruct K1 as [K1|[K1 _]]; [assumption|congruence]).
      assert (G : exists t0, get (np_sort toa) 0 = Ok t0). { unfold np_sort. assert (N := sort_nonempty toa (fun x : Q => x) H).
        destruct (isort_by _ toa) as [|a r]; [congruence|]. exists a. reflexivity. }
      destruct G as (t0 & G). rewrite G. cbn [bind]. destruct gti as [g|].
      - assert (g <> []) by (destruct K2 as [K2|[K2 _]]; congruence). destruct (qmin_list_ok (flatten g)) as (m & E & H1).
        { rewrite flatten_edges. destruct g as [|[a b] g]; [congruence|discriminate]. }
        exists m. rewrite flatten_edges in H1. split; assumption.
      - exists t0. split; [apply sort_first; assumption|reflexivity]. }
    destruct S1 as (s & S1 & E1). rewrite E1. cbn [bind].
    destruct tseg as [t|]; [exists s, t; repeat split; assumption|].
    assert (toa <> []) by (destruct K1 as [K1|[_ K1]]; [assumption|congruence]).
    assert (G : exists t0, get_last (np_sort toa) = Ok t0). { unfold np_sort. assert (N := sort_nonempty toa (fun x : Q => x) H).
      destruct (isort_by _ toa) as [|a r _] using rev_ind; [congruence|]. exists a. unfold get_last. rewrite rev_unit. reflexivity. }
    destruct G as (t0 & G). rewrite G. cbn [bind]. destruct gti as [g|].
    - assert (g <> []) by (destruct K2 as [K2|[_ K2]]; congruence). destruct (qmax_list_ok (flatten g)) as (m & E & H1).
      { rewrite flatten_edges. destruct g as [|[a b] g]; [congruence|discriminate]. }
      rewrite E. cbn [bind]. exists s, (m - s). split; [assumption|]. split; [|reflexivity]. cbn [duration_is]. exists m.
      split; [rewrite flatten_edges in H1; assumption|reflexivity].
    - exists s, (t0 - s). split; [assumption|]. split; [|reflexivity]. cbn [duration_is]. exists t0. split; [apply sort_last; assumption|reflexivity]. }
  destruct E as (s & len & S1 & S2 & E). exists s, len. split; [assumption|]. split; [assumption|]. intros n H1 H2.
  destruct (make_core toa dt tseg tstart gti use_hist s len n Hd E H1 H2) as (lc & M & L1 & L2 & L3 & L4 & L5).
  exists lc. split; [assumption|]. split; [assumption|]. split; [assumption|]. split; [rewrite L5, map_length, seq_length; reflexivity|].
  split; [assumption|]. split; [assumption|]. split.
  - intros i c Hc. rewrite L5, nth_error_map in Hc. destruct (nth_error (seq 0 n) i) as [j|] eqn:Ej; [|discriminate]. cbn [option_map] in Hc.
    assert (j = i). { assert (i < length (seq 0 n))%nat by (apply nth_error_Some; congruence). rewrite seq_length in *.
        apply nth_error_nth with (d := 0%nat) in Ej. rewrite seq_nth in Ej by assumption. lia. }
    subst j. congruence.
  - rewrite L5, bins_total by assumption. simpl Nat.add.
    replace (count (within (bin_edge s dt 0) (bin_edge s dt n)) toa) with (count (within s (bin_edge s dt n)) toa); [reflexivity|].
    apply count_ext. intros a _. apply bool_iff. rewrite !within_iff. rewrite edge_0. reflexivity.
Qed.

(* ---------- from light curves to events ---------- *)
Lemma fill_done done t n R : (n <= R)%nat ->
  fill_slice (done ++ repeat 0 R) (length done) (n + length done) t = done ++ repeat t n ++ repeat 0 (R - n).
Proof.
  intros H. unfold fill_slice, slice. rewrite firstn_app, Nat.sub_diag, firstn_all, firstn_O, app_nil_r. f_equal.
  rewrite skipn_app, Nat.sub_diag, skipn_all. cbn [skipn app].
  replace (n + length done - length done)%nat with n by lia. rewrite firstn_length, repeat_length, Nat.min_l by lia. f_equal.
  rewrite Nat.max_r by lia. rewrite skipn_app, skipn_all2 by lia. cbn [app].
  replace (n + length done - length done)%nat with n by lia. clear. revert n. induction R as [|R IH]; intros [|n]; try reflexivity. apply IH.
Qed.
Definition positive_total (l : list (Q * Z)) : nat := fold_right (fun tc n => (Z.to_nat (snd tc) + n)%nat) 0%nat l.
Lemma events_length l : length (one_event_per_count l) = positive_total l.
Proof. induction l as [|[t c] l IH]; [reflexivity|]. simpl. rewrite app_length, repeat_length, IH. reflexivity. Qed.
Lemma from_lc_loop_ok tc : forall done val R, R = positive_total tc ->
  from_lc_loop tc (length done) val (done ++ repeat 0 R) =
  (done ++ one_event_per_count tc, if existsb (fun tc => 0 <? snd tc)%Z tc then Some (length done + R)%nat else val).
Proof.
  induction tc as [|[t c] tc IH]; intros done val R E.
  - simpl in E. subst R. reflexivity.
  - simpl in E. cbn [from_lc_loop one_event_per_count existsb snd]. destruct (c <=? 0)%Z eqn:C.
    + replace (0 <? c)%Z with false by (symmetry; apply Z.ltb_ge; apply Z.leb_le in C; lia).
      replace (Z.to_nat c) with 0%nat in * by (apply Z.leb_le in C; lia). cbn [repeat app orb]. rewrite (IH done val R) by assumption. reflexivity.
    + apply Z.leb_gt in C. replace (0 <? c)%Z with true by (symmetry; apply Z.ltb_lt; lia). cbn [orb].
      rewrite fill_done by lia. rewrite app_assoc. replace (R - Z.to_nat c)%nat with (positive_total tc) by lia.
      replace (Z.to_nat c + length done)%nat with (length (done ++ repeat t (Z.to_nat c))) by (rewrite app_length, repeat_length; lia).
      rewrite IH by reflexivity. rewrite <- app_assoc. f_equal. rewrite app_length, repeat_length.
      destruct (existsb _ tc) eqn:X; f_equal; [lia|].
      assert (positive_total tc = 0%nat); [|lia]. clear -X. induction tc as [|[t c] tc IH]; [reflexivity|]. simpl in X.
      apply orb_false_iff in X. destruct X as [X1 X2]. simpl. apply Z.ltb_ge in X1. rewrite IH by assumption. lia.
Qed.
Lemma positive_sum (ts : list Q) : forall cs, length ts = length cs ->
  Z.to_nat (fold_right Z.add 0%Z (filter (fun z => (0 <? z)%Z) cs)) = positive_total (combine ts cs).
Proof.
  induction ts as [|t ts IH]; intros [|c cs] L; try discriminate; [reflexivity|]. simpl in L. simpl.
  assert (K : (0 <= fold_right Z.add 0 (filter (fun z => 0 <? z) cs))%Z).
  { clear. induction cs as [|c cs IH]; [simpl; lia|]. simpl. destruct (0 <? c)%Z eqn:E; [apply Z.ltb_lt in E; simpl; lia|assumption]. }
  destruct (0 <? c)%Z eqn:E.
  - apply Z.ltb_lt in E. simpl. rewrite <- IH by lia. lia.
  - apply Z.ltb_ge in E. rewrite <- IH by lia. lia.
Qed.

Lemma from_lc_main lc : length (lc_time lc) = length (lc_counts lc) ->
  from_lc lc = if existsb (fun c => 0 <? py_int c)%Z (lc_counts lc)
               then Ok (one_event_per_count (combine (lc_time lc) (map py_int (lc_counts lc))))
               else Err UnboundLocalError.
Proof.
  intros L. unfold from_lc. cbv zeta. rewrite int_sum_main. rewrite (positive_sum (lc_time lc)) by (rewrite map_length; assumption).
  set (tc := combine (lc_time lc) (map py_int (lc_counts lc))).
  assert (EL := from_lc_loop_ok tc [] None (positive_total tc) eq_refl). cbn [length app Nat.add] in EL.
  rewrite EL. cbn [snd fst]. unfold tc. clear EL tc.
  assert (E : existsb (fun tc : Q * Z => 0 <? snd tc)%Z (combine (lc_time lc) (map py_int (lc_counts lc))) =
              existsb (fun c => 0 <? py_int c)%Z (lc_counts lc)).
  { revert L. generalize (lc_time lc). generalize (lc_counts lc). clear. induction l as [|c cs IH]; intros [|t ts] L; try discriminate; [reflexivity|].
    simpl in L. simpl. rewrite IH by lia. reflexivity. }
  rewrite E. destruct (existsb _ (lc_counts lc)); [|reflexivity]. cbn [app]. rewrite <- events_length, firstn_all. reflexivity.
Qed.

Lemma count_app {A} (p : A -> bool) a b : count p (a ++ b) = (count p a + count p b)%nat.
Proof. induction a as [|x a IH]; [reflexivity|]. simpl. rewrite IH. lia. Qed.
Lemma count_repeat {A} (p : A -> bool) a n : count p (repeat a n) = if p a then n else 0%nat.
Proof. induction n as [|n IH]; [destruct (p a); reflexivity|]. simpl. rewrite IH. destruct (p a); lia. Qed.
(* Events placed at bin centres fall back in their bins. *)
Lemma centre_in_bin s dt t i k : 0 < dt -> t == bin_edge s dt i + dt / 2 ->
  within (bin_edge s dt k) (bin_edge s dt (S k)) t = Nat.eqb i k.
Proof.
  intros Hd E. assert (E' : t == bin_edge s dt i + (1 # 2) * dt) by (rewrite E; field). clear E. rename E' into E.
  apply bool_iff. rewrite within_iff, Nat.eqb_eq. assert (Si := edge_S s dt i). assert (Sk := edge_S s dt k). split.
  - intros [H1 H2]. destruct (Nat.lt_trichotomy i k) as [H|[H|H]]; [|assumption|]; exfalso.
    + assert (M := edge_mono s dt (S i) k Hd ltac:(lia)). lra.
    + assert (M := edge_mono s dt (S k) i Hd ltac:(lia)). lra.
  - intros ->. split; lra.
Qed.
Lemma events_in_bin s dt k : 0 < dt -> forall (tc : list (Q * Z)) j,
  (forall i t c, nth_error tc i = Some (t, c) -> t == bin_edge s dt (j + i) + dt / 2) ->
  count (within (bin_edge s dt k) (bin_edge s dt (S k))) (one_event_per_count tc) =
  if Nat.ltb k j then 0%nat else match nth_error tc (k - j) with Some tc => Z.to_nat (snd tc) | None => 0%nat end.
Proof.
  intros Hd. induction tc as [|[t c] tc IH]; intros j H.
  - simpl. destruct (k <? j)%nat; [reflexivity|]. destruct (k - j)%nat; reflexivity.
  - simpl. rewrite count_app, count_repeat. assert (H0 := H 0%nat t c eq_refl). rewrite Nat.add_0_r in H0.
    rewrite (centre_in_bin s dt t j k Hd H0). rewrite (IH (S j)).
    2:{ intros i t' c' Hi. replace (S j + i)%nat with (j + S i)%nat by lia. apply (H (S i) t' c' Hi). }
    destruct (Nat.eqb_spec j k) as [ -> |N].
    + replace (k <? S k)%nat with true by (symmetry; apply Nat.ltb_lt; lia). replace (k <? k)%nat with false by (symmetry; apply Nat.ltb_ge; lia).
      rewrite Nat.sub_diag. simpl. lia.
    + destruct (k <? j)%nat eqn:E.
      * apply Nat.ltb_lt in E. replace (k <? S j)%nat with true by (symmetry; apply Nat.ltb_lt; lia). reflexivity.
      * apply Nat.ltb_ge in E. replace (k <? S j)%nat with false by (symmetry; apply Nat.ltb_ge; lia).
        replace (k - j)%nat with (S (k - S j)) by lia. reflexivity.
Qed.

(* Photons -> light curve -> events: same number of events in every bin. *)
Lemma round_trip toa dt tseg tstart gti use_hist : 0 < dt -> limits_known toa gti tstart tseg ->
  exists s len, start_is toa gti tstart s /\ duration_is toa gti tseg s len /\
  forall (n : nat) t0, inject_Z (Z.of_nat n) * dt <= len + dt * (1 # 100) -> len + dt * (1 # 100) < (inject_Z (Z.of_nat n) + 1) * dt ->
  In t0 toa -> within s (bin_edge s dt n) t0 = true ->
  exists lc ev, make_lightcurve toa dt tseg tstart gti use_hist = Ok lc /\ from_lc lc = Ok ev /\
    forall i, (i < n)%nat -> count (within (bin_edge s dt i) (bin_edge s dt (S i))) ev = count (within (bin_edge s dt i) (bin_edge s dt (S i))) toa.
Proof.
  intros Hd K. destruct (make_main toa dt tseg tstart gti use_hist Hd K) as (s & len & A & B & M). exists s, len.
  split; [assumption|]. split; [assumption|]. intros n t0 H1 H2 Ht0 Hw.
  destruct (M n H1 H2) as (lc & E & Ed & Lt & Lc & _ & Ht & Hc & Hs). exists lc.
  rewrite from_lc_main by lia.
  assert (Hpy : forall m : nat, py_int (inject_Z (Z.of_nat m)) = Z.of_nat m).
  { intros m. unfold py_int. replace (qle 0 (inject_Z (Z.of_nat m))) with true by (symmetry; apply qle_t; apply zof_0). apply Qfloor_Z. }
  assert (X : existsb (fun c => 0 <? py_int c)%Z (lc_counts lc) = true).
  { apply not_false_is_true. intros X. assert (Z0 : sum_of (lc_counts lc) == 0).
    { clear -X Hc Hpy. assert (H : forall c, In c (lc_counts lc) -> c = 0).
      { intros c Hin. destruct (In_nth_error _ _ Hin) as (i & Hi). specialize (Hc i c Hi).
        assert (Y : (0 <? py_int c)%Z = false). { destruct (0 <? py_int c)%Z eqn:Y; [|reflexivity]. rewrite <- X. symmetry. apply existsb_exists. exists c. split; assumption. }
        rewrite Hc in Y. rewrite Hpy in Y. apply Z.ltb_ge in Y. rewrite Hc. match type of Y with (Z.of_nat ?m <= 0)%Z => assert (E0 : m = 0%nat) by lia end. rewrite E0. reflexivity. }
      revert H. generalize (lc_counts lc). induction l as [|c l IH]; intros H; [reflexivity|]. simpl. rewrite (H c (or_introl eq_refl)).
      rewrite IH by (intros; apply H; right; assumption). reflexivity. }
    assert (C : (0 < count (within s (bin_edge s dt n)) toa)%nat).
    { clear -Ht0 Hw. induction toa as [|a l IH]; [destruct Ht0|]. simpl. destruct Ht0 as [ -> |H]; [rewrite Hw; lia|]. specialize (IH H). lia. }
    assert (0 < inject_Z (Z.of_nat (count (within s (bin_edge s dt n)) toa))) by (change 0 with (inject_Z 0); rewrite <- Zlt_Qlt; lia). lra. }
  rewrite X. eexists. split; [assumption|]. split; [reflexivity|]. intros i Hi.
  rewrite (events_in_bin s dt i Hd _ 0%nat).
  2:{ intros j t c Hj. simpl Nat.add. apply Ht. clear -Hj. revert Hj. generalize (lc_time lc) (map py_int (lc_counts lc)). intros l. revert j.
      induction l as [|a l IH]; intros [|j] [|b m] Hj; try discriminate; [simpl in Hj |- *; congruence|]. apply (IH j m Hj). }
  simpl Nat.ltb. rewrite Nat.sub_0_r.
  destruct (nth_error_ex (lc_counts lc) i) as (c & Ec); [lia|]. destruct (nth_error_ex (lc_time lc) i) as (t & Et); [lia|].
  assert (EE : nth_error (combine (lc_time lc) (map py_int (lc_counts lc))) i = Some (t, py_int c)).
  { clear -Ec Et. revert i Ec Et. generalize (lc_time lc) (lc_counts lc). induction l as [|a l IH]; intros [|b m] [|i] Ec Et; try discriminate.
    - simpl in *. congruence.
    - simpl in *. apply IH; assumption. }
  rewrite EE. cbn [snd]. rewrite (Hc i c Ec). rewrite Hpy. apply Nat2Z.id.
Qed.

(* A light curve without positive counts has no events, but the code fails. *)
Lemma from_lc_dark lc : length (lc_time lc) = length (lc_counts lc) ->
  (forall c, In c (lc_counts lc) -> c < 1) -> from_lc lc = Err UnboundLocalError.
Proof.
  intros L H. rewrite from_lc_main by assumption. replace (existsb _ _) with false; [reflexivity|]. symmetry. apply not_true_is_false.
  intros E. apply existsb_exists in E. destruct E as (c & Hc & E). apply Z.ltb_lt in E. specialize (H c Hc).
  unfold py_int in E. destruct (qle 0 c) eqn:C.
  - assert (K := Qfloor_le c). assert (1 <= Qfloor c)%Z by lia. rewrite Zle_Qle in H0. change (inject_Z 1) with 1 in H0. lra.
  - qb. assert (K := Qceiling_lt c). assert ((Qceiling c <= 0)%Z); [|lia]. apply Z.lt_pred_le. rewrite Zlt_Qlt.
    replace (Z.pred (Qceiling c)) with (Qceiling c - 1)%Z by lia. change (inject_Z 0) with 0. lra.
Qed.

(* With neither GTIs nor tseg the last photon is lost: the light curve ends where it sits. *)
Lemma last_photon_dropped : exists toa dt lc, make_lightcurve toa dt None None None false = Ok lc /\
  length toa = 3%nat /\ sum_of (lc_counts lc) == 2.
Proof. exists [0; 1; 2], 1. eexists. split; [vm_compute; reflexivity|]. split; reflexivity. Qed.

Lemma energy_mask_main en r i e : nth_error en i = Some e ->
  nth_error (get_energy_mask en r) i = Some (within (fst r) (snd r) e).
Proof. intros H. unfold get_energy_mask. rewrite nth_error_map, H. reflexivity. Qed.

(* suggest_compatible_dt: a positive multiple of the resolution, or dt itself when it is (nearly) that resolution. *)
Lemma compatible_dt_main own dt : 0 < own -> 0 <= dt ->
  (exists k : Z, (1 <= k)%Z /\ suggest_compatible_dt own dt == inject_Z k * own /\
     (own <= dt -> Qabs (dt - suggest_compatible_dt own dt) <= own / 2)) \/
  (suggest_compatible_dt own dt = dt /\ Qabs (own - dt) <= (1 # 100000000) + (1 # 10000) * dt).
Proof.
  intros Ho Hdt. unfold suggest_compatible_dt. replace (qlt 0 own) with true by (symmetry; apply qlt_t; assumption). cbn [andb].
  destruct (np_isclose (1 # 10000) (1 # 100000000) own dt) eqn:E; cbn [negb].
  - right. split; [reflexivity|]. unfold np_isclose in E. qb. assert (Qabs dt == dt) by (apply Qabs_pos; assumption). lra.
  - left. exists (Z.max (rint (dt / own)) 1). split; [lia|]. split; [ring|]. intros Hle.
    assert (D : dt / own * own == dt) by (field; lra). set (q := dt / own) in *. clearbody q. assert (1 <= q) by nra.
    assert (R : Qabs (q - inject_Z (rint q)) <= 1 # 2 /\ (1 <= rint q)%Z).
    { assert (F := Qfloor_le q). assert (F2 := Qlt_floor q). rewrite inject_Z_plus in F2. change (inject_Z 1) with 1 in F2.
      assert (F1 : (1 <= Qfloor q)%Z) by (apply (Qfloor_resp_le 1 q); assumption).
      unfold rint. cbv zeta. apply and_comm. split; [repeat match goal with |- context [if ?b then _ else _] => destruct b end; lia|].
      destruct (qlt (q - inject_Z (Qfloor q)) (1 # 2)) eqn:A1; [qb; apply Qabs_Qle_condition; lra|].
      destruct (qlt (1 # 2) (q - inject_Z (Qfloor q))) eqn:A2; qb.
      - apply Qabs_Qle_condition. rewrite inject_Z_plus. change (inject_Z 1) with 1. lra.
      - destruct (Z.even (Qfloor q)); apply Qabs_Qle_condition; rewrite ?inject_Z_plus; change (inject_Z 1) with 1; lra. }
    destruct R as [R1 R2]. rewrite Z.max_l by assumption. apply Qabs_Qle_condition in R1. apply Qabs_Qle_condition.
    assert (own / 2 == (1 # 2) * own) by field. rewrite H0. set (r := inject_Z (rint q)) in *. clearbody r. split; nra.
Qed.

(* to_lc bins the events with a width compatible with their resolution *)
Lemma to_lc_main events own gti dt tstart tseg : 0 <= dt ->
  exists w, to_lc events own gti dt tstart tseg = make_lightcurve events w tseg tstart gti false /\
    (own <= 0 -> w = dt) /\
    (0 < own -> (exists k : Z, (1 <= k)%Z /\ w == inject_Z k * own /\ (own <= dt -> Qabs (dt - w) <= own / 2)) \/
                (w = dt /\ Qabs (own - dt) <= (1 # 100000000) + (1 # 10000) * dt)).
Proof.
  intros Hdt. exists (suggest_compatible_dt own dt). split; [reflexivity|]. split.
  - intros H. unfold suggest_compatible_dt. replace (qlt 0 own) with false by (symmetry; now apply qlt_f). reflexivity.
  - intros H. now apply compatible_dt_main.
Qed.
