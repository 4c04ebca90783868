(* P_base4.v: splitting, sorting, joining and rebinning of time series; refutations. *)
From Verif Require Import Np Lib S_gti S_seg S_merge S_utils S_lc S_base M_gti M_seg M_merge M_utils M_lc M_base
  P_gti_cross P_gti_final P_seg_regions P_seg_cut P_seg_mask P_rebin2 P_helpers P_hist P_lc_make P_base P_base2 P_base3.
From Coq Require Import Lqa Permutation.
Open Scope Q_scope.

(* ---------- refutations: slices ---------- *)
Lemma getitem_last_fails : exists s, s_time s = [1; 2; 3] /\ getitem_int (isort_by t_end) s (-1) = Err TypeError.
Proof. exists (mkSeries [1; 2; 3] [] [] 1 None 0 None None). split; reflexivity. Qed.
Lemma lc_getitem_long_fails : exists s, s_time s = [1; 2; 3] /\ lc_getitem (isort_by t_end) s 1 (Some 4%Z) 1 = Err IndexError.
Proof. exists (mkSeries [1; 2; 3] [] [] 1 None 0 None None). split; reflexivity. Qed.

(* ---------- refutations: operands and non in-place filters ---------- *)
Lemma operate_mutates : exists a b r a' b', operate (isort_by t_end) true Qplus a b = (Ok r, a', b') /\
  s_time a' <> s_time a /\ s_time b' <> s_time b /\ gti_of a' <> gti_of a.
Proof.
  exists (mkSeries [1; 2; 3; 4] [(0%nat, [1; 1; 1; 1])] [] 1 (Some [(1 # 2, 7 # 2)]) 0 None None),
         (mkSeries [1; 2; 3; 4] [(0%nat, [1; 1; 1; 1])] [] 1 (Some [(3 # 2, 9 # 2)]) 0 None None).
  do 3 eexists. split; [vm_compute; reflexivity|]. repeat split; discriminate.
Qed.
Lemma operate_kw_fails f a b : fst (fst (operate_kw f a b)) = Err TypeError.
Proof. reflexivity. Qed.
Lemma apply_gtis_copy_keeps_old : exists s r self, apply_gtis true (Some [(3 # 2, 7 # 2)]) false s = Ok (self, r) /\
  s_time r = [2; 3] /\ gti_of r = gti_of s /\ exists g, gti_of r = Some g /\ covered g 4 /\ ~ covered [(3 # 2, 7 # 2)] 4.
Proof.
  exists (mkSeries [1; 2; 3; 4] [] [] 1 None 0 None None). do 2 eexists. split; [vm_compute; reflexivity|]. split; [reflexivity|]. split; [reflexivity|].
  eexists. split; [reflexivity|]. split; [eexists _, _; split; [left; reflexivity|vm_compute; split; [discriminate|reflexivity]]|].
  intros (a & b & [E|[]] & H1 & H2). injection E as <- <-. revert H2. vm_compute. discriminate.
Qed.

(* ---------- splitting by GTI ---------- *)
Lemma count_seq_range {A} (p : A -> bool) : forall l i j, (j <= length l)%nat ->
  (forall k a, nth_error l k = Some a -> ((i <= k < j)%nat <-> p a = true)) -> count p l = (j - i)%nat.
Proof.
  induction l as [|a l IH]; intros i j Hj H; [simpl in *; lia|]. cbn [count]. destruct j as [|j].
  - rewrite (IH 0%nat 0%nat); [|lia|].
    + destruct (p a) eqn:E; [|lia]. apply (H 0%nat a eq_refl) in E. lia.
    + intros k b Hk. rewrite <- (H (S k) b Hk). lia.
  - destruct i as [|i].
    + rewrite (IH 0%nat j); [|simpl in Hj; lia|].
      * assert (E : p a = true) by (apply (H 0%nat a eq_refl); lia). rewrite E. lia.
      * intros k b Hk. rewrite <- (H (S k) b Hk). lia.
    + rewrite (IH i j); [|simpl in Hj; lia|].
      * destruct (p a) eqn:E; [apply (H 0%nat a eq_refl) in E; lia|lia].
      * intros k b Hk. rewrite <- (H (S k) b Hk). lia.
Qed.
Lemma bin_test_iff tol d iv t : bin_test tol d iv t = true <-> bin_in [iv] tol d t.
Proof.
  unfold bin_test, bin_in. destruct iv as [a b]. cbn [fst snd]. split.
  - intros H. apply andb_true_iff in H. destruct H as [H1 H2]. qb. exists a, b. split; [left; reflexivity|]. split; assumption.
  - intros (a' & b' & [E|[]] & H1 & H2). injection E as <- <-. apply andb_true_iff. split; qb; assumption.
Qed.
Lemma well_formed_one a b : a <= b -> well_formed [(a, b)].
Proof.
  intros H. split; [intros x y [E|[]]; injection E as <- <-; assumption|]. intros k m x y c d Hkm Hk Hm. destruct m as [|[|m]]; [lia|discriminate|discriminate].
Qed.
Lemma mask_median time g d : time <> [] -> median (diffs time) = Some d ->
  create_gti_mask true time g (0, 0) 0 None gti_eps = create_gti_mask true time g (0, 0) 0 (Some d) gti_eps.
Proof. intros N H. unfold create_gti_mask. destruct time; [congruence|]. destruct g; [reflexivity|]. change (qlt 0 0) with false. cbv iota beta. rewrite H. reflexivity. Qed.

Definition piece (s : series) (iv : Q * Q) (r : series) : Prop :=
  gti_of r = Some [iv] /\ s_dt r = s_dt s /\ s_mjdref r = s_mjdref s /\
  exists m, flags (bin_in [iv] (gti_eps * s_dt s) (s_dt s)) (s_time s) m /\
    s_time r = keep m (s_time s) /\ s_cols r = map_cols (keep m) (s_cols s) /\ s_errs r = map_cols (keep m) (s_errs s).
Definition enough (s : series) (n : nat) (iv : Q * Q) : bool := (n <=? count (bin_test (gti_eps * s_dt s) (s_dt s) iv) (s_time s))%nat.
Lemma map_cols_select m c : map_cols (fun l => select l m) c = map_cols (keep m) c.
Proof. unfold map_cols. apply map_ext. intros [k v]. cbn. rewrite select_keep. reflexivity. Qed.
Lemma split_main s g n l : s_time s <> [] -> increasing (s_time s) -> median (diffs (s_time s)) = Some (s_dt s) -> 0 < s_dt s -> (1 <= n)%nat ->
  well_formed g -> split_by_gti true s (Some g) n = Ok l -> Forall2 (piece s) (filter (enough s n) g) l.
Proof.
  intros Nt Hinc Hm Hd Hn W H. unfold split_by_gti in H. apply bind_ok in H. destruct H as (b & Hb & H).
  pose proof (gti_border_bins_main _ _ _ _ _ Hinc Hb) as F. clear Hb. assert (W' : forall a b, In (a, b) g -> a <= b) by apply (proj1 W). clear W.
  revert l H. induction F as [|iv [i j] g b [F1 F2] F IH]; intros l H; simpl in H; [injection H as <-; constructor|].
  assert (Ct : count (bin_test (gti_eps * s_dt s) (s_dt s) iv) (s_time s) = (j - i)%nat).
  { apply count_seq_range; [assumption|]. intros k t Hk. rewrite bin_test_iff. rewrite (F2 k t Hk). cbn [fst snd]. unfold bin_inside, bin_in. destruct iv as [a c]. cbn [fst snd]. split.
    - intros [H1 H2]. exists a, c. split; [left; reflexivity|]. split; assumption.
    - intros (x & y & [E|[]] & H1 & H2). injection E as <- <-. split; assumption. }
  cbn [filter]. unfold enough at 1. rewrite Ct. cbn [fst snd] in *. assert (W2 : forall a b, In (a, b) g -> a <= b) by (intros; apply W'; right; assumption).
  rewrite Nat.ltb_antisym in H. destruct (n <=? j - i)%nat eqn:E; cbn [negb] in H; [|apply IH; assumption].
  apply Nat.leb_le in E. apply bind_ok in H. destruct H as ([m new] & Hmask & H). apply bind_ok in H. destruct H as (rest & Hr & H). injection H as <-.
  constructor; [|apply IH; assumption]. unfold piece. split; [reflexivity|]. split; [reflexivity|]. split; [reflexivity|].
  rewrite (mask_median _ _ _ Nt Hm) in Hmask. destruct iv as [a c].
  destruct (mask_ok true (s_time s) [(a, c)] (s_dt s)) as (m' & new' & Em & Fm).
  - assumption.
  - apply inc_nondec. assumption.
  - discriminate.
  - apply well_formed_one. apply W'. left. reflexivity.
  - left. assumption.
  - right. destruct (nth_error_ex (s_time s) i) as [t Et]; [lia|]. assert (K : bin_inside t (s_dt s) (gti_eps * s_dt s) a c) by (apply (F2 i t Et); lia).
    intros a' c' [E'|[]]. injection E' as <- <-. exists t. split; [apply nth_error_In in Et; assumption|exact K].
  - rewrite Hmask in Em. injection Em as <- <-. exists m. cbn [with_gti apply_mask s_time s_cols s_errs fst]. split; [assumption|].
    rewrite select_keep, !map_cols_select. repeat split.
Qed.
(* an event list (dt = 0): events at less than half the median spacing from a border are lost *)
Lemma split_events_lost : exists s r, s_dt s = 0 /\ increasing (s_time s) /\ split_by_gti true s (Some [(0, 10)]) 1 = Ok [r] /\
  (forall t, In t (s_time s) -> 0 <= t /\ t <= 10) /\ length (s_time s) = 3%nat /\ length (s_time r) = 1%nat.
Proof.
  exists (mkSeries [1 # 10; 5; 99 # 10] [] [] 0 None 0 None None). eexists. split; [reflexivity|]. split; [apply inc_ss; repeat constructor; reflexivity|].
  split; [vm_compute; reflexivity|]. split; [|split; reflexivity]. intros t [<-|[<-|[<-|[]]]]; split; discriminate.
Qed.
(* pieces keep the tstart of the whole light curve *)
Lemma split_tstart_stale : exists s r1 r2 t0, split_by_gti true s (Some [(1 # 2, 5 # 2); (9 # 2, 13 # 2)]) 1 = Ok [r1; r2] /\
  s_tstart s = Some (1 # 2) /\ nth_error (s_time r2) 0 = Some t0 /\ t0 == 5 /\ s_tstart r2 = Some (1 # 2).
Proof.
  exists (mkSeries [1; 2; 3; 4; 5; 6] [] [] 1 None 0 (Some (1 # 2)) (Some 6)). do 3 eexists. split; [vm_compute; reflexivity|]. repeat split.
Qed.

(* ---------- sorting ---------- *)
Lemma map_nth_seq {A} (d : A) l : map (fun i => nth i l d) (seq 0 (length l)) = l.
Proof.
  induction l as [|a l IH]; [reflexivity|]. simpl. f_equal. rewrite <- seq_shift, map_map. exact IH.
Qed.
Lemma combine_map_nth {A B} (a : list A) (b : list B) da db order :
  combine (map (fun i => nth i a da) order) (map (fun i => nth i b db) order) = map (fun i => (nth i a da, nth i b db)) order.
Proof. induction order; simpl; [reflexivity|f_equal; assumption]. Qed.
Lemma take_rows {A B} (a : list A) (b : list B) da db order : length a = length b -> Permutation order (seq 0 (length a)) ->
  Permutation (combine (map (fun i => nth i a da) order) (map (fun i => nth i b db) order)) (combine a b).
Proof.
  intros L H. rewrite combine_map_nth. eapply Permutation_trans; [apply Permutation_map, H|].
  rewrite <- (combine_map_nth a b). rewrite map_nth_seq. rewrite L, map_nth_seq. apply Permutation_refl.
Qed.
Lemma take_perm {A} (a : list A) da order : Permutation order (seq 0 (length a)) -> Permutation (map (fun i => nth i a da) order) a.
Proof. intros H. eapply Permutation_trans; [apply Permutation_map, H|]. rewrite map_nth_seq. apply Permutation_refl. Qed.
Definition rows_kept (t t' : list Q) (c c' : list (nat * list Q)) : Prop :=
  Forall2 (fun p q => fst p = fst q /\ Permutation (combine t (snd p)) (combine t' (snd q))) c c'.
Lemma sort_main argsort reverse inplace s : is_argsort argsort ->
  all_of_length (length (s_time s)) (s_cols s) -> all_of_length (length (s_time s)) (s_errs s) ->
  let r := sort_series argsort reverse inplace s in
  (if reverse then nonincreasing (s_time r) else nondecreasing (s_time r)) /\ Permutation (s_time s) (s_time r) /\
  rows_kept (s_time s) (s_time r) (s_cols s) (s_cols r) /\ rows_kept (s_time s) (s_time r) (s_errs s) (s_errs r) /\
  (forall g, s_gti s = Some g -> gti_of r = Some g) /\ s_dt r = s_dt s /\ s_mjdref r = s_mjdref s.
Proof.
  intros Ha Lc Le r. destruct (Ha (s_time s)) as [Hp Hn]. set (o := if reverse then rev (argsort (s_time s)) else argsort (s_time s)).
  assert (Po : Permutation o (seq 0 (length (s_time s)))).
  { unfold o. destruct reverse; [|assumption]. eapply Permutation_trans; [apply Permutation_sym, Permutation_rev|assumption]. }
  assert (T : s_time r = take_all o (s_time s)) by reflexivity.
  assert (R : forall c, all_of_length (length (s_time s)) c -> rows_kept (s_time s) (take_all o (s_time s)) c (map_cols (take_all o) c)).
  { intros c L. unfold rows_kept, map_cols. induction c as [|[k v] c IH]; [constructor|]. constructor.
    - cbn [fst snd]. split; [reflexivity|]. apply Permutation_sym, take_rows; [symmetry; apply (L k v); left; reflexivity|assumption].
    - apply IH. intros k' v' Hin. apply (L k' v'). right. assumption. }
  rewrite T. split; [|split; [|split; [|split; [|split]]]].
  - unfold take_all, o. destruct reverse; [|assumption]. unfold nonincreasing. rewrite map_rev, rev_involutive. assumption.
  - apply Permutation_sym, take_perm. assumption.
  - apply R. assumption.
  - apply R. assumption.
  - intros g Hg. unfold r, sort_series. destruct inplace; unfold gti_of; cbn [apply_mask s_gti]; unfold gti_of; rewrite Hg; reflexivity.
  - split; reflexivity.
Qed.
(* sort() of the docstring's example: the default GTI of the unsorted times is copied *)
Lemma sort_default_gti : exists s r g argsort, s_time s = [2; 1; 3] /\ s_gti s = None /\ s_dt s = 1 /\  argsort (s_time s) = [1; 0; 2]%nat /\ r = sort_series argsort false false s /\ s_time r = [1; 2; 3] /\ gti_of r = Some g /\ ~ covered g 1.
Proof.
  exists (mkSeries [2; 1; 3] [] [] 1 None 0 None None). do 2 eexists. exists (fun _ => [1; 0; 2]%nat). repeat (split; [reflexivity|]).
  intros (a & b & [E|[]] & H1 & H2). injection E as <- <-. revert H1. vm_compute. congruence.
Qed.

(* ---------- joining ---------- *)
Definition set_gti (s : series) : Prop := exists g, s_gti s = Some g.
(* Value of column k at every sample; None where the series has no such column. *)
Definition cells (k : nat) (s : series) : list (option Q) :=
  match column k (s_cols s) with Some v => map Some v | None => map (fun _ => None) (s_time s) end.
Definition join_rows (k : nat) (l : list series) : list (Q * option Q) := flat_map (fun s => combine (s_time s) (cells k s)) l.
Lemma drop_none l : (forall s, In s l -> s_time s <> []) -> drop_empty false l = l.
Proof.
  induction l as [|s l IH]; intros H; [reflexivity|]. simpl. destruct (s_time s) eqn:E; [exfalso; apply (H s (or_introl eq_refl) E)|].
  f_equal. apply IH. intros x Hx. apply H. right. assumption.
Qed.
Lemma rereference_same m l : (forall s, In s l -> s_mjdref s == m) -> rereference m l = Ok l.
Proof.
  induction l as [|s l IH]; intros H; [reflexivity|]. simpl. assert (E : same_mjdref m (s_mjdref s) = true).
  { unfold same_mjdref, np_isclose. apply Qle_bool_iff. pose proof (H s (or_introl eq_refl)) as K.
    assert (Z : Qabs (m - s_mjdref s) == 0) by (setoid_replace (m - s_mjdref s) with 0 by lra; reflexivity). rewrite Z.
    pose proof (Qabs_nonneg (s_mjdref s)). assert (0 < (1 # 1000000) / 86400) by reflexivity. lra. }
  rewrite E. cbn [bind]. rewrite IH; [reflexivity|]. intros x Hx. apply H. right. assumption.
Qed.
Lemma concat_col_ok k l : (forall s, In s l -> s_time s <> []) -> concat_col k l = Ok (flat_map (cells k) l).
Proof.
  induction l as [|s l IH]; intros H; [reflexivity|]. simpl. rewrite IH by (intros x Hx; apply H; right; assumption). cbn [bind].
  change (cells k s) with (match column k (s_cols s) with Some v => map Some v | None => map (fun _ => None) (s_time s) end). rewrite find_column. destruct (column k (s_cols s)); [reflexivity|]. destruct (s_time s) eqn:E; [exfalso; apply (H s (or_introl eq_refl) E)|reflexivity].
Qed.
Lemma concat_cols_ok order l : (forall s, In s l -> s_time s <> []) -> forall ks,
  concat_cols ks order l = Ok (map (fun k => (k, map (fun i => nth i (flat_map (cells k) l) None) order)) ks).
Proof. intros H. induction ks as [|k ks IH]; [reflexivity|]. simpl. rewrite concat_col_ok by assumption. cbn [bind]. rewrite IH. reflexivity. Qed.
Lemma combine_flat {A B} (f : series -> list A) (h : series -> list B) l : (forall s, In s l -> length (f s) = length (h s)) ->
  combine (flat_map f l) (flat_map h l) = flat_map (fun s => combine (f s) (h s)) l.
Proof.
  induction l as [|s l IH]; intros H; [reflexivity|]. simpl. rewrite <- IH by (intros x Hx; apply H; right; assumption).
  assert (E := H s (or_introl eq_refl)). revert E. generalize (f s), (h s). clear. intros a. induction a as [|x a IH]; intros [|y b] E; simpl in *; try discriminate; [reflexivity|].
  f_equal. apply IH. lia.
Qed.
Lemma flat_len {A B} (f : series -> list A) (h : series -> list B) l : (forall s, In s l -> length (f s) = length (h s)) -> length (flat_map f l) = length (flat_map h l).
Proof. induction l as [|s l IH]; intros H; [reflexivity|]. simpl. rewrite !app_length, (H s (or_introl eq_refl)), IH; [reflexivity|]. intros x Hx. apply H. right. assumption. Qed.
Lemma column_keys k (c : list (nat * list Q)) : column k c <> None <-> In k (map fst c).
Proof.
  induction c as [|[k' v] c IH]; [simpl; split; [congruence|tauto]|]. simpl. destruct (Nat.eqb k' k) eqn:E.
  - apply Nat.eqb_eq in E. split; [left; assumption|discriminate].
  - apply Nat.eqb_neq in E. rewrite IH. tauto.
Qed.
Lemma col_names_in k l : In k (col_names l) <-> exists s, In s l /\ column k (s_cols s) <> None.
Proof.
  induction l as [|s l IH]; [simpl; split; [tauto|intros (? & [] & _)]|]. cbn [col_names]. rewrite nodup_In, in_app_iff, IH. split.
  - intros [H|(x & Hx & Kx)]; [exists s; split; [left; reflexivity|apply column_keys; assumption]|exists x; split; [right; assumption|assumption]].
  - intros (x & [<-|Hx] & Kx); [left; apply column_keys; assumption|right; exists x; split; assumption].
Qed.
Lemma column_map_keys {B} (f : nat -> B) ks k : column k (map (fun k => (k, f k)) ks) = if in_dec Nat.eq_dec k ks then Some (f k) else None.
Proof.
  induction ks as [|a ks IH]; [reflexivity|]. simpl map. cbn [column]. destruct (Nat.eqb a k) eqn:E.
  - apply Nat.eqb_eq in E. subst a. destruct (in_dec Nat.eq_dec k (k :: ks)) as [H|H]; [reflexivity|exfalso; apply H; left; reflexivity].
  - apply Nat.eqb_neq in E. rewrite IH. destruct (in_dec Nat.eq_dec k ks) as [H|H], (in_dec Nat.eq_dec k (a :: ks)) as [H'|H']; try reflexivity.
    + exfalso. apply H'. right. assumption.
    + destruct H' as [H'|H']; [congruence|contradiction].
Qed.
Lemma join_series_main se ss sd argsort self others st r : is_argsort argsort -> others <> [] ->
  (forall s, In s (self :: others) -> s_time s <> [] /\ all_of_length (length (s_time s)) (s_cols s)) ->
  (forall s, In s others -> s_mjdref s == s_mjdref self) ->
  join_timeseries se ss sd argsort self others st = Ok r ->
  nondecreasing (j_time r) /\ Permutation (j_time r) (flat_map s_time (self :: others)) /\
  (forall k, (exists v, column k (j_cols r) = Some v) <-> exists s, In s (self :: others) /\ column k (s_cols s) <> None) /\
  (forall k v, column k (j_cols r) = Some v -> Permutation (combine (j_time r) v) (join_rows k (self :: others))) /\
  (st <> NoMerge -> (exists s, In s (self :: others) /\ set_gti s) ->
     merge_gtis se ss sd (map gti_of (self :: others)) st = Ok (j_gti r)).
Proof.
  intros Ha No Hall Hm H. unfold join_timeseries in H. rewrite drop_none in H by (intros s Hs; apply Hall; right; assumption).
  destruct others as [|o others]; [congruence|]. rewrite rereference_same in H by assumption. cbn [bind] in H. set (all := self :: o :: others) in *.
  apply bind_ok in H. destruct H as (g & Hg & H). apply bind_ok in H. destruct H as (cols & Hc & H).
  assert (Hne : forall s, In s all -> s_time s <> []) by (intros s Hs; apply Hall; assumption).
  rewrite concat_cols_ok in Hc by assumption. match type of Hc with Ok ?X = _ => assert (Hcc : cols = X) by congruence end. clear Hc. subst cols.
  set (time := flat_map s_time all) in *. set (order := argsort time) in *. destruct (Ha time) as [Hp Hn]. fold order in Hp, Hn.
  assert (Hr : j_time r = take_all order time /\ j_gti r = g /\ j_cols r = map (fun k => (k, map (fun i => nth i (flat_map (cells k) all) None) order)) (col_names all)).
  { injection H as <-. repeat split. }
  destruct Hr as (-> & -> & ->). split; [exact Hn|]. split; [apply take_perm; assumption|]. split; [|split].
  - intros k. rewrite column_map_keys, <- col_names_in. destruct (in_dec Nat.eq_dec k (col_names all)) as [K|K]; split; intros Z; try assumption; try (eexists; reflexivity); [destruct Z; discriminate|contradiction].
  - intros k v Hk. rewrite column_map_keys in Hk. destruct (in_dec Nat.eq_dec k (col_names all)) as [K|K]; [|discriminate]. assert (Hv : v = map (fun i => nth i (flat_map (cells k) all) None) order) by congruence. rewrite Hv. clear Hk Hv.
    assert (L : forall s, In s all -> length (s_time s) = length (cells k s)).
    { intros s Hs. unfold cells. destruct (column k (s_cols s)) as [v0|] eqn:E; [|rewrite map_length; reflexivity]. rewrite map_length. symmetry. apply (proj2 (Hall s Hs) k).
      revert E. generalize (s_cols s). intros c. induction c as [|[k' w] c IH]; [discriminate|]. simpl. destruct (Nat.eqb k' k) eqn:Ek; [intros E; injection E as <-; apply Nat.eqb_eq in Ek; subst; left; reflexivity|intros E; right; apply IH; assumption]. }
    unfold take_all. eapply Permutation_trans; [apply take_rows; [apply flat_len; assumption|assumption]|].
    unfold time. rewrite combine_flat by assumption. apply Permutation_refl.
  - intros Hst (s & Hs & (g0 & Hgs)). destruct (filter (fun s => match s_gti s with Some _ => true | None => false end) all) eqn:E.
    + exfalso. assert (In s []) as [] by (rewrite <- E; apply filter_In; split; [assumption|rewrite Hgs; reflexivity]).
    + destruct st; try assumption. congruence.
Qed.
(* join: two empty series in a row are not both removed *)
Lemma join_two_empty : exists a e b, s_time e = [] /\ s_time a <> [] /\ s_time b <> [] /\
  join_timeseries (isort_by t_end) (isort_by fst) (isort_by fst) (fun l => seq 0 (length l)) a [e; e; b] Union = Err ValueError.
Proof.
  exists (mkSeries [1; 2] [(0%nat, [5; 6])] [] 1 None 0 None None), (mkSeries [] [] [] 1 None 0 None None), (mkSeries [3; 4] [(0%nat, [5; 6])] [] 1 None 0 None None).
  split; [reflexivity|]. split; [discriminate|]. split; [discriminate|]. vm_compute. reflexivity.
Qed.
Lemma join_empty_self : exists e b, s_time e = [] /\ s_time b <> [] /\
  join_timeseries (isort_by t_end) (isort_by fst) (isort_by fst) (fun l => seq 0 (length l)) e [b] Union = Err ValueError.
Proof.
  exists (mkSeries [] [] [] 1 None 0 None None), (mkSeries [3; 4] [(0%nat, [5; 6])] [] 1 None 0 None None).
  split; [reflexivity|]. split; [discriminate|]. vm_compute. reflexivity.
Qed.
Lemma join_mjdref_wrong : exists a b r t, s_mjdref a = 55000 /\ s_mjdref b = 550003 # 10 /\ s_time b = [3] /\
  join_timeseries (isort_by t_end) (isort_by fst) (isort_by fst) (fun l => seq 0 (length l)) a [b] Union = Ok r /\
  j_time r = [1; t] /\ ~ absolute (s_mjdref a) t == absolute (s_mjdref b) 3.
Proof.
  exists (mkSeries [1] [] [] 1 None 55000 None None), (mkSeries [3] [] [] 1 None (550003 # 10) None None). do 2 eexists.
  split; [reflexivity|]. split; [reflexivity|]. split; [reflexivity|]. split; [vm_compute; reflexivity|]. split; [reflexivity|]. vm_compute. discriminate.
Qed.
Lemma join_none_no_gti : exists a b r, s_gti a = Some [(0, 2)] /\ s_gti b = Some [(2, 4)] /\
  join_timeseries (isort_by t_end) (isort_by fst) (isort_by fst) (fun l => seq 0 (length l)) a [b] NoMerge = Ok r /\ j_gti r = None.
Proof.
  exists (mkSeries [1] [] [] 1 (Some [(0, 2)]) 0 None None), (mkSeries [3] [] [] 1 (Some [(2, 4)]) 0 None None). eexists.
  split; [reflexivity|]. split; [reflexivity|]. split; [vm_compute; reflexivity|]. reflexivity.
Qed.

(* ---------- rebinning ---------- *)
(* The samples of one interval, rebinned. *)
Definition rebinned_in (dx : dx_arg) (time y : list Q) (dt_new : Q) (m : rebin_method) (iv : Q * Q) (out : rebinned) : Prop :=
  exists mk, flags (fun t => fst iv <= t /\ t < snd iv) time mk /\
    rebin_data (fun v => v) (fun v => v) (keep mk time) (keep mk y) dt_new None m dx = Ok out.
Definition long_enough (dt_new : Q) (iv : Q * Q) : bool := qle dt_new (snd iv - fst iv).
Lemma rebin_gtis_main dx time y dt_new m : nondecreasing time -> length y = length time -> forall g r,
  rebin_gtis dx time y dt_new m g = Ok r -> exists outs,
    Forall2 (rebinned_in dx time y dt_new m) (filter (long_enough dt_new) g) outs /\
    fst (fst r) = flat_map r_x outs /\ snd (fst r) = flat_map r_y outs /\ snd r = filter (long_enough dt_new) g.
Proof.
  intros Hs L. induction g as [|iv g IH]; intros r H; cbn [rebin_gtis] in H.
  - injection H as <-. exists []. repeat split; constructor.
  - cbn [filter]. change (long_enough dt_new iv) with (qle dt_new (snd iv - fst iv)). destruct (qlt (snd iv - fst iv) dt_new) eqn:E.
    + replace (qle dt_new (snd iv - fst iv)) with false by (symmetry; destruct (qle dt_new (snd iv - fst iv)) eqn:Z; [qb; lra|reflexivity]). apply IH. assumption.
    + replace (qle dt_new (snd iv - fst iv)) with true by (symmetry; destruct (qle dt_new (snd iv - fst iv)) eqn:Z; [reflexivity|qb; lra]).
      apply bind_ok in H. destruct H as (o & Ho & H). apply bind_ok in H. destruct H as ([[x' y'] g'] & Hr & H). injection H as <-.
      destruct (IH _ Hr) as (outs & F & E1 & E2 & E3). cbn [fst snd] in *. subst. exists (o :: outs). cbn [flat_map]. split; [|repeat split; f_equal].
      constructor; [|assumption]. set (i := searchsorted_left time (fst iv)) in *. set (j := searchsorted_left time (snd iv)) in *.
      destruct (ssl_spec time (fst iv) Hs) as [I1 I2]. destruct (ssl_spec time (snd iv) Hs) as [J1 J2]. fold i in I1, I2. fold j in J1, J2.
      destruct (slice_flags (fun t => fst iv <= t /\ t < snd iv) time i j J2) as (mk & Fm & Em).
      { intros k t Hk. pose proof (I1 k t Hk) as A1. pose proof (J1 k t Hk) as A2. split.
        - intros [H1 H2]. split; [|apply A2; assumption]. destruct (Qlt_le_dec t (fst iv)) as [C|C]; [apply A1 in C; lia|assumption].
        - intros [H1 H2]. split; [|apply A2; assumption]. destruct (Nat.le_gt_cases i k) as [C|C]; [assumption|]. apply A1 in C. lra. }
      exists mk. split; [assumption|]. rewrite <- (Em Q time eq_refl), <- (Em Q y L). assumption.
Qed.
Lemma lc_rebin_main s dt_new m g k y r : nondecreasing (s_time s) -> gti_of s = Some g -> s_cols s = [(k, y)] -> length y = length (s_time s) ->
  lc_rebin s dt_new m = Ok r -> s_time r <> [] ->
  s_dt s <= dt_new /\ s_dt r = dt_new /\ s_mjdref r = s_mjdref s /\ gti_of r = Some (filter (long_enough dt_new) g) /\
  exists outs, Forall2 (rebinned_in DxNone (s_time s) y dt_new m) (filter (long_enough dt_new) g) outs /\
    s_time r = flat_map r_x outs /\ s_cols r = [(k, flat_map r_y outs)].
Proof.
  intros Hs Hg Hc L H N. unfold lc_rebin in H. destruct (qlt dt_new (s_dt s)) eqn:E; [discriminate|]. qb. rewrite Hg, Hc in H.
  apply bind_ok in H. destruct H as (o & Ho & H). destruct (rebin_gtis_main _ _ _ _ _ Hs L _ _ Ho) as (outs & F & E1 & E2 & E3).
  destruct (snd o) as [|iv g'] eqn:Z; [discriminate|]. assert (Hr : s_dt r = dt_new /\ s_mjdref r = s_mjdref s /\ s_time r = fst (fst o) /\ s_cols r = [(k, snd (fst o))] /\ (fst (fst o) <> [] -> gti_of r = Some (iv :: g'))).
  { match type of H with Ok ?X = _ => assert (r = X) as -> by congruence end. repeat split. intros Nn. unfold gti_of. cbn [s_gti]. destruct (fst (fst o)); [congruence|reflexivity]. }
  destruct Hr as (R1 & R2 & R3 & R4 & R5). split; [assumption|]. split; [assumption|]. split; [assumption|]. split; [rewrite <- E3; apply R5; congruence|].
  exists outs. split; [assumption|]. split; congruence.
Qed.
Lemma rebin_series_main s dt_new m g k y r : nondecreasing (s_time s) -> gti_of s = Some g -> s_cols s = [(k, y)] -> length y = length (s_time s) ->
  rebin_series s dt_new m = Ok r ->
  s_dt s <= dt_new /\ s_dt r = dt_new /\ s_mjdref r = s_mjdref s /\ gti_of r = Some g /\
  exists outs, Forall2 (rebinned_in (DxScalar (s_dt s)) (s_time s) y dt_new m) (filter (long_enough dt_new) g) outs /\
    s_time r = flat_map r_x outs /\ s_cols r = [(k, flat_map r_y outs)].
Proof.
  intros Hs Hg Hc L H. unfold rebin_series in H. destruct (qlt dt_new (s_dt s)) eqn:E; [discriminate|]. qb. rewrite Hg, Hc in H.
  apply bind_ok in H. destruct H as (o & Ho & H). destruct (rebin_gtis_main _ _ _ _ _ Hs L _ _ Ho) as (outs & F & E1 & E2 & E3).
  destruct (snd o) as [|iv g'] eqn:Z; [discriminate|]. match type of H with Ok ?X = _ => assert (r = X) as -> by congruence end. cbn [s_dt s_mjdref s_time s_cols].
  repeat (split; [first [assumption|reflexivity]|]). exists outs. split; [assumption|]. split; [assumption|]. rewrite E2. reflexivity.
Qed.
(* the rebinned series claims good time where it has no samples *)
Lemma rebin_stale_gti : exists s r g t, rebin_series s 4 MSum = Ok r /\ gti_of r = Some g /\ covered g t /\
  forall x, In x (s_time r) -> ~ (x - s_dt r / 2 <= t /\ t < x + s_dt r / 2).
Proof.
  exists (mkSeries [1 # 2; 3 # 2; 5 # 2; 7 # 2; 21 # 2; 23 # 2] [(0%nat, [1; 2; 3; 4; 5; 6])] [] 1 (Some [(0, 4); (10, 12)]) 0 None None).
  do 2 eexists. exists 11. split; [vm_compute; reflexivity|]. split; [reflexivity|]. split.
  - exists 10, 12. split; [right; left; reflexivity|]. split; [discriminate|reflexivity].
  - intros x [<-|[]]. vm_compute. intros [_ H]. discriminate.
Qed.
