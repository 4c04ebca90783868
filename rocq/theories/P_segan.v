(* P_segan.v: proofs about analyze_segments and apply_gti_lists (M_segan.v). *)
From Coq Require Import Lqa Lia Permutation.
From Verif Require Import Np Lib S_gti S_seg S_base S_flux S_segan M_gti M_seg M_merge M_utils M_lc M_base M_segan P_gti_cross P_gti_final P_seg_cut P_seg_regions P_base2 P_base3 P_helpers P_flux P_seg_bins.
Open Scope Q_scope.

(* ---- slices as masks ---- *)
Lemma slice_keep {A} : forall (m : list bool) (v : list A) i j, length m = length v -> (i <= j <= length v)%nat ->
  (forall k b, nth_error m k = Some b -> ((i <= k < j)%nat <-> b = true)) -> slice v i j = keep m v.
Proof.
  unfold slice. induction m as [|b m IH]; intros [|a v] i j L Hij H; try discriminate; [now rewrite skipn_nil, firstn_nil|].
  injection L as L. cbn [length] in Hij. pose proof (H 0%nat b eq_refl) as H0.
  destruct i as [|i]; cbn [skipn keep].
  - rewrite Nat.sub_0_r. destruct j as [|j]; cbn [firstn].
    + assert (b = false) as -> by (destruct b; [apply proj2 in H0; specialize (H0 eq_refl); lia|reflexivity]).
      specialize (IH v 0%nat 0%nat L ltac:(lia)). cbn in IH. apply IH. intros k c Hk. rewrite <- (H (S k) c Hk). lia.
    + assert (b = true) as -> by (apply H0; lia). f_equal.
      specialize (IH v 0%nat j L ltac:(lia)). cbn [skipn] in IH. rewrite Nat.sub_0_r in IH. apply IH. intros k c Hk. rewrite <- (H (S k) c Hk). lia.
  - destruct j as [|j]; [lia|]. assert (b = false) as -> by (destruct b; [apply proj2 in H0; specialize (H0 eq_refl); lia|reflexivity]).
    replace (S j - S i)%nat with (j - i)%nat by lia. apply IH; [assumption|lia|]. intros k c Hk. rewrite <- (H (S k) c Hk). lia.
Qed.
Lemma keep_filter {A} (p : A -> bool) l : keep (map p l) l = filter p l.
Proof. induction l as [|a l IH]; cbn; [reflexivity|]. now rewrite IH. Qed.
Lemma slice_cols_keep m n i j c : length m = n -> all_of_length n c -> (i <= j <= n)%nat ->
  (forall k b, nth_error m k = Some b -> ((i <= k < j)%nat <-> b = true)) -> map_cols (fun l => slice l i j) c = keep_cols m c.
Proof.
  intros L Ha Hij H. unfold map_cols, keep_cols. apply map_ext_in. intros [k v] Hin. cbn [fst snd]. f_equal.
  pose proof (Ha _ _ Hin) as Lv. apply slice_keep; [congruence|lia|assumption].
Qed.
Lemma every_one {A} (l : list A) : every 1 l = l.
Proof. unfold every. induction l as [|a l IH]; cbn; [reflexivity|]. f_equal. exact IH. Qed.
Lemma get_last_last {A} (l : list A) a : get_last (a :: l) = Ok (last (a :: l) a).
Proof.
  unfold get_last. destruct (exists_last (l := a :: l) ltac:(discriminate)) as (l' & z & E). rewrite E, rev_app_distr. cbn [rev app].
  f_equal. now rewrite last_last.
Qed.

(* ---- indexing a series ---- *)
Lemma cross_single srt g lo hi : sorts_by t_end srt -> good g -> lo <= hi -> exists r, cross_two_gtis srt g [(lo, hi)] = Ok r.
Proof.
  intros Hs (G1 & G2 & G3) H. destruct (join_equal_clean g G1 G2 G3) as (g' & E & C & _). unfold cross_two_gtis. rewrite E. cbn [bind join_equal_gti_boundaries join_equal_loop].
  rewrite (clean_check g' C). cbn [bind]. assert (K : check_gtis [(lo, hi)] = Ok tt).
  { cbn. destruct (qle lo hi) eqn:B; [reflexivity|qb; lra]. }
  rewrite K. cbn [bind]. pose proof (proj1 (Hs (tag_list false g' ++ tag_list true [(lo, hi)]))) as P.
  assert (N : g' <> []) by (intros ->; apply clean_check in C; discriminate).
  assert (L : (2 <= length (srt (tag_list false g' ++ tag_list true [(lo, hi)])))%nat).
  { rewrite (Permutation_length P), app_length. unfold tag_list. rewrite !map_length. cbn. destruct g'; [contradiction|cbn; lia]. }
  destruct (srt _) as [|a [|b l]]; cbn in L; try lia.
  destruct (rev (a :: b :: l)) as [|x [|y r]] eqn:R; [| |eexists; reflexivity];
  apply (f_equal (@length _)) in R; rewrite rev_length in R; cbn in R; lia.
Qed.
Lemma item_ok lc srt s i j g : sorts_by t_end srt -> good g -> gti_of s = Some g -> nondecreasing (s_time s) -> 0 <= s_dt s ->
  (i < j)%nat -> (j <= length (s_time s))%nat ->
  exists x, item lc srt s (Z.of_nat i) (Z.of_nat j) = Ok x /\
  forall m g', regular s -> length m = length (s_time s) -> (forall k b, nth_error m k = Some b -> ((i <= k < j)%nat <-> b = true)) ->
    with_gti (Some g') x = piece_of lc m g' s.
Proof.
  intros Hs G Hg Ht Hd Hij Hj.
  assert (L : length (slice (s_time s) i j) = (j - i)%nat) by (apply slice_len2; lia).
  destruct (slice (s_time s) i j) as [|a l] eqn:Es; [cbn in L; lia|].
  assert (E0 : get (slice (s_time s) i j) 0 = Ok a) by now rewrite Es.
  assert (El : get_last (slice (s_time s) i j) = Ok (last (a :: l) a)) by (rewrite Es; apply get_last_last).
  assert (N0 : nth_error (s_time s) i = Some a).
  { apply get_nth in E0. rewrite slice_nth in E0 by lia. now rewrite Nat.add_0_r in E0. }
  assert (Nl : nth_error (s_time s) (j - 1) = Some (last (a :: l) a)).
  { apply get_last_nth' in El. destruct El as [El _]. rewrite Es, L in El. rewrite <- Es in El. rewrite slice_nth in El by lia.
    replace (i + (j - i - 1))%nat with (j - 1)%nat in El by lia. now rewrite Es in El. }
  assert (Le : a <= last (a :: l) a).
  { destruct (Nat.eq_dec i (j - 1)) as [E|E]; [rewrite E in N0; assert (a = last (a :: l) a) by congruence; rewrite <- H; lra|].
    apply (Ht i (j - 1)%nat); [lia|assumption|assumption]. }
  destruct lc; unfold item.
  - unfold lc_getitem. rewrite (py_get_nat _ _ _ N0). cbn [bind].
    replace (Z.of_nat j - 1)%Z with (Z.of_nat (j - 1)) by lia. rewrite (py_get_nat _ _ _ Nl). cbn [bind]. rewrite Hg. cbn [Nat.ltb Nat.leb bind].
    destruct (cross_single srt g (a - (1 # 2) * s_dt s) (last (a :: l) a + (1 # 2) * s_dt s) Hs G ltac:(lra)) as (r & Er). rewrite Er. cbn [bind].
    eexists. split; [reflexivity|]. intros m g' [R1 R2] Lm Hm. unfold with_gti, piece_of. cbn [s_time s_cols s_errs s_dt s_mjdref s_tstart s_tseg].
    rewrite !zslice_nat, !every_one. rewrite <- (slice_keep m (s_time s) i j) by (assumption || lia).
    rewrite E0, El. rewrite Es. f_equal; unfold map_cols; rewrite <- ?(slice_cols_keep m (length (s_time s)) i j) by (assumption || lia);
    unfold map_cols; apply map_ext; intros [k v]; cbn [fst snd]; rewrite zslice_nat, every_one; reflexivity.
  - unfold getitem. unfold zslice_opt. rewrite zslice_nat, every_one, E0, El, Hg. cbn [Nat.ltb Nat.leb andb bind].
    destruct (cross_single srt g (a - s_dt s * (1 # 2)) (last (a :: l) a + s_dt s * (1 # 2)) Hs G ltac:(lra)) as (r & Er). rewrite Er. cbn [bind].
    eexists. split; [reflexivity|]. intros m g' [R1 R2] Lm Hm. unfold with_gti, piece_of, apply_mask. cbn [s_time s_cols s_errs s_dt s_mjdref s_tstart s_tseg].
    rewrite zslice_nat, every_one. rewrite <- (slice_keep m (s_time s) i j) by (assumption || lia).
    f_equal; rewrite <- ?(slice_cols_keep m (length (s_time s)) i j) by (assumption || lia);
    unfold map_cols; apply map_ext; intros [k v]; cbn [fst snd]; rewrite zslice_nat, every_one; reflexivity.
Qed.
Lemma item_piece lc srt s i j g m g' : sorts_by t_end srt -> good g -> gti_of s = Some g -> nondecreasing (s_time s) -> 0 <= s_dt s -> regular s ->
  (i < j)%nat -> (j <= length (s_time s))%nat -> length m = length (s_time s) ->
  (forall k b, nth_error m k = Some b -> ((i <= k < j)%nat <-> b = true)) ->
  exists x, item lc srt s (Z.of_nat i) (Z.of_nat j) = Ok x /\ with_gti (Some g') x = piece_of lc m g' s.
Proof.
  intros Hs G Hg Ht Hd R Hij Hj Lm Hm. destruct (item_ok lc srt s i j g Hs G Hg Ht Hd Hij Hj) as (x & E & P). exists x. split; [exact E|].
  now apply P.
Qed.
Lemma touch_fields s g : gti_of s = Some g -> gti_of (touch s) = Some g /\ s_time (touch s) = s_time s /\ s_cols (touch s) = s_cols s /\
  s_errs (touch s) = s_errs s /\ s_dt (touch s) = s_dt s /\ (forall lc m h, piece_of lc m h (touch s) = piece_of lc m h s) /\ (regular s -> regular (touch s)).
Proof. intros H. unfold touch, with_gti, gti_of. cbn. unfold gti_of in H. rewrite H. repeat split; auto; apply H0. Qed.
Lemma range_flags_nth n i j k b : nth_error (range_flags n i j) k = Some b -> ((i <= k < j)%nat <-> b = true).
Proof.
  unfold range_flags. rewrite nth_error_map. destruct (nth_error (seq 0 n) k) as [x|] eqn:E; [|discriminate]. cbn [option_map]. injection 1 as <-.
  assert (K : (k < n)%nat) by (apply (nth_error_Some (seq 0 n) k) in K || (rewrite <- (seq_length n 0); apply nth_error_Some; congruence)).
  rewrite (nth_error_nth' (seq 0 n) 0%nat) in E by (now rewrite seq_length). rewrite seq_nth in E by assumption. injection E as <-.
  rewrite andb_true_iff, Nat.leb_le, Nat.ltb_lt. reflexivity.
Qed.
Lemma window_flags times lo hi : nondecreasing times -> lo <= hi ->
  let i := searchsorted_left times lo in let j := searchsorted_left times hi in
  (i <= j <= length times)%nat /\ samples_in times lo hi = (j - i)%nat /\
  forall k b, nth_error (map (in_window lo hi) times) k = Some b -> ((i <= k < j)%nat <-> b = true).
Proof.
  intros Ht H i j. destruct (ssl_spec times lo Ht) as [A1 A2]. destruct (ssl_spec times hi Ht) as [B1 B2].
  assert (Hij : (i <= j <= length times)%nat) by (split; [apply ssl_mono; assumption|assumption]).
  assert (F : forall k t, nth_error times k = Some t -> ((i <= k < j)%nat <-> in_window lo hi t = true)).
  { intros k t Hk. unfold in_window. rewrite andb_true_iff, qle_t, qlt_t, <- (B1 _ _ Hk). fold j.
    destruct (A1 _ _ Hk) as [C1 C2]. fold i in C1, C2. split.
    - intros [X Y]. split; [|assumption]. apply Qnot_lt_le. intros C. apply C2 in C. lia.
    - intros [X Y]. split; [|assumption]. destruct (le_lt_dec i k) as [L|L]; [assumption|]. apply C1 in L. lra. }
  split; [assumption|]. split.
  - unfold samples_in. rewrite <- (slice_filter (in_window lo hi) times i j Hij F). now apply slice_len2.
  - intros k b Hb. rewrite nth_error_map in Hb. destruct (nth_error times k) as [t|] eqn:E; [|discriminate]. cbn in Hb. injection Hb as <-. now apply F.
Qed.

(* ---- analyze_segments ---- *)
Lemma analyze_windows {A} lc srt (func : series -> result A) s g ivs : sorts_by t_end srt -> good g -> gti_of s = Some g ->
  nondecreasing (s_time s) -> 0 <= s_dt s -> regular s -> (forall lo hi, In (lo, hi) ivs -> lo <= hi) ->
  analyze_loop lc srt func s (map (fun iv : ivl => (searchsorted_left (s_time s) (fst iv), searchsorted_left (s_time s) (snd iv), iv)) ivs) =
  map_result func (map (fun iv => cut_window lc s (fst iv) (snd iv)) (filter (fun iv => Nat.leb 2 (samples_in (s_time s) (fst iv) (snd iv))) ivs)).
Proof.
  intros Hs G Hg Ht Hd R. induction ivs as [|[lo hi] ivs IH]; intros H; [reflexivity|]. cbn [map analyze_loop fst snd filter].
  destruct (window_flags (s_time s) lo hi Ht (H lo hi (or_introl eq_refl))) as (Hij & Ev & F).
  set (i := searchsorted_left (s_time s) lo) in *. set (j := searchsorted_left (s_time s) hi) in *. rewrite Ev.
  destruct (Z.leb_spec (Z.of_nat j - Z.of_nat i) 1) as [L|L].
  - rewrite (proj2 (Nat.leb_gt 2 (j - i))) by lia. apply IH. intros a b Hin. apply H. now right.
  - rewrite (proj2 (Nat.leb_le 2 (j - i))) by lia. cbn [map map_result fst snd].
    destruct (item_piece lc srt s i j g (map (in_window lo hi) (s_time s)) [(lo, hi)] Hs G Hg Ht Hd R ltac:(lia) ltac:(lia) ltac:(now rewrite map_length) F) as (x & Ex & Px).
    rewrite Ex. cbn [bind]. rewrite Px. fold (cut_window lc s lo hi). destruct (func (cut_window lc s lo hi)); [|reflexivity]. cbn [bind].
    rewrite IH; [reflexivity|]. intros u v Hin. apply H. now right.
Qed.
Lemma map_result_total {A B} (f : A -> result B) h l : (forall a, In a l -> f a = Ok (h a)) -> map_result f l = Ok (map h l).
Proof.
  induction l as [|a l IH]; intros H; [reflexivity|]. cbn [map_result map]. rewrite (H a (or_introl eq_refl)). cbn [bind].
  rewrite IH by (intros b Hb; apply H; now right). reflexivity.
Qed.
Lemma window_touch lc s g lo hi : gti_of s = Some g -> cut_window lc (touch s) lo hi = cut_window lc s lo hi.
Proof. intros H. unfold cut_window. destruct (touch_fields s g H) as (_ & T & _ & _ & _ & P & _). rewrite P, T. reflexivity. Qed.
Lemma analyze_events {A} lc srt (f : series -> A) s g seg : sorts_by t_end srt -> good g -> gti_of s = Some g ->
  nondecreasing (s_time s) -> s_dt s == 0 -> regular s -> 0 < seg -> (exists a b, In (a, b) g /\ seg < b - a + (1 # 100000)) ->
  exists st, segment_grid g seg (1 # 100000) st /\
  analyze_segments lc srt (fun x => Ok (f x)) s (Some seg) 1 =
  Ok (st, map (fun a => a + seg) st,
      map (fun a => f (cut_window lc s a (a + seg))) (filter (fun a => Nat.leb 2 (samples_in (s_time s) a (a + seg))) st)).
Proof.
  intros Hs G Hg Ht Hd R Hseg Hl. destruct (grid_exists g seg _ Hseg Hl) as (st & E). exists st.
  split; [eapply grid_ok; [exact Hseg| |exact E]; lra|]. unfold analyze_segments. rewrite Hg.
  assert (Z : qlt 0 (s_dt s) = false) by (destruct (qlt 0 (s_dt s)) eqn:Z; [qb; lra|reflexivity]). rewrite Z, E. cbn [bind fst snd].
  assert (C : combine st (map (fun a => a + seg) st) = map (fun a => (a, a + seg)) st) by (clear; induction st as [|a st IH]; cbn; [reflexivity|]; now f_equal).
  rewrite C. destruct (touch_fields s g Hg) as (T1 & T2 & T3 & T4 & T5 & T6 & T7).
  rewrite <- T2. rewrite (analyze_windows lc srt (fun x => Ok (f x)) (touch s) g (map (fun a => (a, a + seg)) st) Hs G T1);
    [| now rewrite T2 | rewrite T5; lra | now apply T7 | intros lo hi Hin; apply in_map_iff in Hin; destruct Hin as (a & E' & _); injection E' as <- <-; lra].
  rewrite (map_result_total _ f) by reflexivity. cbn [bind]. rewrite T2, !map_map. cbn [fst snd].
  assert (I : forall l : list Q, map (fun a => a) l = l) by (intros l; apply map_id). rewrite I. do 2 f_equal.
  clear - Hg. induction st as [|a st IH]; [reflexivity|]. cbn [map filter fst snd]. destruct (Nat.leb 2 (samples_in (s_time s) a (a + seg))); [|exact IH].
  cbn [map fst snd]. rewrite (window_touch _ _ g) by assumption. now f_equal.
Qed.
Lemma analyze_gtis {A} lc srt (f : series -> A) s g frac : sorts_by t_end srt -> good g -> gti_of s = Some g ->
  nondecreasing (s_time s) -> 0 <= s_dt s -> regular s ->
  analyze_by_gti lc srt (fun x => Ok (f x)) s frac =
  Ok (map fst g, map snd g,
      map (fun iv => f (cut_window lc s (fst iv) (snd iv))) (filter (fun iv => Nat.leb 2 (samples_in (s_time s) (fst iv) (snd iv))) g)).
Proof.
  intros Hs G Hg Ht Hd R. unfold analyze_by_gti, analyze_segments. rewrite Hg. cbn [bind].
  destruct (touch_fields s g Hg) as (T1 & T2 & T3 & T4 & T5 & T6 & T7). rewrite <- T2.
  rewrite (analyze_windows lc srt (fun x => Ok (f x)) (touch s) g g Hs G T1); [| now rewrite T2 | rewrite T5; lra | now apply T7 |].
  2: { intros lo hi Hin. destruct G as (_ & _ & P). assert (lo < hi) by (apply (P lo hi Hin)). lra. }
  rewrite (map_result_total _ f) by reflexivity. cbn [bind]. rewrite T2, !map_map. cbn [fst snd]. f_equal.
Qed.
