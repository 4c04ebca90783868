(* P_reader.v: the look-up of times in an event file. *)
From Verif Require Import Np Lib S_gti S_seg S_utils M_gti M_seg M_utils M_reader S_reader P_seg_regions P_seg_cut P_helpers P_flux.
From Coq Require Import Lqa.
Open Scope Q_scope.

(* ---- the grid of indices ---- *)
Lemma grid_len size n : length (index_grid size n) = n.
Proof. unfold index_grid. now rewrite map_length, seq_length. Qed.
Lemma grid_nth size n k : (k < n)%nat -> nth_error (index_grid size n) k = Some ((k * (size - 1)) / (n - 1))%nat.
Proof.
  intros H. unfold index_grid. rewrite nth_error_map.
  assert (E : nth_error (seq 0 n) k = Some k).
  { rewrite (nth_error_nth' _ 0%nat) by (rewrite seq_length; assumption). rewrite seq_nth by assumption. reflexivity. }
  now rewrite E.
Qed.
Lemma grid_mono size n i j : (i <= j)%nat -> ((i * (size - 1)) / (n - 1) <= (j * (size - 1)) / (n - 1))%nat.
Proof.
  intros H. destruct (Nat.eq_dec (n - 1) 0) as [E|E]; [rewrite E; simpl; lia|].
  apply Nat.div_le_mono; [assumption|]. apply Nat.mul_le_mono_r. assumption.
Qed.
Lemma grid_end size n : (2 <= n)%nat -> (((n - 1) * (size - 1)) / (n - 1) = size - 1)%nat.
Proof. intros H. rewrite Nat.mul_comm. apply Nat.div_mul. lia. Qed.

(* ---- replacing the ends ---- *)
Lemma set_first_nth v l k : (1 <= length l)%nat -> nth_error (set_first v l) k = if Nat.eqb k 0 then Some v else nth_error l k.
Proof. destruct l as [|x l]; [simpl; lia|]. intros _. destruct k; reflexivity. Qed.
Lemma set_first_len v l : length (set_first v l) = length l.
Proof. destruct l; reflexivity. Qed.
Lemma removelast_len {A} (l : list A) : length (removelast l) = (length l - 1)%nat.
Proof.
  induction l as [|x l IH]; [reflexivity|]. destruct l as [|y l]; [reflexivity|].
  change (removelast (x :: y :: l)) with (x :: removelast (y :: l)). cbn [length] in *. rewrite IH. lia.
Qed.
Lemma removelast_nth {A} (l : list A) : forall k, (k < length l - 1)%nat -> nth_error (removelast l) k = nth_error l k.
Proof.
  induction l as [|x l IH]; intros k Hk; [simpl in Hk; lia|]. destruct l as [|y l]; [simpl in Hk; lia|].
  change (removelast (x :: y :: l)) with (x :: removelast (y :: l)).
  destruct k as [|k]; [reflexivity|]. cbn [nth_error]. apply IH. cbn [length] in *. lia.
Qed.
Lemma set_last_len v l : length (set_last v l) = length l.
Proof. destruct l as [|x l]; [reflexivity|]. unfold set_last. rewrite app_length, removelast_len. simpl. lia. Qed.
Lemma set_last_nth v l k : (1 <= length l)%nat ->
  nth_error (set_last v l) k = if Nat.eqb k (length l - 1) then Some v else nth_error l k.
Proof.
  intros H. unfold set_last. destruct l as [|x l]; [simpl in H; lia|]. set (m := x :: l) in *.
  destruct (Nat.eqb k (length m - 1)) eqn:E.
  - apply Nat.eqb_eq in E. rewrite nth_error_app2 by (rewrite removelast_len; lia).
    rewrite removelast_len, E, Nat.sub_diag. reflexivity.
  - apply Nat.eqb_neq in E. destruct (Nat.lt_ge_cases k (length m - 1)) as [L|L].
    + rewrite nth_error_app1 by (rewrite removelast_len; lia). apply removelast_nth. lia.
    + rewrite nth_error_app2 by (rewrite removelast_len; lia). rewrite removelast_len.
      replace (k - (length m - 1))%nat with (S (k - length m)) by lia.
      replace (nth_error m k) with (@None Q) by (symmetry; apply nth_error_None; lia). generalize (k - length m)%nat. intros [|z]; reflexivity.
Qed.
Lemma get_last_some {A} (l : list A) x : nth_error l (length l - 1) = Some x -> get_last l = Ok x.
Proof.
  intros H. destruct l as [|a l] using rev_ind; [destruct (length (@nil A) - 1)%nat; discriminate|].
  rewrite app_length in H. simpl in H. replace (length l + 1 - 1)%nat with (length l) in H by lia.
  rewrite nth_error_app2, Nat.sub_diag in H by lia. simpl in H. unfold get_last. rewrite rev_app_distr. simpl. congruence.
Qed.

(* ---- the stored edges ---- *)
Definition good_edges {A} (rd : reader A) (c : list Q * list nat) : Prop :=
  let te := fst c in let ie := snd c in let n := length te in let size := length (rd_rows rd) in
  length ie = n /\ (2 <= n)%nat /\ nondecreasing te /\
  nth_error ie 0 = Some 0%nat /\ nth_error ie (n - 1) = Some (size - 1)%nat /\
  (forall k i, nth_error ie k = Some i -> (i < size)%nat) /\
  (forall i j x y, (i <= j)%nat -> nth_error ie i = Some x -> nth_error ie j = Some y -> (x <= y)%nat) /\
  (forall k i, (0 < k < n - 1)%nat -> nth_error ie k = Some i -> nth_error te k = nth_error (rd_times rd) i) /\
  (exists e, nth_error te 0 = Some e /\ known_time (rd_rows rd) (rd_gti rd) e /\
     forall x, known_time (rd_rows rd) (rd_gti rd) x -> e <= x) /\
  (exists e, nth_error te (n - 1) = Some e /\ known_time (rd_rows rd) (rd_gti rd) e /\
     forall x, known_time (rd_rows rd) (rd_gti rd) x -> x <= e).

Lemma flat_in g x : In x (gti_flat g) <-> In x (map fst g) \/ In x (map snd g).
Proof.
  unfold gti_flat. rewrite in_flat_map, !in_map_iff. split.
  - intros (iv & H & [E|[E|[]]]); [left|right]; exists iv; auto.
  - intros [(iv & E & H)|(iv & E & H)]; exists iv; (split; [assumption|]); simpl; auto.
Qed.

Lemma fresh_good {A} (rd : reader A) n : (2 <= n)%Z -> in_order (rd_rows rd) -> rd_rows rd <> [] -> rd_gti rd <> [] ->
  exists c, trace_fresh rd n = Ok c /\ good_edges rd c.
Proof.
  intros Hn Hs Hr Hg. unfold trace_fresh.
  set (size := length (rd_rows rd)).
  assert (Hsz : (0 < size)%nat) by (unfold size; destruct (rd_rows rd); [congruence|simpl; lia]).
  set (nz := Z.min n (Z.of_nat (size / 10 + 2))).
  assert (Hnz : (2 <= nz)%Z) by (unfold nz; set (q := (size / 10)%nat); lia).
  replace (nz <? 0)%Z with false by (symmetry; apply Z.ltb_ge; lia).
  set (m := Z.to_nat nz). assert (Hm : (2 <= m)%nat) by (unfold m; lia). clearbody m. clear nz Hnz.
  assert (Lt : length (rd_times rd) = size) by (unfold rd_times; now rewrite map_length).
  assert (Hgrid : forall k, (k < m)%nat -> ((k * (size - 1)) / (m - 1) < size)%nat).
  { intros k Hk. assert (H := grid_mono size m k (m - 1) ltac:(lia)). rewrite grid_end in H by assumption. lia. }
  destruct (map_result_ok (get (rd_times rd)) (index_grid size m)) as (te & Ete).
  { intros i Hi. unfold index_grid in Hi. apply in_map_iff in Hi. destruct Hi as (k & <- & Hk). apply in_seq in Hk.
    destruct (nth_error_ex (rd_times rd) ((k * (size - 1)) / (m - 1))%nat) as [t Et]; [rewrite Lt; apply Hgrid; lia|].
    exists t. unfold get. now rewrite Et. }
  rewrite Ete. cbn [bind].
  destruct (map_result_nth _ _ _ Ete) as [Lte Nte0]. rewrite grid_len in Lte.
  assert (Nte : forall k, (k < m)%nat -> nth_error te k = nth_error (rd_times rd) ((k * (size - 1)) / (m - 1))%nat).
  { intros k Hk. destruct (Nte0 k _ (grid_nth size m k Hk)) as (b & Eb & X). rewrite Eb. unfold get in X.
    destruct (nth_error (rd_times rd) _); congruence. }
  clear Ete Nte0.
  assert (Hfl : gti_flat (rd_gti rd) <> []) by (destruct (rd_gti rd); [congruence|discriminate]).
  destruct (qmin_list_ok _ Hfl) as (mi & Emi & Imi & Lmi). destruct (qmax_list_ok _ Hfl) as (ma & Ema & Ima & Lma).
  rewrite Emi, Ema. cbn [bind].
  destruct (nth_error_ex (rd_times rd) 0) as [t0 Et0]; [lia|].
  destruct (nth_error_ex (rd_times rd) (size - 1)) as [tl Etl]; [lia|].
  assert (N0 : nth_error te 0 = Some t0) by (rewrite Nte by lia; cbn [Nat.mul]; rewrite Nat.div_0_l by lia; assumption).
  assert (Nl : nth_error te (m - 1) = Some tl) by (rewrite Nte, grid_end by lia; assumption).
  unfold get at 1. rewrite N0. cbn [bind].
  set (te1 := if qlt mi t0 then set_first mi te else te). set (e0 := if qlt mi t0 then mi else t0).
  assert (L1 : length te1 = m) by (unfold te1; destruct (qlt mi t0); [rewrite set_first_len|]; assumption).
  assert (N1 : forall k, nth_error te1 k = if Nat.eqb k 0 then Some e0 else nth_error te k).
  { intros k. unfold te1, e0. destruct (qlt mi t0); [apply set_first_nth; lia|]. destruct k; [assumption|reflexivity]. }
  rewrite (get_last_some te1 tl) by (rewrite L1, N1; replace (Nat.eqb (m - 1) 0) with false by (symmetry; apply Nat.eqb_neq; lia); assumption).
  cbn [bind].
  set (te2 := if qlt tl ma then set_last ma te1 else te1). set (e1 := if qlt tl ma then ma else tl).
  assert (L2 : length te2 = m) by (unfold te2; destruct (qlt tl ma); [rewrite set_last_len|]; assumption).
  assert (N2 : forall k, nth_error te2 k = if Nat.eqb k (m - 1) then Some e1 else nth_error te1 k).
  { intros k. unfold te2, e1. destruct (qlt tl ma); [rewrite set_last_nth, L1 by lia; reflexivity|].
    destruct (Nat.eqb k (m - 1)) eqn:E; [|reflexivity]. apply Nat.eqb_eq in E. subst k.
    rewrite N1. replace (Nat.eqb (m - 1) 0) with false by (symmetry; apply Nat.eqb_neq; lia). assumption. }
  clearbody te1 te2.
  assert (E0 : known_time (rd_rows rd) (rd_gti rd) e0 /\ forall x, known_time (rd_rows rd) (rd_gti rd) x -> e0 <= x).
  { split.
    - unfold e0, known_time. destruct (qlt mi t0); [apply flat_in in Imi; tauto|]. left. eapply nth_error_In. exact Et0.
    - intros x [Hx|Hx].
      + assert (t0 <= x).
        { apply In_nth_error in Hx. destruct Hx as [[|k] Ek]; [unfold rd_times in Et0; rewrite Et0 in Ek; inversion Ek; apply Qle_refl|].
          apply (Hs 0%nat (S k) t0 x); [lia|exact Et0|exact Ek]. }
        unfold e0. destruct (qlt mi t0) eqn:E; qb; lra.
      + apply flat_in in Hx. apply Lmi in Hx. unfold e0. destruct (qlt mi t0) eqn:E; qb; lra. }
  assert (E1 : known_time (rd_rows rd) (rd_gti rd) e1 /\ forall x, known_time (rd_rows rd) (rd_gti rd) x -> x <= e1).
  { split.
    - unfold e1, known_time. destruct (qlt tl ma); [apply flat_in in Ima; tauto|]. left. eapply nth_error_In. exact Etl.
    - intros x [Hx|Hx].
      + assert (x <= tl).
        { apply In_nth_error in Hx. destruct Hx as [k Ek].
          assert (Hk : (k < size)%nat) by (rewrite <- Lt; unfold rd_times; apply nth_error_Some; congruence).
          destruct (Nat.eq_dec k (size - 1)) as [->|Nk]; [unfold rd_times in Etl; rewrite Etl in Ek; inversion Ek; apply Qle_refl|].
          apply (Hs k (size - 1)%nat x tl); [lia|exact Ek|exact Etl]. }
        unfold e1. destruct (qlt tl ma) eqn:E; qb; lra.
      + apply flat_in in Hx. apply Lma in Hx. unfold e1. destruct (qlt tl ma) eqn:E; qb; lra. }
  assert (Kin : forall k t, nth_error te k = Some t -> known_time (rd_rows rd) (rd_gti rd) t).
  { intros k t H. assert (Hk : (k < m)%nat) by (rewrite <- Lte; apply nth_error_Some; congruence).
    rewrite Nte in H by assumption. left. eapply nth_error_In. exact H. }
  assert (Sraw : forall i j x y, (i < j)%nat -> nth_error te i = Some x -> nth_error te j = Some y -> x <= y).
  { intros i j x y Hij Hx Hy. assert (Hj : (j < m)%nat) by (rewrite <- Lte; apply nth_error_Some; congruence).
    rewrite Nte in Hx, Hy by lia. assert (G := grid_mono size m i j ltac:(lia)).
    destruct (Nat.eq_dec (i * (size - 1) / (m - 1)) (j * (size - 1) / (m - 1))) as [E|E].
    - rewrite E, Hy in Hx. inversion Hx. apply Qle_refl.
    - eapply Hs; [|exact Hx|exact Hy]. lia. }
  exists (te2, index_grid size m). split; [reflexivity|]. unfold good_edges. cbn [fst snd]. fold size. rewrite L2.
  split; [apply grid_len|]. split; [assumption|]. split; [|split; [|split; [|split; [|split; [|split; [|split]]]]]].
  - intros i j x y Hij Hx Hy. assert (Hj : (j < m)%nat) by (rewrite <- L2; apply nth_error_Some; congruence).
    rewrite N2 in Hx, Hy. replace (Nat.eqb i (m - 1)) with false in Hx by (symmetry; apply Nat.eqb_neq; lia).
    rewrite N1 in Hx. destruct (Nat.eqb j (m - 1)) eqn:Ej.
    + inversion Hy; subst y. destruct (Nat.eqb i 0) eqn:Ei.
      * inversion Hx; subst x. apply E0, E1.
      * apply E1. eapply Kin; exact Hx.
    + rewrite N1 in Hy. replace (Nat.eqb j 0) with false in Hy by (symmetry; apply Nat.eqb_neq; lia).
      destruct (Nat.eqb i 0) eqn:Ei; [inversion Hx; subst x; apply E0; eapply Kin; exact Hy|]. apply (Sraw i j); assumption.
  - rewrite grid_nth by lia. cbn [Nat.mul]. now rewrite Nat.div_0_l by lia.
  - rewrite grid_nth by lia. now rewrite grid_end.
  - intros k i H. assert (Hk : (k < m)%nat) by (rewrite <- (grid_len size m); apply nth_error_Some; congruence).
    rewrite grid_nth in H by assumption. inversion H; subst i. now apply Hgrid.
  - intros i j x y Hij Hx Hy. assert (Hj : (j < m)%nat) by (rewrite <- (grid_len size m); apply nth_error_Some; congruence).
    rewrite grid_nth in Hx, Hy by lia. inversion Hx; inversion Hy; subst. now apply grid_mono.
  - intros k i Hk H. rewrite grid_nth in H by lia. inversion H; subst i. rewrite N2, N1.
    replace (Nat.eqb k (m - 1)) with false by (symmetry; apply Nat.eqb_neq; lia).
    replace (Nat.eqb k 0) with false by (symmetry; apply Nat.eqb_neq; lia). apply Nte. lia.
  - exists e0. split; [|exact E0]. rewrite N2, N1. replace (Nat.eqb 0 (m - 1)) with false by (symmetry; apply Nat.eqb_neq; lia). reflexivity.
  - exists e1. split; [|exact E1]. rewrite N2, Nat.eqb_refl. reflexivity.
Qed.

Lemma trace_good {A} (rd : reader A) cache n : (2 <= n)%Z -> in_order (rd_rows rd) -> rd_rows rd <> [] -> rd_gti rd <> [] ->
  (forall c, cache = Some c -> good_edges rd c) ->
  exists c, trace_nphots rd cache n = Ok c /\ good_edges rd c.
Proof.
  intros Hn Hs Hr Hg Hc. unfold trace_nphots. destruct cache as [[te ie]|]; [|now apply fresh_good].
  destruct (n <=? _)%Z; [|now apply fresh_good]. exists (te, ie). split; [reflexivity|]. now apply Hc.
Qed.
Lemma edges_number g start stop : start < stop ->
  (2 <= Qfloor (get_total_gti_length g 0 / (stop - start)) + 2)%Z.
Proof.
  intros H. assert (0 <= get_total_gti_length g 0 / (stop - start)).
  { apply Qle_shift_div_l; [lra|]. rewrite Qmult_0_l. unfold get_total_gti_length. induction (get_gti_lengths g) as [|x l IH]; simpl; [apply Qle_refl|].
    destruct (qle 0 x) eqn:E; qb; [|assumption]. unfold qsum in *. cbn [fold_right]. lra. }
  apply Qfloor_resp_le in H0. change (Qfloor 0) with 0%Z in H0. lia.
Qed.
Lemma before_len {A} (rows : list (Q * A)) t : rows_before rows t = length (filter (fun x => qlt x t) (map fst rows)).
Proof.
  unfold rows_before. induction rows as [|r rows IH]; [reflexivity|]. cbn [map filter].
  destruct (qlt (fst r) t); cbn [length]; now rewrite IH.
Qed.
Lemma sorted_before times t : nondecreasing times -> length (filter (fun x => qlt x t) times) = searchsorted_left times t.
Proof.
  intros Hs. apply (proj2 (ss_nth Qle times)) in Hs. induction Hs as [|a l Hs IH Hf]; [reflexivity|]. cbn [filter searchsorted_left].
  destruct (qlt a t) eqn:E; [cbn [length]; now rewrite IH|].
  replace (filter (fun x => qlt x t) l) with (@nil Q); [reflexivity|]. symmetry. clear IH Hs. qb.
  induction l as [|b l IH]; [reflexivity|]. cbn [filter]. inversion Hf; subst. replace (qlt b t) with false by (symmetry; qb; lra). now apply IH.
Qed.
Lemma nth_firstn_lt {A} (l : list A) : forall n k, (k < n)%nat -> nth_error (firstn n l) k = nth_error l k.
Proof. induction l as [|a l IH]; intros [|n] [|k] H; simpl; try reflexivity; try lia. apply IH. lia. Qed.
Lemma nth_skipn_add {A} (l : list A) : forall n k, nth_error (skipn n l) k = nth_error l (n + k).
Proof. induction l as [|a l IH]; intros [|n] k; simpl; try reflexivity; [now destruct k|apply IH]. Qed.
(* the count in a part of the file that contains every time around v *)
Lemma part_before times v lo hi : nondecreasing times -> (lo <= hi <= length times)%nat ->
  (forall k t, (k < lo)%nat -> nth_error times k = Some t -> t < v) ->
  (forall k t, (hi <= k)%nat -> nth_error times k = Some t -> v <= t) ->
  (searchsorted_left (slice times lo hi) v + lo = searchsorted_left times v)%nat.
Proof.
  intros Hs Hlh Hlo Hhi.
  assert (Nsl : forall k, nth_error (slice times lo hi) k = if Nat.ltb k (hi - lo) then nth_error times (lo + k) else None).
  { intros k. destruct (Nat.ltb k (hi - lo)) eqn:E.
    - apply Nat.ltb_lt in E. unfold slice. rewrite nth_firstn_lt by assumption. apply nth_skipn_add.
    - apply Nat.ltb_ge in E. apply nth_error_None. rewrite slice_len2; lia. }
  assert (Hss : nondecreasing (slice times lo hi)).
  { intros i j x y Hij Hx Hy. rewrite Nsl in Hx, Hy. destruct (Nat.ltb i (hi - lo)); [|discriminate].
    destruct (Nat.ltb j (hi - lo)); [|discriminate]. eapply Hs; [|exact Hx|exact Hy]. lia. }
  destruct (ssl_spec times v Hs) as [A1 A2]. destruct (ssl_spec (slice times lo hi) v Hss) as [B1 B2].
  rewrite slice_len2 in B2 by assumption.
  set (p := searchsorted_left times v) in *. set (q := searchsorted_left (slice times lo hi) v) in *.
  assert (P1 : (lo <= p)%nat).
  { destruct (Nat.lt_ge_cases p lo) as [L|L]; [|assumption]. destruct (nth_error_ex times p) as [t Et]; [lia|].
    specialize (Hlo p t L Et). apply (A1 p t Et) in Hlo. lia. }
  assert (P2 : (p <= hi)%nat).
  { destruct (Nat.lt_ge_cases hi p) as [L|L]; [|assumption]. destruct (nth_error_ex times hi) as [t Et]; [lia|].
    specialize (Hhi hi t (le_n _) Et). apply (A1 hi t Et) in L. lra. }
  destruct (Nat.lt_trichotomy (q + lo) p) as [L|[L|L]]; [|assumption|].
  - destruct (nth_error_ex times (q + lo)) as [t Et]; [lia|]. apply (A1 _ t Et) in L.
    assert (Es : nth_error (slice times lo hi) q = Some t).
    { rewrite Nsl. assert ((q + lo < p)%nat) by (apply (A1 _ t Et); assumption).
      replace (Nat.ltb q (hi - lo)) with true by (symmetry; apply Nat.ltb_lt; lia). rewrite Nat.add_comm. assumption. }
    apply (B1 _ t Es) in L. lia.
  - destruct (nth_error_ex times p) as [t Et]; [lia|].
    assert (Es : nth_error (slice times lo hi) (p - lo) = Some t).
    { rewrite Nsl. replace (Nat.ltb (p - lo) (hi - lo)) with true by (symmetry; apply Nat.ltb_lt; lia).
      replace (lo + (p - lo))%nat with p by lia. assumption. }
    assert (t < v) by (apply (B1 _ t Es); lia). apply (A1 _ t Et) in H. lia.
Qed.

Lemma get_idx_main {A} (rd : reader A) cache start stop : start < stop ->
  in_order (rd_rows rd) -> rd_rows rd <> [] -> rd_gti rd <> [] -> (forall c, cache = Some c -> good_edges rd c) ->
  reaches (rd_rows rd) (rd_gti rd) start stop ->
  exists c, get_idx rd cache start stop =
      Ok (Z.of_nat (rows_before (rd_rows rd) start), Z.of_nat (rows_before (rd_rows rd) stop) - 1, c)%Z /\ good_edges rd c.
Proof.
  intros Hlt Hs Hr Hg Hc [(xa & Ka & La) (xb & Kb & Lb)]. unfold get_idx.
  replace (qeq start stop) with false by (symmetry; apply not_true_is_false; intros C; apply Qeq_bool_eq in C; lra).
  destruct (trace_good rd cache _ (edges_number (rd_gti rd) start stop Hlt) Hs Hr Hg Hc) as (c & -> & G). cbn [bind].
  assert (G0 := G). unfold good_edges in G. cbv zeta in G.
  set (te := fst c) in *. set (ie := snd c) in *. set (n := length te) in *. set (size := length (rd_rows rd)) in *.
  destruct G as (Li & Hn & St & I0 & Il & Ib & Im & Mid & (e0 & N0 & _ & M0) & (e1 & N1 & _ & M1)).
  set (raw_min := (searchsorted_left te start - 2)%nat). set (raw_max := Nat.min (n - 1) (searchsorted_right te stop + 2)).
  destruct (ssl_spec te start St) as [A1 A2]. destruct (ssr_spec te stop St) as [B1 B2]. fold n in A2, B2.
  assert (Rm : (raw_min <= n - 2)%nat) by (unfold raw_min; lia).
  assert (RM : (raw_max <= n - 1)%nat) by (unfold raw_max; lia).
  assert (Rmm : (raw_min <= raw_max)%nat).
  { assert ((searchsorted_left te start <= searchsorted_right te stop)%nat); [|unfold raw_min, raw_max; lia].
    destruct (Nat.lt_ge_cases (searchsorted_right te stop) (searchsorted_left te start)) as [L|L]; [|assumption].
    destruct (nth_error_ex te (searchsorted_right te stop)) as [t Et]; [fold n; lia|].
    apply (A1 _ t Et) in L. assert (t <= stop) by lra. apply (B1 _ t Et) in H. lia. }
  destruct (nth_error_ex ie raw_min) as [il Eil]; [rewrite Li; lia|]. destruct (nth_error_ex ie raw_max) as [iu Eiu]; [rewrite Li; lia|].
  destruct (nth_error_ex te raw_min) as [tl Etl]; [fold n; lia|]. destruct (nth_error_ex te raw_max) as [tu Etu]; [fold n; lia|].
  unfold get. rewrite Eil, Eiu, Etl, Etu. cbn [bind].
  assert (T1 : tl <= start).
  { destruct (Nat.eq_dec raw_min 0) as [E|E].
    - rewrite E in Etl. rewrite N0 in Etl. inversion Etl; subst. apply M0 in Ka. lra.
    - assert (tl < start) by (apply (A1 _ tl Etl); unfold raw_min in *; lia). lra. }
  assert (T2 : stop <= tu).
  { destruct (Nat.eq_dec raw_max (n - 1)) as [E|E].
    - rewrite E in Etu. rewrite N1 in Etu. inversion Etu; subst. apply M1 in Kb. lra.
    - assert (~ tu <= stop); [|lra]. rewrite <- (B1 _ tu Etu). unfold raw_max in *. lia. }
  replace (qle 0 (start - tl)) with true by (symmetry; qb; lra). replace (qle 0 (tu - stop)) with true by (symmetry; qb; lra).
  cbn [negb].
  assert (Lt : length (rd_times rd) = size) by (unfold rd_times; now rewrite map_length).
  assert (Hb1 := Ib _ _ Eil). assert (Hb2 := Ib _ _ Eiu). assert (Hb3 := Im _ _ _ _ Rmm Eil Eiu).
  assert (Plo : forall k t, (k < il)%nat -> nth_error (rd_times rd) k = Some t -> t < start).
  { intros k t Hk Et. destruct (Nat.eq_dec raw_min 0) as [E|E]; [rewrite E, I0 in Eil; inversion Eil; subst; lia|].
    assert (tl < start) by (apply (A1 _ tl Etl); unfold raw_min in *; lia).
    assert (t <= tl); [|lra]. apply (Hs k il t tl); [assumption|exact Et|].
    fold (rd_times rd). rewrite <- (Mid raw_min il); [assumption|lia|assumption]. }
  assert (Phi : forall k t, (iu + 1 <= k)%nat -> nth_error (rd_times rd) k = Some t -> stop < t).
  { intros k t Hk Et. assert (Hk2 : (k < size)%nat) by (rewrite <- Lt; apply nth_error_Some; congruence).
    destruct (Nat.eq_dec raw_max (n - 1)) as [E|E]; [rewrite E, Il in Eiu; inversion Eiu; subst; lia|].
    assert (~ tu <= stop) by (rewrite <- (B1 _ tu Etu); unfold raw_max in *; lia).
    assert (tu <= t); [|lra]. apply (Hs iu k tu t); [lia| |exact Et].
    fold (rd_times rd). rewrite <- (Mid raw_max iu); [assumption| |assumption]. unfold raw_max in *. lia. }
  exists c. split; [|assumption]. rewrite !before_len, !sorted_before by exact Hs. fold (rd_times rd).
  rewrite <- (part_before (rd_times rd) start il (iu + 1)); [|exact Hs|lia|assumption|].
  2:{ intros k t Hk Et. specialize (Phi k t Hk Et). lra. }
  rewrite <- (part_before (rd_times rd) stop il (iu + 1)); [|exact Hs|lia| |].
  2:{ intros k t Hk Et. specialize (Plo k t Hk Et). lra. }
  2:{ intros k t Hk Et. specialize (Phi k t Hk Et). lra. }
  rewrite !Nat2Z.inj_add. f_equal. f_equal. f_equal. lia.
Qed.

Lemma get_idx_outside {A} (rd : reader A) cache start stop : start < stop ->
  in_order (rd_rows rd) -> rd_rows rd <> [] -> rd_gti rd <> [] -> (forall c, cache = Some c -> good_edges rd c) ->
  ~ reaches (rd_rows rd) (rd_gti rd) start stop -> get_idx rd cache start stop = Err AssertionError.
Proof.
  intros Hlt Hs Hr Hg Hc Hno. unfold get_idx.
  replace (qeq start stop) with false by (symmetry; apply not_true_is_false; intros C; apply Qeq_bool_eq in C; lra).
  destruct (trace_good rd cache _ (edges_number (rd_gti rd) start stop Hlt) Hs Hr Hg Hc) as (c & -> & G). cbn [bind].
  unfold good_edges in G. cbv zeta in G.
  set (te := fst c) in *. set (ie := snd c) in *. set (n := length te) in *. set (size := length (rd_rows rd)) in *.
  destruct G as (Li & Hn & St & I0 & Il & Ib & Im & Mid & (e0 & N0 & K0 & M0) & (e1 & N1 & K1 & M1)).
  set (raw_min := (searchsorted_left te start - 2)%nat). set (raw_max := Nat.min (n - 1) (searchsorted_right te stop + 2)).
  destruct (ssl_spec te start St) as [A1 A2]. destruct (ssr_spec te stop St) as [B1 B2]. fold n in A2, B2.
  destruct (nth_error_ex ie raw_min) as [il Eil]; [rewrite Li; unfold raw_min; lia|].
  destruct (nth_error_ex ie raw_max) as [iu Eiu]; [rewrite Li; unfold raw_max; lia|].
  destruct (nth_error_ex te raw_min) as [tl Etl]; [fold n; unfold raw_min; lia|].
  destruct (nth_error_ex te raw_max) as [tu Etu]; [fold n; unfold raw_max; lia|].
  unfold get. rewrite Eil, Eiu, Etl, Etu. cbn [bind].
  destruct (qle 0 (start - tl)) eqn:E1; [|reflexivity]. destruct (qle 0 (tu - stop)) eqn:E2; [|reflexivity].
  qb. exfalso. apply Hno. split; [exists e0|exists e1]; (split; [assumption|]).
  - destruct (Nat.eq_dec raw_min 0) as [E|E]; [rewrite E, N0 in Etl; inversion Etl; subst; lra|].
    assert (e0 <= tl) by (apply (St 0%nat raw_min); [lia|assumption|assumption]). lra.
  - destruct (Nat.eq_dec raw_max (n - 1)) as [E|E]; [rewrite E, N1 in Etu; inversion Etu; subst; lra|].
    assert (tu <= e1) by (apply (St raw_max (n - 1)%nat); [unfold raw_max in *; lia|assumption|assumption]). lra.
Qed.

(* ---- consecutive calls ---- *)
Lemma get_idx_all_main {A} (rd : reader A) : in_order (rd_rows rd) -> rd_rows rd <> [] -> rd_gti rd <> [] ->
  forall qs cache, (forall c, cache = Some c -> good_edges rd c) ->
  (forall a b, In (a, b) qs -> a < b /\ reaches (rd_rows rd) (rd_gti rd) a b) ->
  get_idx_all rd cache qs =
    Ok (map (fun q => (Z.of_nat (rows_before (rd_rows rd) (fst q)), Z.of_nat (rows_before (rd_rows rd) (snd q)) - 1)%Z) qs).
Proof.
  intros Hs Hr Hg. induction qs as [|[a b] qs IH]; intros cache Hc Hq; [reflexivity|]. cbn [get_idx_all fst snd].
  destruct (Hq a b (or_introl eq_refl)) as [Hab Hre].
  destruct (get_idx_main rd cache a b Hab Hs Hr Hg Hc Hre) as (c & -> & G). cbn [bind snd fst].
  rewrite (IH (Some c)); [reflexivity| |].
  - intros c' E. inversion E; subst. assumption.
  - intros a' b' H. apply Hq. now right.
Qed.
Lemma get_idx_all_outside {A} (rd : reader A) : in_order (rd_rows rd) -> rd_rows rd <> [] -> rd_gti rd <> [] ->
  forall qs cache a b qs', (forall c, cache = Some c -> good_edges rd c) ->
  (forall a b, In (a, b) qs -> a < b /\ reaches (rd_rows rd) (rd_gti rd) a b) ->
  a < b -> ~ reaches (rd_rows rd) (rd_gti rd) a b -> get_idx_all rd cache (qs ++ (a, b) :: qs') = Err AssertionError.
Proof.
  intros Hs Hr Hg. induction qs as [|[x y] qs IH]; intros cache a b qs' Hc Hq Hab Hno; cbn [app get_idx_all fst snd].
  - now rewrite get_idx_outside.
  - destruct (Hq x y (or_introl eq_refl)) as [Hxy Hre].
    destruct (get_idx_main rd cache x y Hxy Hs Hr Hg Hc Hre) as (c & -> & G). cbn [bind snd fst].
    rewrite IH; [reflexivity| | |assumption|assumption].
    + intros c' E. inversion E; subst. assumption.
    + intros a' b' H. apply Hq. now right.
Qed.
Lemma range_main {A} (rd : reader A) qs : in_order (rd_rows rd) -> rd_rows rd <> [] -> rd_gti rd <> [] ->
  (forall a b, In (a, b) qs -> a < b /\ reaches (rd_rows rd) (rd_gti rd) a b) ->
  get_idx_all rd None qs =
    Ok (map (fun q => (Z.of_nat (rows_before (rd_rows rd) (fst q)), Z.of_nat (rows_before (rd_rows rd) (snd q)) - 1)%Z) qs).
Proof. intros. now apply get_idx_all_main. Qed.
Lemma range_outside {A} (rd : reader A) qs a b qs' : in_order (rd_rows rd) -> rd_rows rd <> [] -> rd_gti rd <> [] ->
  (forall a b, In (a, b) qs -> a < b /\ reaches (rd_rows rd) (rd_gti rd) a b) ->
  a < b -> ~ reaches (rd_rows rd) (rd_gti rd) a b -> get_idx_all rd None (qs ++ (a, b) :: qs') = Err AssertionError.
Proof. intros. now apply get_idx_all_outside. Qed.
Lemma rows_slice {A} (rows : list (Q * A)) a b : in_order rows -> a <= b ->
  slice rows (rows_before rows a) (rows_before rows b) = rows_in rows a b.
Proof.
  intros Hs Hab. rewrite !before_len, !sorted_before by exact Hs.
  destruct (ssl_spec _ a Hs) as [A1 A2]. destruct (ssl_spec _ b Hs) as [B1 B2]. assert (M := ssl_mono _ a b Hs Hab).
  rewrite map_length in *. apply slice_filter; [lia|]. intros k r Hk.
  assert (Ek : nth_error (map fst rows) k = Some (fst r)) by (rewrite nth_error_map, Hk; reflexivity).
  assert (H1 := A1 k _ Ek). assert (H2 := B1 k _ Ek). split.
  - intros [L1 L2]. apply andb_true_intro. split; qb; [|tauto]. apply Qnot_lt_le. intros C. apply H1 in C. lia.
  - intros H. apply andb_prop in H. destruct H as [X Y]. qb. split; [|tauto].
    destruct (Nat.lt_ge_cases k (searchsorted_left (map fst rows) a)) as [L|L]; [|assumption]. apply H1 in L. lra.
Qed.
