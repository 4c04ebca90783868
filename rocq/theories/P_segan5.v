(* P_segan5.v: proofs about fill_bad_time_intervals (M_segan.v). *)
From Verif Require Import Np Lib S_gti S_seg S_base S_flux S_segan M_gti M_seg M_merge M_utils M_lc M_base M_segan P_gti_cross P_gti_final P_gti_ops P_seg_cut P_seg_regions P_base P_base2 P_base3 P_helpers P_flux P_segan P_segan2 P_segan3.
From Coq Require Import Lqa Lia Permutation.
Open Scope Q_scope.

Lemma gaps_pos g : StronglySorted P_gti_cross.sepR g -> forall a b, In (a, b) (gaps g) -> a < b.
Proof.
  induction 1 as [|x g H IH F]; [intros a b []|]. destruct g as [|y g]; [intros a b []|]. cbn [gaps]. intros a b [E|Hin]; [|exact (IH a b Hin)].
  injection E as <- <-. inversion F; subst. assumption.
Qed.
Lemma bad_gaps g t0 tl btis : good g -> gaps_between g -> get_btis g (Some t0) (Some tl) = Ok btis -> forall a b, In (a, b) btis -> a_gap g a b.
Proof.
  intros (N & W & P) Gp E a b Hin. destruct g as [|x g]; [congruence|]. pose proof W as W'. apply well_formed_ss in W'. destruct W' as [HF HS].
  destruct (gaps_spec g x HF HS) as (A0 & A1 & A2 & A3 & A4 & A5).
  unfold get_btis in E. rewrite (proj2 (check_gtis_iff _) (conj N W)) in E. cbn [bind] in E. injection E as <-.
  apply gaps_between_ss in Gp.
  assert (Hfirst : forall iv, In iv (x :: g) -> fst x <= fst iv).
  { intros iv [<-|Hiv]; [lra|]. apply StronglySorted_inv in HS. destruct HS as [_ HS]. rewrite Forall_forall in HS. inversion HF; subst. apply HS in Hiv. lra. }
  assert (Hlst : forall iv, In iv (x :: g) -> snd iv <= snd (last (x :: g) x)).
  { intros iv Hiv. clear - HS HF Hiv. destruct (@exists_last _ (x :: g)) as (l & z & E); [discriminate|]. rewrite E in *. rewrite last_last.
    apply in_app_iff in Hiv. destruct Hiv as [Hiv|[<-|[]]]; [|lra]. apply ss_app in HS. destruct HS as (_ & _ & HS). specialize (HS iv z Hiv (or_introl eq_refl)). simpl in HS.
    apply Forall_app in HF. destruct HF as [_ HF]. inversion HF; subst. lra. }
  apply in_app_iff in Hin. destruct Hin as [Hin|Hin]; [|apply in_app_iff in Hin; destruct Hin as [Hin|Hin]].
  - destruct (qle (fst x) t0) eqn:B; [destruct Hin|]. cbv iota in Hin. destruct Hin as [Hin|[]]. injection Hin as <- <-. qb. split; [lra|]. intros t T1 T2 (c & d & Hcd & h3 & h4).
    apply Hfirst in Hcd. cbn in Hcd. lra.
  - split; [now apply (gaps_pos _ Gp)|]. intros t T1 T2. assert (Hb : covered (gaps (x :: g)) t) by (exists a, b; auto). apply A1 in Hb. tauto.
  - change (In (a, b) (if qlt (snd (last (x :: g) x)) tl then [(snd (last (x :: g) x), tl)] else [])) in Hin. set (z := last (x :: g) x) in *. clearbody z.
    destruct (qlt (snd z) tl) eqn:B; [|destruct Hin]. destruct Hin as [Hin|[]]. injection Hin as <- <-. qb. split; [lra|]. intros t T1 T2 (c & d & Hcd & h3 & h4).
    apply Hlst in Hcd. cbn in Hcd. lra.
Qed.

(* what one filled gap adds *)
Definition added_rows (cols : list (nat * list Q)) (btis : gtis) (ml : Q) (n : list Q * list (list Q)) : Prop :=
  (exists a b, In (a, b) btis /\ b - a <= ml /\ forall t, In t (fst n) -> a <= t /\ t <= b) /\
  Forall2 (fun c v => length v = length (fst n) /\ incl v (snd c)) cols (snd n).
Lemma zslice_incl {A} (l : list A) i j : incl (zslice l i j) l.
Proof.
  intros x H. unfold zslice, slice in H. apply (In_nth_error) in H. destruct H as [k H].
  assert (X : forall (l : list A) n, incl (firstn n l) l /\ incl (skipn n l) l).
  { clear. intros l n. split; [|intros x Hx]. - intros x Hx. rewrite <- (firstn_skipn n l). apply in_app_iff. now left. - rewrite <- (firstn_skipn n l). apply in_app_iff. now right. }
  apply nth_error_In in H. revert H. repeat match goal with |- In _ (firstn ?n ?m) -> _ => intros H; apply (proj1 (X m n)) in H; revert H | |- In _ (skipn ?n ?m) -> _ => intros H; apply (proj2 (X m n)) in H; revert H end. auto.
Qed.
Lemma gap_values_ok r k buffer lh n c v : choice_in (choice r) -> gap_values r k buffer lh n c = Ok v -> length v = n /\ incl v (snd c).
Proof.
  intros Hc. unfold gap_values, choose. set (pool := zslice _ _ _ ++ _). intros E.
  assert (I : incl pool (snd c)). { intros x Hx. apply in_app_iff in Hx. destruct Hx as [Hx|Hx]; exact (zslice_incl _ _ _ _ Hx). }
  assert (E' : choice r k (fst c) pool n = v /\ (pool <> [] \/ n = 0%nat)).
  { destruct pool; [destruct n; [|discriminate]|]; injection E as E; split; auto. left. discriminate. }
  destruct E' as [<- C]. destruct (Hc k (fst c) pool n C) as [L S]. split; [assumption|]. intros x Hx. apply I, S, Hx.
Qed.
Lemma map_result_forall2 {A B} (f : A -> result B) l r : map_result f l = Ok r -> Forall2 (fun a b => f a = Ok b) l r.
Proof.
  revert r. induction l as [|a l IH]; intros r E; cbn [map_result] in E; [injection E as <-; constructor|].
  destruct (f a) as [b|] eqn:F; [|discriminate]. cbn [bind] in E. destruct (map_result f l) as [r'|]; [|discriminate]. cbn [bind] in E. injection E as <-. constructor; auto.
Qed.
Lemma gap_times_ok r k even dt buffer ft b t lh : uniform_in (uniform r) -> (even = true -> 0 < dt) -> fst b <= snd b ->
  gap_times r k even dt buffer ft b = Ok (Some (t, lh)) -> forall x, In x t -> fst b <= x /\ x <= snd b.
Proof.
  intros Hu Hd Hb. unfold gap_times. destruct (find_nearest ft (fst b) true) as [low|]; [|discriminate]. cbn [bind].
  destruct (find_nearest ft (snd b) false) as [hig|]; [|discriminate]. cbn [bind]. destruct even.
  - intros E. injection E as <- _. intros x Hx. specialize (Hd eq_refl). apply (in_arange _ _ _ _ Hd) in Hx. destruct Hx as (i & -> & L).
    assert (0 <= inject_Z (Z.of_nat i)) by (change 0 with (inject_Z 0); rewrite <- Zle_Qle; lia).
    assert (0 <= inject_Z (Z.of_nat i) * dt) by (apply Qmult_le_0_compat; lra).
    assert (D2 : dt / 2 == dt * (1 # 2)) by reflexivity. lra.
  - cbv zeta. destruct (match filter _ _ with [] => None | _ => _ end) as [x|]; destruct (match get_last _ with Ok _ => _ | Err _ => _ end) as [y|]; intros E; try discriminate; injection E as <- _; intros z Hz; exact (Hu k _ _ _ Hb z Hz).
Qed.
Definition is_short (ml : Q) (b : ivl) : bool := qle (snd b - fst b) ml.
Definition widen (b : ivl) : ivl := (fst b - (1 # 100000) * (snd b - fst b), snd b + (1 # 100000) * (snd b - fst b)).
Lemma fill_loop_ok r even dt ml buffer ft cols : uniform_in (uniform r) -> choice_in (choice r) -> (even = true -> 0 < dt) ->
  forall btis k added new, (forall a b, In (a, b) btis -> a <= b) -> fill_loop r k even dt ml buffer ft cols btis = Ok (added, new) ->
  added = map widen (filter (is_short ml) btis) /\ Forall (added_rows cols btis ml) new /\ (even = true -> added <> [] -> new <> []).
Proof.
  intros Hu Hc Hd. induction btis as [|b btis IH]; intros k added new Hb E; cbn [fill_loop] in E.
  { injection E as <- <-. split; [reflexivity|]. split; [constructor|]. intros _ H. congruence. }
  assert (Sub : forall n, added_rows cols btis ml n -> added_rows cols (b :: btis) ml n).
  { intros n [(x & y & I & L & T) V]. split; [|exact V]. exists x, y. split; [now right|]. split; assumption. }
  assert (Hb' : forall x y, In (x, y) btis -> x <= y) by (intros x y I; apply Hb; now right).
  unfold is_short at 1. cbn [filter]. destruct (qlt ml (snd b - fst b)) eqn:B.
  - destruct (qle (snd b - fst b) ml) eqn:B'; [qb; lra|]. destruct (IH (S k) added new Hb' E) as (A1 & A2 & A3). split; [exact A1|]. split; [|exact A3].
    rewrite Forall_forall in *. intros n Hn. apply Sub, A2, Hn.
  - assert (B' : qle (snd b - fst b) ml = true) by (apply qle_t; qb; lra). rewrite B'.
    destruct (gap_times r k even dt buffer ft b) as [o|] eqn:G; [|discriminate]. cbn [bind] in E.
    destruct (match o with None => Ok [] | Some (t, lh) => _ end) as [new0|] eqn:E0; [|discriminate]. cbn [bind] in E.
    destruct (fill_loop r (S k) even dt ml buffer ft cols btis) as [[ad nw]|] eqn:F; [|discriminate]. cbn [bind fst snd] in E. injection E as <- <-.
    destruct (IH (S k) ad nw Hb' F) as (A1 & A2 & A3). split; [cbn [map]; unfold widen at 1; now rewrite A1|].
    assert (X : Forall (added_rows cols (b :: btis) ml) new0).
    { destruct o as [[t lh]|]; [|injection E0 as <-; constructor].
      destruct (map_result (gap_values r k buffer lh (length t)) cols) as [v|] eqn:V; [|discriminate]. cbn [bind] in E0. injection E0 as <-.
      constructor; [|constructor]. split; cbn [fst snd].
      - exists (fst b), (snd b). split; [left; now destruct b|]. split; [qb; lra|]. apply (gap_times_ok r k even dt buffer ft b t lh Hu Hd); [|assumption]. apply Hb. left. now destruct b.
      - apply map_result_forall2 in V. clear - V Hc. induction V as [|c v cs vs H V IH]; constructor; [|exact IH]. exact (gap_values_ok _ _ _ _ _ _ _ Hc H). }
    split.
    + apply Forall_app. split; [exact X|]. rewrite Forall_forall in *. intros n Hn. apply Sub, A2, Hn.
    + intros Ee _. subst even. unfold gap_times in G. destruct (find_nearest ft (fst b) true); [|discriminate]. cbn [bind] in G. destruct (find_nearest ft (snd b) false); [|discriminate]. cbn [bind] in G.
      injection G as <-. cbn [bind] in E0. destruct (map_result _ cols); [|discriminate]. cbn [bind] in E0. injection E0 as <-. discriminate.
Qed.
Lemma col_new cols btis ml new c col : Forall (added_rows cols btis ml) new -> nth_error cols c = Some col ->
  length (flat_map (fun n : list Q * list (list Q) => nth c (snd n) []) new) = length (flat_map fst new) /\
  incl (flat_map (fun n : list Q * list (list Q) => nth c (snd n) []) new) (snd col).
Proof.
  intros F H. induction F as [|n new [_ V] F IH]; [split; [reflexivity|intros x []]|]. cbn [flat_map]. destruct IH as [IL II].
  assert (X : length (nth c (snd n) []) = length (fst n) /\ incl (nth c (snd n) []) (snd col)).
  { clear F IL II. revert c H. generalize dependent (fst n). intros t V. induction V as [|col' v cols vs P V IH]; intros [|c] H; try discriminate; cbn [nth nth_error] in *.
    - injection H as <-. exact P.
    - now apply IH. }
  destruct X as [X1 X2]. split; [rewrite !app_length; lia|]. intros x Hx. apply in_app_iff in Hx. destruct Hx; auto.
Qed.
Lemma fill_cols cols btis ml m order new : Forall (added_rows cols btis ml) new -> new <> [] ->
  Forall2 (filled_col m order (length (flat_map fst new))) cols
    (map (fun c : nat * (nat * list Q) => (fst (snd c), take_all order (select (snd (snd c)) m ++ flat_map (fun n => nth (fst c) (snd n) []) new))) (combine (seq 0 (length cols)) cols)).
Proof.
  intros F _. assert (X : forall l i, (forall j c, nth_error l j = Some c -> nth_error cols (i + j) = Some c) ->
    Forall2 (filled_col m order (length (flat_map fst new))) l
    (map (fun c : nat * (nat * list Q) => (fst (snd c), take_all order (select (snd (snd c)) m ++ flat_map (fun n => nth (fst c) (snd n) []) new))) (combine (seq i (length l)) l))).
  { induction l as [|c l IH]; intros i H; [constructor|]. cbn [length seq combine map fst snd]. constructor.
    - split; [reflexivity|]. eexists. cbn [snd]. specialize (H 0%nat c eq_refl). rewrite Nat.add_0_r in H. destruct (col_new cols btis ml new i c F H) as [L I].
      split; [exact L|]. split; [exact I|]. now rewrite select_keep.
    - apply IH. intros j c' Hj. rewrite <- (H (S j) c' Hj). f_equal. lia. }
  apply X. intros j c Hj. exact Hj.
Qed.
Lemma widen_good ml btis : (forall a b, In (a, b) btis -> a < b) -> forall a b, In (a, b) (map widen (filter (is_short ml) btis)) <->
  exists x y, In (x, y) btis /\ y - x <= ml /\ a = x - (1 # 100000) * (y - x) /\ b = y + (1 # 100000) * (y - x).
Proof.
  intros P a b. rewrite in_map_iff. split.
  - intros ([x y] & E & I). apply filter_In in I. destruct I as [I S]. unfold is_short in S. cbn [fst snd] in S. qb. unfold widen in E. cbn [fst snd] in E. injection E as <- <-. exists x, y. auto.
  - intros (x & y & I & L & -> & ->). exists (x, y). split; [reflexivity|]. apply filter_In. split; [assumption|]. unfold is_short. cbn [fst snd]. now apply qle_t.
Qed.
Lemma fill_main numba r s_start s_edge argsort s g ml buffer even out t0 tl : uniform_in (uniform r) -> choice_in (choice r) -> sorts_by fst s_start -> sorts_by fst s_edge -> is_argsort argsort ->
  good g -> gaps_between g -> gti_of s = Some g -> nondecreasing (s_time s) -> 0 <= s_dt s -> (even = Some true -> 0 < s_dt s) ->
  (numba = false \/ all_hold_bins g (gti_eps * s_dt s) (s_dt s) (s_time s)) ->
  nth_error (s_time s) 0 = Some t0 -> get_last (s_time s) = Ok tl ->
  (exists t, t0 <= t /\ t < tl /\ ~ covered g t) ->
  fill_bad numba r s_start s_edge argsort s (Some ml) buffer even = Ok out ->
  exists m order newt gaps,
    flags (bin_in g (gti_eps * s_dt s) (s_dt s)) (s_time s) m /\
    (forall a b, In (a, b) gaps -> a_gap g a b) /\
    (forall t, In t newt -> exists a b, In (a, b) gaps /\ b - a <= ml /\ a <= t /\ t <= b) /\
    Permutation order (seq 0 (length (keep m (s_time s)) + length newt)) /\
    s_time out = reordered order (keep m (s_time s) ++ newt) /\ nondecreasing (s_time out) /\
    (even = Some true \/ s_cols out <> [] -> Forall2 (filled_col m order (length newt)) (s_cols s) (s_cols out)) /\
    exists g', s_gti out = Some g' /\ forall t, covered g' t <-> covered g t \/
      exists a b, In (a, b) gaps /\ b - a <= ml /\ a - (1 # 100000) * (b - a) <= t /\ t < b + (1 # 100000) * (b - a).
Proof.
  intros Hu Hc Hs1 Hs2 Ha G Gp Hg Ht Hd0 Hde Hbin E0 El Hbad E. unfold fill_bad in E. rewrite Hg in E.
  unfold get in E. rewrite E0 in E. cbn [bind] in E. rewrite El in E. cbn [bind] in E.
  destruct (get_btis g (Some t0) (Some tl)) as [btis|] eqn:B; [|discriminate]. cbn [bind] in E.
  pose proof (bad_gaps g t0 tl btis G Gp B) as Hgap.
  destruct (touch_fields s g Hg) as (T1 & T2 & T3 & T4 & T5 & T6 & T7).
  destruct btis as [|b0 btis'] eqn:Eb.
  { exfalso. destruct Hbad as (t & X1 & X2 & X3). destruct G as (N & W & P). destruct g as [|x g]; [congruence|]. unfold get_btis in B.
    rewrite (proj2 (check_gtis_iff _) (conj N W)) in B. cbn [bind] in B. injection B as B. apply app_eq_nil in B. destruct B as [B1 B]. apply app_eq_nil in B. destruct B as [B2 B3].
    pose proof W as W'. apply well_formed_ss in W'. destruct W' as [HF HS]. destruct (gaps_spec g x HF HS) as (A0 & A1 & A2 & A3 & A4 & A5).
    apply (proj1 (iff_refl _)) in A1. specialize (A1 t). change (gaps (x :: g)) with (match g with [] => [] | b :: _ => (snd x, fst b) :: gaps g end) in A1. rewrite B2 in A1.
    destruct (qle (fst x) t0) eqn:Q1; [|discriminate]. change (last (x :: g) x) with (last (x :: g) x) in *. set (z := last (x :: g) x) in *.
    assert (Q2 : tl <= snd z). { change ((if qlt (snd z) tl then [(snd z, tl)] else []) = []) in B3. destruct (qlt (snd z) tl) eqn:Q3; [discriminate|]. qb. lra. }
    qb. destruct (proj2 A1) as (u & v & [] & _). split; [lra|]. split; [lra|exact X3]. }
  rewrite <- Eb in Hgap, B. assert (Ne : btis <> []) by (rewrite Eb; discriminate).
  destruct (mask_ok numba (s_time s) g (s_dt s)) as (m & new & Em & Fm); [destruct (s_time s); discriminate || congruence|assumption|apply G|apply G|right; now split|assumption|].
  assert (Mo : mask_of numba (touch s) = Ok m). { unfold mask_of. change (s_gti (touch s)) with (gti_of s). rewrite Hg, T2, T5, Em. reflexivity. }
  cbn [bind] in E. rewrite Mo in E. cbn [bind] in E. rewrite select_keep in E. set (ft := keep m (s_time s)) in *.
  destruct (median (diffs ft)) as [sep|]; [|discriminate]. cbv zeta in E.
  set (evn := match even with Some b => b | None => _ end) in E. set (buf := match buffer with Some b => b | None => _ end) in E. rewrite <- Eb in E.
  assert (Hev : evn = true -> 0 < s_dt s).
  { unfold evn. destruct even as [[|]|]; [auto|discriminate|]. intros X. apply andb_true_iff in X. destruct X as [X _]. now qb. }
  destruct (fill_loop r 0 evn (s_dt s) ml buf ft (s_cols s) btis) as [[added nw]|] eqn:FL; [|discriminate]. cbn [bind fst snd] in E.
  destruct (fill_loop_ok r evn (s_dt s) ml buf ft (s_cols s) Hu Hc Hev btis 0%nat added nw) as (L1 & L2 & L3); [intros a b I; destruct (Hgap a b I); lra|exact FL|].
  destruct (join_gtis s_start s_edge g added) as [g'|] eqn:J; [|discriminate]. cbn [bind] in E. injection E as <-. cbn [s_time s_cols s_gti].
  assert (Pos : forall a b, In (a, b) btis -> a < b) by (intros a b I; apply (Hgap a b I)).
  assert (Ga : good added).
  { unfold join_gtis in J. destruct (check_gtis g); [|discriminate]. cbn [bind] in J. destruct (check_gtis added) as [[]|] eqn:Ck; [|discriminate]. apply check_gtis_iff in Ck. destruct Ck as [C1 C2].
    split; [assumption|]. split; [assumption|]. intros ? ? I. rewrite L1 in I. apply (widen_good ml btis Pos) in I. destruct I as (x & y & I & L & -> & ->). specialize (Pos x y I). lra. }
  destruct (join_gtis_main s_start s_edge g added Hs1 Hs2 G Ga) as (g2 & J2 & _ & _ & _ & Cov). rewrite J in J2. injection J2 as <-.
  destruct (Ha (ft ++ flat_map fst nw)) as [P1 P2]. rewrite app_length in P1.
  exists m, (argsort (ft ++ flat_map fst nw)), (flat_map fst nw), btis.
  split; [exact Fm|]. split; [exact Hgap|]. split.
  { intros t It. apply in_flat_map in It. destruct It as (n & In1 & In2). rewrite Forall_forall in L2. destruct (L2 n In1) as [(a & b & X1 & X2 & X3) _]. exists a, b. destruct (X3 t In2). auto. }
  split; [exact P1|]. split; [reflexivity|]. split; [exact P2|]. split.
  { intros C. assert (Nn : nw <> []). { destruct C as [->|C]; [apply L3; [reflexivity|apply Ga]|]. destruct nw; [now contradiction C|discriminate]. }
    destruct nw as [|n0 nw]; [congruence|]. now apply (fill_cols (s_cols s) btis ml). }
  exists g'. split; [reflexivity|]. intros t. rewrite (Cov t). split; (intros [X|X]; [left; exact X|right]).
  - destruct X as (a & b & I & X1 & X2). rewrite L1 in I. apply (widen_good ml btis Pos) in I. destruct I as (x & y & I & L & -> & ->). exists x, y. auto.
  - destruct X as (x & y & I & L & X1 & X2). exists (x - (1 # 100000) * (y - x)), (y + (1 # 100000) * (y - x)). split; [|split; assumption]. rewrite L1. apply (widen_good ml btis Pos). exists x, y. auto.
Qed.

(* no gap short enough: an exception instead of a copy of the series *)
Lemma fill_loop_none r even dt ml buffer ft cols btis : forall k, (forall a b, In (a, b) btis -> ml < b - a) -> fill_loop r k even dt ml buffer ft cols btis = Ok ([], []).
Proof.
  induction btis as [|[a b] btis IH]; intros k H; [reflexivity|]. cbn [fill_loop fst snd]. rewrite (proj2 (qlt_t ml (b - a)) (H a b (or_introl eq_refl))). apply IH. intros x y I. apply H. now right.
Qed.
Lemma fill_long numba r s_start s_edge argsort s g ml buffer even : good g -> gti_of s = Some g ->
  (forall t0 tl btis, get_btis g (Some t0) (Some tl) = Ok btis -> nth_error (s_time s) 0 = Some t0 -> get_last (s_time s) = Ok tl ->
     btis <> [] /\ forall a b, In (a, b) btis -> ml < b - a) ->
  exists e, fill_bad numba r s_start s_edge argsort s (Some ml) buffer even = Err e.
Proof.
  intros G Hg H. unfold fill_bad. rewrite Hg. unfold get. destruct (nth_error (s_time s) 0) as [t0|]; [|cbn [bind]; eauto]. cbn [bind].
  destruct (get_last (s_time s)) as [tl|]; [|cbn [bind]; eauto]. cbn [bind]. destruct (get_btis g (Some t0) (Some tl)) as [btis|] eqn:B; [|cbn [bind]; eauto]. cbn [bind].
  destruct (H t0 tl btis B eq_refl eq_refl) as [N L]. destruct btis as [|b0 btis]; [congruence|].
  destruct (mask_of numba (touch s)); [|cbn [bind]; eauto]. cbn [bind]. destruct (median _); [|eauto]. rewrite (fill_loop_none _ _ _ _ _ _ _ _ _ L). cbn [bind fst snd].
  unfold join_gtis. destruct (check_gtis g); cbn [bind]; [|eauto]. cbn [check_gtis bind]. eauto.
Qed.
Definition rng0 : rng := {| poisson := fun _ _ => 1%nat; uniform := fun _ lo hi n => repeat lo n; choice := fun _ _ a n => repeat (hd 0 a) n |}.
Definition sort0 : list Q -> list nat := fun l => map snd (isort_by fst (combine l (seq 0 (length l)))).
Definition fex (dt : Q) (times counts : list Q) (g : gtis) : series := mkSeries times [(0%nat, counts)] [] dt (Some g) 0 None None.
Lemma uniform0 : uniform_in (uniform rng0).
Proof. intros k lo hi n H x Hx. apply repeat_spec in Hx. subst x. split; lra. Qed.
Lemma choice0 : choice_in (choice rng0).
Proof.
  intros k name a n H. split; [apply repeat_length|]. intros x Hx. cbn [choice rng0] in Hx. destruct H as [H|H]; [|subst n; destruct Hx].
  apply repeat_spec in Hx. subst x. destruct a; [congruence|now left].
Qed.
(* values come from samples outside the good time intervals *)
Lemma fill_bad_values : exists s out g v, gti_of s = Some g /\ good g /\ s_dt s == 1 /\
  fill_bad false rng0 (isort_by fst) (isort_by fst) sort0 s (Some 3) (Some 4%Z) None = Ok out /\ s_cols out = [(0%nat, v)] /\ In 100 v /\
  forall i t x, nth_error (s_time s) i = Some t -> column 0 (s_cols s) = Some x -> nth_error x i = Some 100 -> ~ covered g t.
Proof.
  exists (fex 1 [0; 1; 2; 3; 4; 5; 6; 7; 8; 9] [1; 1; 1; 100; 100; 100; 1; 1; 1; 1] [(- 1 # 2, 5 # 2); (11 # 2, 19 # 2)]). eexists _, _, _.
  split; [reflexivity|]. split; [apply good_dec; reflexivity|]. split; [reflexivity|]. split; [vm_compute; reflexivity|]. split; [reflexivity|]. split; [right; right; right; now left|].
  intros i t x Hi Hx Hv. injection Hx as <-. do 10 (destruct i as [|i]; [try discriminate; injection Hi as <-; apply covered_dec_f; reflexivity|]). destruct i; discriminate.
Qed.
(* no data near the gap: no sample is added, the gap becomes good all the same, and the other attributes are lost *)
Lemma fill_skipped : exists s out g, gti_of s = Some g /\ good g /\ s_dt s == 0 /\ length (s_cols s) = 1%nat /\
  fill_bad false rng0 (isort_by fst) (isort_by fst) sort0 s (Some 3) (Some 1%Z) None = Ok out /\ s_time out = s_time s /\ s_cols out = [] /\
  exists g', s_gti out = Some g' /\ covered g' 4 /\ ~ covered g 4.
Proof.
  exists (fex 0 [0; 1; 2; 7; 8; 9] [1; 2; 3; 4; 5; 6] [(0, 3); (6, 9)]). eexists _, _. split; [reflexivity|]. split; [apply good_dec; reflexivity|]. split; [reflexivity|]. split; [reflexivity|].
  split; [vm_compute; reflexivity|]. split; [reflexivity|]. split; [reflexivity|]. eexists. split; [reflexivity|]. split; [apply covered_dec_t; reflexivity|apply covered_dec_f; reflexivity].
Qed.
(* every gap longer than max_length: ValueError *)
Lemma fill_too_long : exists s g, gti_of s = Some g /\ good g /\ fill_bad false rng0 (isort_by fst) (isort_by fst) sort0 s (Some 2) (Some 4%Z) None = Err ValueError.
Proof.
  exists (fex 1 [0; 1; 2; 3; 4; 5; 6; 7; 8; 9] [1; 1; 1; 100; 100; 100; 1; 1; 1; 1] [(- 1 # 2, 5 # 2); (11 # 2, 19 # 2)]). eexists. split; [reflexivity|].
  split; [apply good_dec; reflexivity|]. vm_compute. reflexivity.
Qed.
