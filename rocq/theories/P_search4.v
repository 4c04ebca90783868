(* P_search4.v: proofs about the pulsation searches: time origin, phase dispersion, weights and GTIs. *)
From Coq Require Import Reals Qreals.
From Verif Require Import Np Lib S_lc S_fold M_gti M_utils M_lc M_seg M_fold P_fold P_fold2 Cplx S_fourier S_zn M_zn P_zn P_helpers P_filters M_search S_search S_search2 P_search P_search2 P_search3.
From Coq Require Import List Bool Arith Permutation Lia Lra.
Import ListNotations.
Open Scope Q_scope.

(* ---- the origin of the times does not matter ---- *)
Lemma last_proper l l' : Forall2 Qeq l l' -> last l 0 == last l' 0.
Proof. induction 1 as [|a b l l' E H IH]; [reflexivity|]. cbn. inversion H; subst; [exact E|exact IH]. Qed.
Lemma qle_proper a b a' b' : a == a' -> b == b' -> qle a b = qle a' b'.
Proof. intros E F. destruct (qle a' b') eqn:X; [apply qle_t|apply qle_f]; qb; Lqa.lra. Qed.
Lemma qlt_proper a b a' b' : a == a' -> b == b' -> qlt a b = qlt a' b'.
Proof. intros E F. destruct (qlt a' b') eqn:X; [apply qlt_t|apply qlt_f]; qb; Lqa.lra. Qed.
Lemma spans_proper len len' l l' : len == len' -> Forall2 Qeq l l' -> spans_fifth len l = spans_fifth len' l'.
Proof.
  intros E H. assert (A := last_proper _ _ H). destruct H as [|a b l l' F H]; [reflexivity|]. unfold spans_fifth. apply qle_proper; [now rewrite E|]. rewrite A, F. reflexivity.
Qed.
Lemma windows_proper len len' n ev ev' : len == len' -> Forall2 pqe ev ev' -> Forall2 (Forall2 pqe) (windows len n ev) (windows len' n ev').
Proof.
  intros E H. unfold windows. apply forall2_filter.
  - intros a b Hab. apply spans_proper; [exact E|]. apply (forall2_map pqe); [intros x y [F _]; exact F|exact Hab].
  - induction (seq 0 n) as [|k l IH]; cbn [map]; constructor; [|exact IH]. unfold window. apply forall2_filter; [|exact H].
    intros x y [F _]. f_equal; [apply qle_proper|apply qlt_proper]; try exact F; rewrite E; reflexivity.
Qed.
Lemma average_proper (g : list (Q * Q) -> R) ws ws' : (forall a b, Forall2 pqe a b -> g a = g b) -> Forall2 (Forall2 pqe) ws ws' -> window_average g ws = window_average g ws'.
Proof.
  intros Hg H. assert (M : map g ws = map g ws') by (induction H; cbn; [reflexivity|]; f_equal; [now apply Hg|assumption]).
  assert (L := forall2_len _ _ _ H). unfold window_average. rewrite M, L. destruct H; reflexivity.
Qed.
Lemma length_proper size s s' : s == s' -> window_length size s == window_length size s'.
Proof. intros E. destruct size as [x|]; cbn; [|exact E]. unfold qmin. rewrite (qle_proper x s x s' (Qeq_refl _) E). destruct (qle x s'); [reflexivity|exact E]. Qed.
Lemma covers_proper n len len' s s' : len == len' -> s == s' -> covers n len s -> covers n len' s'.
Proof. intros E F H k. rewrite (H k), E, F. reflexivity. Qed.
Lemma events_shift c t0 times w : Forall2 pqe (events_of (t0 + c) (map (fun t => t + c) times) w) (events_of t0 times w).
Proof.
  unfold events_of. rewrite map_map. revert w. induction times as [|t times IH]; intros [|x w]; cbn [map combine]; constructor; [|apply IH].
  split; cbn [fst snd]; [Lqa.lra|reflexivity].
Qed.
Lemma get_last_map' (f : Q -> Q) l x : get_last l = Ok x -> get_last (map f l) = Ok (f x).
Proof. intros H. unfold get_last in *. rewrite <- map_rev. destruct (rev l); [discriminate|]. injection H as ->. reflexivity. Qed.
Lemma search_shift k times freqs nbin size gti W fdots c t0 tl : get times 0 = Ok t0 -> get_last times = Ok tl -> t0 < tl ->
  (match size with Some s => 0 < s | None => True end) -> (0 < nbin)%nat -> kind_ok k ->
  (match W with WScalar _ => True | WArray w => length w = length times /\ forall x, In x w -> 0 < x end) ->
  pulsation_search true k (map (fun t => t + c) times) freqs nbin size false gti W fdots = pulsation_search true k times freqs nbin size false gti W fdots.
Proof.
  intros G0 Gl Hlt Hs Hn Hk HW.
  assert (G0' : get (map (fun t => t + c) times) 0 = Ok (t0 + c)) by (unfold get in *; destruct times; [discriminate|]; cbn in *; injection G0 as ->; reflexivity).
  assert (Gl' := get_last_map' (fun t => t + c) times tl Gl).
  assert (Hlt' : t0 + c < tl + c) by Lqa.lra.
  assert (S : tl + c - (t0 + c) == tl - t0) by Lqa.lra. assert (LL := length_proper size _ _ S).
  assert (G : forall w n, forall f fd, window_average (fun ev => value_of k (profile_of nbin f fd ev)) (windows (window_length size (tl + c - (t0 + c))) n (events_of (t0 + c) (map (fun t => t + c) times) w)) =
     window_average (fun ev => value_of k (profile_of nbin f fd ev)) (windows (window_length size (tl - t0)) n (events_of t0 times w))).
  { intros w n f fd. apply average_proper; [intros a b H; now rewrite (profile_proper nbin f fd a b H)|]. apply windows_proper; [exact LL|apply events_shift]. }
  destruct W as [x|w].
  - destruct (fast_search k times freqs nbin size gti x fdots t0 tl G0 Gl Hlt Hs Hn Hk) as (n & C & E). rewrite E.
    destruct (fast_search k _ freqs nbin size gti x fdots _ _ G0' Gl' Hlt' Hs Hn Hk) as (m & C2 & E2). rewrite E2.
    rewrite (covers_unique m n _ _ (covers_proper _ _ _ _ _ LL S C2) C). f_equal. apply shaped_ext. intros f fd _ _. rewrite map_map. apply G.
  - destruct HW as [L P]. destruct (array_search true k times freqs nbin size gti w fdots t0 tl G0 Gl Hlt Hs Hn Hk L P) as (n & C & E). rewrite E.
    destruct (array_search true k (map (fun t => t + c) times) freqs nbin size gti w fdots _ _ G0' Gl' Hlt' Hs Hn Hk ltac:(now rewrite map_length) P) as (m & C2 & E2). rewrite E2.
    rewrite (covers_unique m n _ _ (covers_proper _ _ _ _ _ LL S C2) C). f_equal. apply shaped_ext. intros f fd _ _. apply G.
Qed.

(* ---- phase dispersion ---- *)
Lemma squares_mean l m m' : m == m' -> sum_of (map (fun x => (x - m) * (x - m)) l) == sum_of (map (fun x => (x - m') * (x - m')) l).
Proof. intros E. apply sum_of_proper. induction l; cbn [map]; constructor; [rewrite E; reflexivity|assumption]. Qed.
Lemma scatter_squares l s : l <> [] -> scatter l s -> s == squares l.
Proof.
  intros Hne (m & Hm & Hs). rewrite Hs. unfold squares. assert (Pn : 0 < inject_Z (Z.of_nat (length l))) by (unfold Qlt; cbn; destruct l; [congruence|cbn; lia]).
  apply squares_mean. unfold average_is in Hm. rewrite <- Hm. field. Lqa.lra.
Qed.
Lemma squares_var l v : np_var l = Some v -> v * inject_Z (Z.of_nat (length l)) == squares l.
Proof. intros H. apply scatter_squares; [intros ->; discriminate|]. apply np_var_scatter, H. Qed.
Lemma pdm_cell nbin flux times good f fd ev : (0 < nbin)%nat -> length flux = length times ->
  map fst ev = select good times -> map snd ev = select good flux -> (nbin < length ev)%nat -> ~ squares (map snd ev) == 0 ->
  (exists e, In e ev /\ (1001 # 100000000) < Qabs (snd e - 1)) ->
  (forall j, (j < nbin)%nat -> weights_in nbin j (folded_events f fd ev) <> []) ->
  pdm_stat nbin flux times good f fd = Ok (Some (Q2R (dispersion nbin f fd ev))).
Proof.
  intros Hn L E1 E2 Hlen Hsq (e & He & Hd) Hocc. unfold pdm_stat. rewrite L, Nat.eqb_refl, <- E1, <- E2.
  destruct (pdm_main (pulse_phase (map fst ev) [f; fd] 0 true) (map snd ev) nbin Hn) as (prof & E & F).
  - unfold pulse_phase. now rewrite !map_length.
  - intros x Hx. now apply (phase_range _ _ _ Hx).
  - exists (snd e). split; [now apply in_map|exact Hd].
  - rewrite E. cbn [bind].
    assert (Same : forall j, weights_in nbin j (combine (pulse_phase (map fst ev) [f; fd] 0 true) (map snd ev)) = weights_in nbin j (folded_events f fd ev)).
    { intros j. unfold weights_in, folded_events. clear. induction ev as [|[t x] ev IH]; [reflexivity|]. cbn [map combine filter fst snd pulse_phase].
      unfold pulse_phase. cbn [map]. fold (pulse_phase (map fst ev) [f; fd] 0 true).
      assert (B : bin_of nbin (add_terms 0 [f; fd] t 0 - inject_Z (Qfloor (add_terms 0 [f; fd] t 0))) = bin_of nbin (frac (turns [f; fd] t))).
      { apply bin_proper. change (add_terms 0 [f; fd] t 0 - inject_Z (Qfloor (add_terms 0 [f; fd] t 0))) with (frac (add_terms 0 [f; fd] t 0)). apply frac_proper. rewrite add_terms_turns. Lqa.lra. }
      cbn [combine filter fst]. rewrite B. destruct (bin_of nbin (frac (turns [f; fd] t)) =? Z.of_nat j)%Z; cbn [map]; [f_equal|]; exact IH. }
    assert (P : exists vs, prof = map Some vs /\ Forall2 Qeq vs (map (fun j => squares (weights_in nbin j (folded_events f fd ev))) (seq 0 nbin))).
    { assert (Hj : forall j, In j (seq 0 nbin) -> (j < nbin)%nat) by (intros j Hj; apply in_seq in Hj; lia).
      clear E. revert prof F Hj. generalize (seq 0 nbin). induction l as [|j l IH]; intros prof F Hj; inversion F as [|? p ? prof' Hp F']; subst.
      - exists []. split; [reflexivity|constructor].
      - destruct (IH prof' F' (fun x Hx => Hj x (or_intror Hx))) as (vs & -> & Hvs). rewrite Same in Hp. destruct p as [s|].
        + exists (s :: vs). split; [reflexivity|]. constructor; [|exact Hvs]. destruct Hp as (Hne & Hs). now apply scatter_squares.
        + exfalso. apply (Hocc j); [apply Hj; now left|exact Hp]. }
    destruct P as (vs & -> & Hvs). destruct (np_var (map snd ev)) as [v|] eqn:Ev; [|exfalso; destruct ev; [cbn in Hlen; lia|discriminate]].
    assert (Sv := squares_var _ _ Ev). rewrite !map_length in *.
    replace (Nat.eqb (length ev) 1) with false by (symmetry; apply Nat.eqb_neq; lia).
    assert (Lv : length vs = nbin) by (rewrite (forall2_len _ _ _ Hvs), map_length, seq_length; reflexivity).
    unfold pdm_profile_stat. destruct (sum_opt_some vs) as (s & Es & Hs). rewrite Es. cbn [option_map]. f_equal. f_equal. rewrite map_length, Lv.
    apply Qeq_eqR. unfold dispersion. rewrite <- (sum_of_proper _ _ Hvs), Hs. rewrite Sv. unfold Zminus. rewrite !inject_Z_plus, !inject_Z_opp. reflexivity.
Qed.
Lemma pdm_search_main times freqs flux nbin size fdots t0 tl : get times 0 = Ok t0 -> get_last times = Ok tl -> t0 < tl ->
  (match size with Some s => 0 < s | None => True end) -> (0 < nbin)%nat -> length flux = length times ->
  let len := window_length size (tl - t0) in
  (forall n ev, covers n len (tl - t0) -> In ev (windows len n (events_of t0 times flux)) ->
     (nbin < length ev)%nat /\ ~ squares (map snd ev) == 0 /\ (exists e, In e ev /\ (1001 # 100000000) < Qabs (snd e - 1)) /\
     (forall f fd j, In f freqs -> In fd fdots -> (j < nbin)%nat -> weights_in nbin j (folded_events f fd ev) <> [])) ->
  exists n, covers n len (tl - t0) /\
    phase_dispersion_search times freqs flux nbin size fdots =
    Ok (shaped freqs fdots (fun f fd => window_average (fun ev => Q2R (dispersion nbin f fd ev)) (windows len n (events_of t0 times flux)))).
Proof.
  intros G0 Gl Hlt Hs Hn L len H. destruct (masks_exact times size t0 tl G0 Gl Hlt Hs) as (n & _ & Hc & _). fold len in Hc.
  apply (search_average (pdm_stat nbin flux) (fun f fd ev => Q2R (dispersion nbin f fd ev))); [exact G0|exact Gl|exact Hlt|exact Hs|exact L|].
  intros p ev f fd ts Ev _ Win Hf Hfd. destruct (H n ev Hc (Win n Hc)) as (H1 & H2 & H3 & H4).
  assert (Lt : length flux = length ts) by (unfold ts; rewrite map_length; exact L). destruct (select_pairs p ts flux Lt) as [E1 E2].
  apply pdm_cell; [exact Hn|exact Lt|rewrite Ev; symmetry; exact E1|rewrite Ev; symmetry; exact E2|exact H1|exact H2|exact H3|]. intros j Hj. now apply H4.
Qed.

(* ---- errors and wrong results ---- *)
Lemma expocorr_error numba k times freqs nbin size W fdots : pulsation_search numba k times freqs nbin size true None W fdots = Err ValueError.
Proof. reflexivity. Qed.
Lemma single_time_error k times freqs nbin size gti W fdots numba t0 : get times 0 = Ok t0 -> get_last times = Ok t0 ->
  (match size with Some s => 0 < s | None => True end) ->
  pulsation_search numba k times freqs nbin size false gti W fdots = Err ZeroDivisionError.
Proof.
  intros G0 Gl Hs. assert (M : search_masks times size = Err ZeroDivisionError).
  { unfold search_masks. rewrite G0. cbn [bind]. rewrite (get_last_map' (fun t => t - t0) times t0 Gl). cbn [bind].
    assert (G0' : get (map (fun t => t - t0) times) 0 = Ok (t0 - t0)) by (unfold get in *; destruct times; [discriminate|]; cbn in *; injection G0 as ->; reflexivity).
    rewrite G0'. cbn [bind]. destruct (qeq _ 0) eqn:E; [reflexivity|]. exfalso. qb. apply E. destruct size as [s|]; [|Lqa.lra].
    destruct (qlt (t0 - t0) s) eqn:D; qb; Lqa.lra. }
  unfold pulsation_search, folding_search. rewrite andb_false_l. destruct (_ || _)%bool; rewrite M; reflexivity.
Qed.

Lemma ef20 (a m : R) : (0 < m)%R -> a = (2 * m)%R -> ef_profile_stat [a; 0]%R = a.
Proof.
  intros Hm ->. unfold ef_profile_stat. cbn [rlsum fold_right length map INR]. unfold rlsum. cbn [fold_right map].
  replace ((2 * m + (0 + 0)) / (1 + 1))%R with m by field. rewrite pow2_sqrt by Lra.lra. field. Lra.lra.
Qed.
(* one weight for all events: the result depends on numba *)
Lemma weight_refuted : exists times freqs nbin c a b, 0 < c /\
  pulsation_search true EpochFolding times freqs nbin None false None (WScalar c) [0] = Ok (Flat freqs [Some a]) /\
  pulsation_search false EpochFolding times freqs nbin None false None (WScalar c) [0] = Ok (Flat freqs [Some b]) /\ a <> b.
Proof.
  exists [0; 4; 10], [1], 2%nat, 2, 2%R, 4%R. split; [reflexivity|]. split; [|split; [|Lra.lra]].
  - unfold pulsation_search. cbn [orb negb andb]. unfold folding_search.
    replace (search_masks [0; 4; 10] None) with (Ok ([0; 4; 10], [[true; true; false]])) by (vm_compute; reflexivity). cbn [bind fst snd map add_segments].
    unfold add_segment. cbn [map_result fst snd]. unfold fast_stat.
    replace (profile_fast (pulse_phase_fast (select [true; true; false] [0; 4; 10]) 1 0) 2) with (Ok [2; 0]%Z) by (vm_compute; reflexivity).
    cbn [bind profile_stat map]. rewrite (ef20 2 1) by Lra.lra. cbn. do 2 f_equal. f_equal. f_equal. field.
  - unfold pulsation_search. cbn [orb negb andb]. unfold folding_search.
    replace (search_masks [0; 4; 10] None) with (Ok ([0; 4; 10], [[true; true; false]])) by (vm_compute; reflexivity). cbn [bind fst snd map add_segments].
    unfold add_segment. cbn [map_result fst snd]. unfold slow_stat.
    replace (fold_events (select [true; true; false] [0; 4; 10]) [1; 0] 2 (masked_weights [0; 4; 10] [true; true; false] (WScalar 2)) (masked_gti [0; 4; 10] [true; true; false] None) 0 false)
      with (Ok ([4 # 16; 12 # 16], [Some 4; Some 0], [Some 4; Some 0])) by (vm_compute; reflexivity).
    cbn [bind profile_stat map fst snd all_some option_map]. replace (Q2R 4) with 4%R by (unfold Q2R; cbn; Lra.lra). replace (Q2R 0) with 0%R by (unfold Q2R; cbn; Lra.lra).
    rewrite (ef20 4 2) by Lra.lra. cbn. do 2 f_equal. f_equal. f_equal. field.
Qed.

Definition ex_search t0 gti := pulsation_search true EpochFolding [t0; t0 + 4; t0 + 10] [1] 2 None true (Some gti) (WScalar 1) [0].
Lemma ex_search_ok gti : masked_gti [0; 4; 10] [true; true; false] (Some gti) = Some gti -> 
  (match fold_events [0; 4] [1; 0] 2 (WScalar 1) (Some gti) 0 true with Ok (_, [Some a; Some b], _) => (qeq a 2 && qeq b 0)%bool | _ => false end) = true -> ex_search 0 gti = Ok (Flat [1] [Some 2%R]).
Proof.
  intros M E. unfold ex_search, pulsation_search. cbn [orb negb andb]. unfold folding_search. change (0 + 4) with 4. change (0 + 10) with 10.
  replace (search_masks [0; 4; 10] None) with (Ok ([0; 4; 10], [[true; true; false]])) by (vm_compute; reflexivity). cbn [bind fst snd map add_segments].
  unfold add_segment. cbn [map_result fst snd]. unfold slow_stat. rewrite M. change (select [true; true; false] [0; 4; 10]) with [0; 4]. cbn [masked_weights].
  destruct (fold_events [0; 4] [1; 0] 2 (WScalar 1) (Some gti) 0 true) as [[[c [|[a|] [|[b|] [|]]]] e]|]; try discriminate. qb.
  cbn [bind profile_stat map fst snd all_some option_map]. match goal with H : a == 2, K : b == 0 |- _ => rewrite (Qeq_eqR _ _ H), (Qeq_eqR _ _ K) end.
  replace (Q2R 2) with 2%R by (unfold Q2R; cbn; Lra.lra). replace (Q2R 0) with 0%R by (unfold Q2R; cbn; Lra.lra).
  rewrite (ef20 2 1) by Lra.lra. cbn. do 2 f_equal. f_equal. f_equal. field.
Qed.
(* as many GTIs as events: those of the events left out are left out, and the whole exposure may be lost *)
Lemma gti_masked_refuted : exists gti extra v, snd extra <= 0 /\ ex_search 0 gti = Ok (Flat [1] [None]) /\ ex_search 0 (extra :: gti) = Ok (Flat [1] [Some v]).
Proof.
  exists [(-(3), -(2)); (-(2), -(1)); (0, 10)], (-(4), -(3)), 2%R. split; [discriminate|]. split.
  - vm_compute. reflexivity.
  - apply ex_search_ok; vm_compute; reflexivity.
Qed.
(* the times are counted from the first one, the GTIs are not *)
Lemma gti_origin_refuted : exists c gti v, ex_search 0 gti = Ok (Flat [1] [Some v]) /\ ex_search c (map (fun g => (fst g + c, snd g + c)) gti) = Ok (Flat [1] [None]).
Proof.
  exists 100, [(0, 10)], 2%R. split.
  - apply ex_search_ok; vm_compute; reflexivity.
  - vm_compute. reflexivity.
Qed.
