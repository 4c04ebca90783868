(* P_sim3.v: event times drawn from a light curve, interval by interval. *)
From Verif Require Import Np Lib M_gti M_seg M_utils S_gti S_seg P_helpers P_seg_cut P_seg_regions P_segan5 P_reader3 P_base2 T_seg M_sim S_sim P_sim P_sim2.
From Coq Require Import ZArith QArith Qfield List Bool Arith Lia Lqa Permutation Sorting.Sorted.
Import ListNotations.
Open Scope Q_scope.

Lemma equal_nondec a b n edges : (0 < n)%nat -> a <= b -> equal_bins a b n edges -> nondecreasing edges.
Proof.
  intros Hn Hab [_ E] i j x y Hij Ex Ey. apply E in Ex. apply E in Ey.
  assert (N : 0 < inject_Z (Z.of_nat n)) by (change 0 with (inject_Z 0); rewrite <- Zlt_Qlt; lia).
  assert (IJ : inject_Z (Z.of_nat i) <= inject_Z (Z.of_nat j)) by (rewrite <- Zle_Qle; lia).
  apply (Qmult_le_r _ _ _ N). rewrite Ex, Ey. assert (inject_Z (Z.of_nat i) * (b - a) <= inject_Z (Z.of_nat j) * (b - a)) by (apply Qmult_le_compat_r; lra). lra.
Qed.
Lemma equal_ends a b n edges : (0 < n)%nat -> equal_bins a b n edges -> (forall x, nth_error edges 0 = Some x -> x == a) /\ (forall x, nth_error edges (length edges - 1) = Some x -> x == b).
Proof.
  intros Hn [L E]. assert (N : ~ inject_Z (Z.of_nat n) == 0) by (change 0 with (inject_Z 0); rewrite inject_Z_injective; lia). split; intros x Ex; apply E in Ex.
  - apply (Qmult_inj_r _ _ _ N). rewrite Ex. change (inject_Z (Z.of_nat 0)) with 0. ring.
  - rewrite L in Ex. replace (S n - 1)%nat with n in Ex by lia. apply (Qmult_inj_r _ _ _ N). rewrite Ex. ring.
Qed.
Theorem filled a b n edges dt i e : (0 < n)%nat -> equal_bins a b n edges -> b - a == inject_Z (Z.of_nat n) * dt -> nth_error edges i = Some e -> e == a + inject_Z (Z.of_nat i) * dt.
Proof.
  intros Hn [L E] H Ee. assert (N : ~ inject_Z (Z.of_nat n) == 0) by (change 0 with (inject_Z 0); rewrite inject_Z_injective; lia). apply E in Ee. apply (Qmult_inj_r _ _ _ N). rewrite Ee, H. ring.
Qed.
Lemma forall2_in_r {A B} (P : A -> B -> Prop) l l' y : Forall2 P l l' -> In y l' -> exists x, In x l /\ P x y.
Proof. induction 1 as [|a b l l' H F IH]; intros I; [destruct I|]. destruct I as [E|E]; [subst; exists a; split; [now left|assumption]|destruct (IH E) as (x & X1 & X2); exists x; split; [now right|assumption]]. Qed.
Lemma whole_nonneg l : Forall (Qle 0) l -> 0 <= whole l.
Proof. intros F. unfold whole. rewrite <- (area_0 l) at 1. apply area_mono; [assumption|lia]. Qed.
Theorem one_interval right counts us a b : Forall (Qle 0) counts -> a < b -> drawn right us -> (whole counts == 0 -> us = []) ->
  exists vals, simulate_one right counts us (a, b) = Ok (map Some vals) /\ drawn_in counts us a b vals.
Proof.
  intros F Hab D Z. unfold simulate_one. destruct (Qlt_le_dec 0 (whole counts)) as [W|W].
  - destruct counts as [|c [|c' counts]]; [cbn in W; lra| |].
    + exists (np_sort (map (fun u => a + (b - a) * u) us)). split.
      * unfold simulate_with_inverse_cdf. rewrite (no_negative _ F). reflexivity.
      * rewrite np_sort_scale by lra. exists (even_edges a b 1), (np_sort us). assert (EB := even_edges_equal a b 1 ltac:(lia)). split; [exact EB|]. split; [apply np_sort_perm|]. split; [apply np_sort_nondec|].
        assert (B : forall v, In v (map (fun u => a + (b - a) * u) (np_sort us)) -> a <= v /\ v <= b).
        { intros v Hv. apply in_map_iff in Hv as (u & <- & Hu). destruct (D u) as (U0 & U1 & _); [exact (Permutation_in _ (np_sort_perm us) Hu)|]. split; nra. }
        split; [|split; [|exact B]].
        -- assert (D' : forall u, In u (np_sort us) -> 0 <= u /\ u < 1) by (intros u Hu; destruct (D u) as (U0 & U1 & _); [exact (Permutation_in _ (np_sort_perm us) Hu)|split; assumption]).
           induction (np_sort us) as [|u l IH]; [constructor|]. cbn [map]. constructor; [|apply IH; [intros v Hv; apply B; now right|intros v Hv; apply D'; now right]].
           destruct (D' u ltac:(now left)) as [U0 U1]. exists 0%nat, c, (nth 0 (even_edges a b 1) 0), (nth 1 (even_edges a b 1) 0).
           assert (E0 : nth 0 (even_edges a b 1) 0 == a) by (unfold even_edges; cbn [seq map nth]; change (inject_Z (Z.of_nat 0)) with 0; ring).
           assert (E1 : nth 1 (even_edges a b 1) 0 == b) by (unfold even_edges; cbn [seq map nth]; change (inject_Z (Z.of_nat 1)) with 1; field).
           assert (EW : whole [c] == c) by (unfold whole; cbn; ring). change (area [c] 0) with 0. change (area [c] 1) with (c + 0). rewrite EW in *. do 3 (split; [reflexivity|]). split; [exact W|]. split; [nra|]. split; [nra|]. rewrite E0, E1. ring.
        -- intros i j x y Hij Ex Ey. rewrite nth_error_map in Ex, Ey. destruct (nth_error (np_sort us) i) as [u|] eqn:Eu; [|discriminate]. destruct (nth_error (np_sort us) j) as [w|] eqn:Ew; [|discriminate].
           injection Ex as <-. injection Ey as <-. pose proof (np_sort_nondec us i j u w Hij Eu Ew). nra.
    + set (l := c :: c' :: counts) in *. assert (L : (2 <= length l)%nat) by (cbn; lia).
      assert (EB := even_edges_equal a b (length l) ltac:(lia)).
      destruct (histogram_values right l us (Some (a, b)) true (even_edges a b (length l)) F W L (proj1 EB) D) as (ps & vals & E & -> & Q).
      assert (N := equal_nondec a b (length l) _ ltac:(lia) ltac:(lra) EB). exists vals. split; [exact E|]. exists (even_edges a b (length l)), (np_sort us). split; [exact EB|]. split; [apply np_sort_perm|]. split; [apply np_sort_nondec|]. split; [exact Q|].
      split; [exact (sorted_values right l us _ _ vals F W L (proj1 EB) D N E)|]. intros v Hv. destruct (forall2_in_r _ _ _ _ Q Hv) as (u & _ & Qu).
      destruct (equal_ends a b (length l) _ ltac:(lia) EB) as [E0 E1]. destruct EB as [EL _]. assert (X0 := nth_error_nth' (even_edges a b (length l)) 0 (n := 0%nat) ltac:(rewrite EL; lia)).
      assert (X1 := nth_error_nth' (even_edges a b (length l)) 0 (n := (length (even_edges a b (length l)) - 1)%nat) ltac:(rewrite EL; lia)).
      destruct (quantile_range _ _ _ _ _ _ N Qu X0 X1) as [Y0 Y1]. rewrite (E0 _ X0) in Y0. rewrite (E1 _ X1) in Y1. split; assumption.
  - pose proof (whole_nonneg counts F). rewrite (Z ltac:(lra)) in *. exists []. split.
    + unfold simulate_with_inverse_cdf. rewrite (no_negative _ F). destruct (Nat.eqb_spec (length counts) 1); [reflexivity|]. cbn [fst snd].
      rewrite cumsum_len. cbn [length]. assert (EL : length (even_edges a b (length counts)) = S (length counts)) by (destruct (length counts); [reflexivity|]; unfold even_edges; now rewrite map_length, seq_length).
      rewrite EL, Nat.eqb_refl. cbn [negb].
      destruct (get_last_some (qcumsum 0 (0 :: counts))) as (T & ET); [intros C; apply (f_equal (@length Q)) in C; rewrite cumsum_len in C; cbn in C; lia|].
      rewrite ET. cbn [bind]. destruct (qeq T 0); reflexivity.
    + exists (even_edges a b (length counts)), []. split.
      * destruct (length counts) eqn:E; [|rewrite <- E; apply even_edges_equal; lia]. split; [reflexivity|]. intros [|i] e Ee; [injection Ee as <-|destruct i; discriminate]. change (inject_Z (Z.of_nat 0)) with 0. ring.
      * split; [constructor|]. split; [intros [|i] j x y _ Ex; discriminate|]. split; [constructor|]. split; [intros [|i] j x y _ Ex; discriminate|]. intros v [].
Qed.
Theorem single_gti right time counts a b dt draws : Forall (Qle 0) counts -> a < b -> drawn right (draws 0%nat) -> (whole counts == 0 -> draws 0%nat = []) ->
  exists vals, simulate_times right time counts [(a, b)] dt draws = Ok (map Some vals) /\ drawn_in counts (draws 0%nat) a b vals.
Proof. intros F H D Z. unfold simulate_times. rewrite (no_negative counts F). apply one_interval; assumption. Qed.
Theorem negative_counts right time counts gti dt draws c : In c counts -> c < 0 -> simulate_times right time counts gti dt draws = Err ValueError.
Proof.
  intros I H. unfold simulate_times. assert (existsb (fun c => qlt c 0) counts = true) as ->; [|reflexivity]. apply existsb_exists. exists c. split; [exact I|]. destruct (qlt c 0) eqn:E; [reflexivity|]. apply qlt_f in E. lra.
Qed.
Theorem negative_pdf right pdf us rng sorted edges c : In c pdf -> c < 0 -> simulate_with_inverse_cdf right pdf us rng sorted edges = Err ValueError.
Proof.
  intros I H. unfold simulate_with_inverse_cdf. assert (existsb (fun c => qlt c 0) pdf = true) as ->; [|reflexivity]. apply existsb_exists. exists c. split; [exact I|]. destruct (qlt c 0) eqn:E; [reflexivity|]. apply qlt_f in E. lra.
Qed.
Theorem wrong_edges right pdf us rng sorted edges : Forall (Qle 0) pdf -> length pdf <> 1%nat -> length edges <> S (length pdf) -> simulate_with_inverse_cdf right pdf us rng sorted (Some edges) = Err ValueError.
Proof.
  intros F N L. unfold simulate_with_inverse_cdf. rewrite (no_negative pdf F). destruct (Nat.eqb_spec (length pdf) 1); [contradiction|]. rewrite cumsum_len. cbn [length]. destruct (Nat.eqb_spec (S (length pdf)) (length edges)); [congruence|reflexivity].
Qed.

Lemma forall_slice {A} (P : A -> Prop) l i j : Forall P l -> Forall P (slice l i j).
Proof. intros F. unfold slice. apply Forall_forall. intros x Hx. rewrite Forall_forall in F. apply F. apply firstn_in in Hx. exact (skipn_in _ _ _ Hx). Qed.
Lemma map_result_parts {A B C} (f : A -> result (list C)) (g : B -> C) (R : A -> list B -> Prop) l : (forall p, In p l -> exists vals, f p = Ok (map g vals) /\ R p vals) ->
  exists parts, map_result f l = Ok (map (map g) parts) /\ Forall2 R l parts.
Proof.
  induction l as [|p l IH]; intros H; [exists []; split; [reflexivity|constructor]|]. destruct (H p ltac:(now left)) as (v & Ev & Rv). destruct IH as (parts & Ep & Fp); [intros q Hq; apply H; now right|].
  exists (v :: parts). cbn [map_result map]. rewrite Ev. cbn [bind]. rewrite Ep. cbn [bind]. split; [reflexivity|constructor; assumption].
Qed.
Lemma forall2_nth {A B} (P : A -> B -> Prop) l l' : Forall2 P l l' -> forall i x y, nth_error l i = Some x -> nth_error l' i = Some y -> P x y.
Proof. induction 1 as [|a b l l' H F IH]; intros [|i] x y Ex Ey; try discriminate; cbn [nth_error] in *; [injection Ex as <-; injection Ey as <-; exact H|exact (IH _ _ _ Ex Ey)]. Qed.
Lemma forall2_len {A B} (P : A -> B -> Prop) l l' : Forall2 P l l' -> length l = length l'.
Proof. induction 1; cbn; congruence. Qed.
Lemma combine_at {A B} (l : list A) (l' : list B) i x y : nth_error l i = Some x -> nth_error l' i = Some y -> nth_error (combine l l') i = Some (x, y).
Proof. revert l' i. induction l as [|a l IH]; intros [|b l'] [|i] Ex Ey; try discriminate; cbn [combine nth_error] in *; [congruence|apply IH; assumption]. Qed.
Lemma combine_inv {A B} (l : list A) (l' : list B) i p : nth_error (combine l l') i = Some p -> nth_error l i = Some (fst p) /\ nth_error l' i = Some (snd p).
Proof. revert l' i. induction l as [|a l IH]; intros [|b l'] [|i] E; try discriminate; cbn [combine nth_error] in *; [injection E as <-; split; reflexivity|apply IH; assumption]. Qed.
Lemma area_zero l : Forall (Qle 0) l -> whole l == 0 -> forall i c, nth_error l i = Some c -> c == 0.
Proof.
  intros F W i c E. pose proof (area_S _ _ _ E) as AS. pose proof (area_mono l F 0 i ltac:(lia)) as X1. rewrite area_0 in X1.
  assert (X2 : area l (S i) <= whole l) by (apply area_mono; [exact F|]; assert (i < length l)%nat by (apply nth_error_Some; congruence); lia).
  rewrite Forall_forall in F. pose proof (F c (nth_error_In _ _ E)). lra.
Qed.
Lemma sorted_concat g parts : well_formed g -> Forall2 (fun iv (p : list Q) => nondecreasing p /\ forall v, In v p -> fst iv <= v /\ v <= snd iv) g parts -> nondecreasing (concat parts).
Proof.
  intros W F. cut (StronglySorted Qle (concat parts)); [exact (proj1 (ss_nth Qle _))|]. destruct W as [_ W]. induction F as [|[a b] p g parts [N B] F IH]; [constructor|].
  cbn [concat]. assert (I : StronglySorted Qle (concat parts)) by (apply IH; intros i j a' b' c d H E1 E2; exact (W (S i) (S j) a' b' c d ltac:(lia) E1 E2)).
  assert (A : forall x y, In x p -> In y (concat parts) -> x <= y).
  { intros x y Hx Hy. apply in_concat in Hy as (q & Hq & Hy). destruct (B x Hx) as [_ X]. cbn [snd] in X.
    destruct (In_nth_error _ _ Hq) as [j Ej]. assert (j < length g)%nat by (rewrite (forall2_len _ _ _ F); apply nth_error_Some; congruence).
    destruct (nth_error g j) as [[c d]|] eqn:Eg; [|apply nth_error_None in Eg; lia]. destruct (forall2_nth _ _ _ F _ _ _ Eg Ej) as [_ Y]. destruct (Y y Hy) as [Y1 _]. cbn [fst] in Y1.
    pose proof (W 0%nat (S j) a b c d ltac:(lia) eq_refl Eg). lra. }
  apply (proj2 (ss_nth Qle p)) in N. clear - N I A. induction N as [|x p N IH Fx]; [exact I|]. cbn [app]. constructor.
  - apply IH. intros u w Hu Hw. apply A; [now right|assumption].
  - apply Forall_app. split; [exact Fx|]. apply Forall_forall. intros y Hy. apply A; [now left|assumption].
Qed.
Theorem several_gtis right time counts gti dt draws : well_formed gti -> positive_lengths gti -> (2 <= length gti)%nat -> increasing time -> 0 < dt -> Forall (Qle 0) counts -> length counts = length time ->
  (forall a b, In (a, b) gti -> exists t, In t time /\ bin_inside t dt ((1 # 1000) * dt) a b) -> (forall i, drawn right (draws i)) ->
  (forall i a b, nth_error gti i = Some (a, b) -> (forall k t c, nth_error time k = Some t -> nth_error counts k = Some c -> bin_inside t dt ((1 # 1000) * dt) a b -> c == 0) -> draws i = []) ->
  exists parts, simulate_times right time counts gti dt draws = Ok (map Some (concat parts)) /\ length parts = length gti /\ nondecreasing (concat parts) /\
    forall i a b part, nth_error gti i = Some (a, b) -> nth_error parts i = Some part ->
      exists s e, (e <= length time)%nat /\ (forall k t, nth_error time k = Some t -> ((s <= k < e)%nat <-> bin_inside t dt ((1 # 1000) * dt) a b)) /\ drawn_in (slice counts s e) (draws i) a b part.
Proof.
  intros W P L I Hd F Lc B D Z. unfold simulate_times. rewrite (no_negative counts F). destruct gti as [|g0 [|g1 gti]]; [cbn in L; lia|cbn in L; lia|]. set (gs := g0 :: g1 :: gti) in *.
  destruct (C10_border_bins_total gs time dt (1 # 1000)) as [bins Eb]; [apply inc_nondec; exact I|discriminate|lra|lra|lra|intros a b H; split; [apply (proj1 W); exact H|apply B; exact H]|].
  rewrite Eb. cbn [bind]. pose proof (C10_border_bins_exact gs time dt (1 # 1000) bins I Eb) as X. pose proof (forall2_len _ _ _ X) as LX.
  set (f := fun p : Q * Q * (nat * nat) * nat => simulate_one right (slice counts (fst (snd (fst p))) (snd (snd (fst p)))) (draws (snd p)) (fst (fst p))).
  destruct (map_result_parts f Some (fun p vals => drawn_in (slice counts (fst (snd (fst p))) (snd (snd (fst p)))) (draws (snd p)) (fst (fst (fst p))) (snd (fst (fst p))) vals) (combine (combine gs bins) (seq 0 (length gs)))) as (parts & Ep & Fp).
  - intros [[[a b] [s e]] i] Hp. apply In_nth_error in Hp as [k Hk]. apply combine_inv in Hk as [H1 H2]. apply combine_inv in H1 as [H1 H3]. cbn [fst snd] in *.
    assert (k < length gs)%nat by (apply nth_error_Some; congruence). rewrite (nth_error_nth' _ 0%nat) in H2 by (rewrite seq_length; lia). rewrite seq_nth in H2 by lia. injection H2 as <-. change (0 + k)%nat with k.
    destruct (forall2_nth _ _ _ X _ _ _ H1 H3) as [Y1 Y2]. cbn [fst snd] in *. unfold f. cbn [fst snd]. apply one_interval.
    + apply forall_slice, F.
    + exact (P a b (nth_error_In _ _ H1)).
    + apply D.
    + intros W0. apply (Z k a b H1). intros q t c Et Ec Hin. apply (Y2 q t Et) in Hin. apply (area_zero _ (forall_slice _ _ s e F) W0 (q - s)). unfold slice.
      fold (slice counts s e). rewrite slice_nth by lia. replace (s + (q - s))%nat with q by lia. exact Ec.
  - fold f. rewrite Ep. cbn [bind]. exists parts. rewrite concat_map. split; [reflexivity|]. pose proof (forall2_len _ _ _ Fp) as LP. rewrite !combine_length, seq_length, <- LX, !Nat.min_id in LP.
    assert (K : forall i a b part, nth_error gs i = Some (a, b) -> nth_error parts i = Some part ->
      exists s e, (e <= length time)%nat /\ (forall k t, nth_error time k = Some t -> ((s <= k < e)%nat <-> bin_inside t dt ((1 # 1000) * dt) a b)) /\ drawn_in (slice counts s e) (draws i) a b part).
    { intros i a b part Eg Epi. assert (i < length gs)%nat by (apply nth_error_Some; congruence). destruct (nth_error bins i) as [[s e]|] eqn:Ebi; [|apply nth_error_None in Ebi; lia].
      assert (Es : nth_error (seq 0 (length gs)) i = Some i) by (rewrite (nth_error_nth' _ 0%nat) by (rewrite seq_length; lia); rewrite seq_nth by lia; reflexivity).
      pose proof (forall2_nth _ _ _ Fp _ _ _ (combine_at _ _ _ _ _ (combine_at _ _ _ _ _ Eg Ebi) Es) Epi) as Y. cbn [fst snd] in Y. destruct (forall2_nth _ _ _ X _ _ _ Eg Ebi) as [Y1 Y2]. cbn [fst snd] in *. exists s, e. split; [exact Y1|]. split; [exact Y2|exact Y]. }
    split; [congruence|]. split; [|exact K]. apply (sorted_concat gs parts W).
    assert (G : forall i iv p, nth_error gs i = Some iv -> nth_error parts i = Some p -> nondecreasing p /\ forall v, In v p -> fst iv <= v /\ v <= snd iv).
    { intros i [a b] p E1 E2. destruct (K i a b p E1 E2) as (s & e & _ & _ & edges & ps & _ & _ & _ & _ & N & V). split; [exact N|exact V]. }
    clear - LP G. revert parts LP G. induction gs as [|iv gs IH]; intros [|p parts] LP G; try discriminate; constructor; [exact (G 0%nat iv p eq_refl eq_refl)|].
    apply IH; [cbn in LP; lia|]. intros i. exact (G (S i)).
Qed.
