(* P_pcolor.v: power colours. *)
From Coq Require Import Reals Qreals Lqa Lia.
From Verif Require Import Np Lib Cplx M_gti M_seg M_utils M_power M_espec M_fourier M_pcolor S_gti S_seg S_power S_pcolor P_seg_regions P_seg_cut P_base2 P_helpers P_power.
Open Scope Q_scope.

Ltac half d := assert (d / 2 == d * (1 # 2)) by reflexivity.

(* ---- frequency ranges ---- *)
Lemma last_cons {A} (a b d : A) l : last (a :: b :: l) d = last (b :: l) d. Proof. reflexivity. Qed.
Lemma last_dflt {A} (l : list A) : forall a d d', last (a :: l) d = last (a :: l) d'.
Proof. induction l as [|b l IH]; intros a d d'; [reflexivity|]. rewrite !last_cons. apply IH. Qed.
Lemma find_bin l : forall r0 v, contiguous (r0 :: l) -> left_edge r0 <= v -> v < right_edge (last l r0) -> exists r, In r (r0 :: l) /\ left_edge r <= v /\ v < right_edge r.
Proof.
  induction l as [|b l IH]; intros r0 v C H1 H2; [cbn in H2; exists r0; split; [now left|auto]|].
  destruct (Qlt_le_dec v (right_edge r0)) as [H|H]; [exists r0; split; [now left|auto]|].
  destruct C as [Cb C]. destruct (IH b v C) as (r & Hr & Hb); [lra| |exists r; split; [now right|exact Hb]].
  destruct l as [|c l]; [exact H2|]. change (v < right_edge (last (c :: l) r0)) in H2. change (v < right_edge (last (c :: l) b)). now rewrite (last_dflt l c b r0).
Qed.
Lemma find_bin_r l : forall r0 v, contiguous (r0 :: l) -> left_edge r0 < v -> v <= right_edge (last l r0) -> exists r, In r (r0 :: l) /\ left_edge r < v /\ v <= right_edge r.
Proof.
  induction l as [|b l IH]; intros r0 v C H1 H2; [cbn in H2; exists r0; split; [now left|auto]|].
  destruct (Qlt_le_dec (right_edge r0) v) as [H|H]; [|exists r0; split; [now left|auto]].
  destruct C as [Cb C]. destruct (IH b v C) as (r & Hr & Hb); [lra| |exists r; split; [now right|exact Hb]].
  destruct l as [|c l]; [exact H2|]. change (v <= right_edge (last (c :: l) r0)) in H2. change (v <= right_edge (last (c :: l) b)). now rewrite (last_dflt l c b r0).
Qed.
Lemma wide_ok rows lo hi : contiguous rows -> wide_range rows lo hi -> range_ok rows lo hi.
Proof.
  intros C (r0 & l & -> & H1 & H2 & H3 & H4). split; [exact H3|]. split; [apply find_bin; auto; lra|]. split; [apply find_bin_r; auto; lra|].
  intros r Hr G1 G2. specialize (H4 r Hr). unfold left_edge, right_edge in *. half (b_df r). lra.
Qed.

(* ---- exclusion of frequencies ---- *)
Lemma b_power_from rows f p : nondecreasing (map b_f rows) -> get (map b_p rows) (searchsorted_left (map b_f rows) f) = Ok p -> power_from rows f p.
Proof.
  intros Hs E. apply get_nth in E. rewrite nth_error_map in E. set (i := searchsorted_left (map b_f rows) f) in *.
  destruct (nth_error rows i) as [r|] eqn:Er; [|discriminate]. cbn in E. injection E as E.
  destruct (ssl_spec (map b_f rows) f Hs) as [S1 _]. exists i, r. split; [exact Er|]. split; [exact E|]. split.
  - destruct (Qlt_le_dec (b_f r) f) as [C|C]; [|exact C]. exfalso. assert (X : (i < i)%nat); [|lia]. apply (S1 i (b_f r)); [now rewrite nth_error_map, Er|exact C].
  - intros j r' Hj Ej. apply (S1 j (b_f r')); [now rewrite nth_error_map, Ej|exact Hj].
Qed.
Lemma same_refl r : same_bin r r. Proof. now repeat split. Qed.
Lemma exclude_one_ok rows lo hi rows' : nondecreasing (map b_f rows) -> exclude_one rows (lo, hi) = Ok rows' -> bridged lo hi rows rows'.
Proof.
  intros Hs E. unfold exclude_one in E. cbn [fst snd] in E. apply bind_ok in E. destruct E as (p0 & E0 & E). apply bind_ok in E. destruct E as (p1 & E1 & E).
  assert (IO : forall x y : list pbin, Ok x = Ok y -> x = y) by congruence. apply IO in E. subst rows'. exists p0, p1.
  split; [now apply b_power_from|]. split; [now apply b_power_from|].
  clear E0 E1 Hs. induction rows as [|r rows IH]; cbn [map]; constructor; [|exact IH].
  destruct (qlt lo (b_f r - b_df r / 2) && qlt (b_f r + b_df r / 2) hi)%bool eqn:E.
  - apply andb_prop in E. destruct E as [E1 E2]. qb. split; [now repeat split|]. split; [reflexivity|]. intros C. exfalso. apply C. split; assumption.
  - split; [apply same_refl|]. split; [|reflexivity]. intros [C1 C2]. unfold left_edge, right_edge in *. apply qlt_t in C1, C2. rewrite C1, C2 in E. discriminate.
Qed.
Lemma bridged_freqs lo hi rows rows' : bridged lo hi rows rows' -> map b_f rows' = map b_f rows.
Proof. intros (p0 & p1 & _ & _ & F). induction F as [|r r' l l' (S1 & _) _ IH]; [reflexivity|]. cbn. rewrite IH. f_equal. apply S1. Qed.
Lemma exclude_all_ok excl : forall rows rows', nondecreasing (map b_f rows) -> exclude_all rows excl = Ok rows' -> bridged_all excl rows rows'.
Proof.
  induction excl as [|[lo hi] l IH]; intros rows rows' Hs E; cbn [exclude_all] in E.
  - assert (IO : forall x y : list pbin, Ok x = Ok y -> x = y) by congruence. apply IO in E. subst. constructor.
  - apply bind_ok in E. destruct E as (rows1 & E1 & E). apply exclude_one_ok in E1; [|exact Hs]. econstructor; [exact E1|]. apply IH; [|exact E].
    now rewrite (bridged_freqs _ _ _ _ E1).
Qed.
Lemma get_b rows f : nondecreasing (map b_f rows) -> (exists r, In r rows /\ f <= b_f r) -> exists p, get (map b_p rows) (searchsorted_left (map b_f rows) f) = Ok p.
Proof.
  intros Hs (r & Hr & Hf). apply In_nth_error in Hr. destruct Hr as (k & Hk).
  destruct (ssl_spec (map b_f rows) f Hs) as [S1 S2]. assert (L : (searchsorted_left (map b_f rows) f <= k)%nat).
  { destruct (Nat.le_gt_cases (searchsorted_left (map b_f rows) f) k) as [C|C]; [exact C|]. apply (S1 k (b_f r)) in C; [lra|now rewrite nth_error_map, Hk]. }
  assert (K : (k < length rows)%nat) by (apply nth_error_Some; congruence).
  destruct (nth_error_ex (map b_p rows) (searchsorted_left (map b_f rows) f)) as (p & Ep); [rewrite map_length; lia|]. exists p. now apply get_nth.
Qed.
Lemma exclude_total excl : forall rows, nondecreasing (map b_f rows) ->
  (forall lo hi, In (lo, hi) excl -> (exists r, In r rows /\ lo <= b_f r) /\ exists r, In r rows /\ hi <= b_f r) -> exists rows', exclude_all rows excl = Ok rows'.
Proof.
  induction excl as [|[lo hi] l IH]; intros rows Hs H; cbn [exclude_all]; [eexists; reflexivity|].
  destruct (H lo hi (or_introl eq_refl)) as [H1 H2]. destruct (get_b rows lo Hs H1) as (p0 & E0). destruct (get_b rows hi Hs H2) as (p1 & E1).
  assert (E : exists rows1, exclude_one rows (lo, hi) = Ok rows1) by (unfold exclude_one; cbn [fst snd]; rewrite E0, E1; cbn [bind]; eexists; reflexivity).
  destruct E as (rows1 & E). rewrite E. cbn [bind]. assert (F := bridged_freqs _ _ _ _ (exclude_one_ok _ _ _ _ Hs E)).
  apply IH; [now rewrite F|]. intros lo' hi' Hin. destruct (H lo' hi' (or_intror Hin)) as [(r & Hr & G) (r' & Hr' & G')].
  assert (T : forall r, In r rows -> exists r1, In r1 rows1 /\ b_f r1 = b_f r).
  { intros x Hx. apply (in_map b_f) in Hx. rewrite <- F in Hx. apply in_map_iff in Hx. destruct Hx as (x1 & Ex & Hx). exists x1. auto. }
  destruct (T r Hr) as (x & Hx & Ex). destruct (T r' Hr') as (x' & Hx' & Ex'). split; [exists x|exists x']; split; auto; [now rewrite Ex|now rewrite Ex'].
Qed.
Lemma bridged_same excl rows rows' : bridged_all excl rows rows' -> Forall2 same_bin rows rows'.
Proof.
  induction 1 as [rows|lo hi l rows rows1 rows2 (p0 & p1 & _ & _ & F) _ IH].
  - induction rows; constructor; auto using same_refl.
  - clear - F IH. revert rows2 IH. induction F as [|r r1 l l1 (S1 & _) _ IHF]; intros rows2 H; inversion H as [|a b c d S2 H2]; subst; constructor; auto.
    destruct S1 as (A1 & A2 & A3 & A4), S2 as (B1 & B2 & B3 & B4). repeat split; congruence.
Qed.
Lemma same_edges r r' : same_bin r r' -> left_edge r' = left_edge r /\ right_edge r' = right_edge r.
Proof. intros (E1 & E2 & _). unfold left_edge, right_edge. now rewrite E1, E2. Qed.
Lemma same_in rows rows' : Forall2 same_bin rows rows' -> (forall r, In r rows -> exists r', In r' rows' /\ same_bin r r') /\ (forall r', In r' rows' -> exists r, In r rows /\ same_bin r r').
Proof.
  induction 1 as [|r r' l l' S1 F [IH1 IH2]]; [split; intros r []|]. split; intros x [<-|Hx].
  - exists r'. split; [now left|exact S1].
  - destruct (IH1 x Hx) as (y & Hy & Sy). exists y. split; [now right|exact Sy].
  - exists r. split; [now left|exact S1].
  - destruct (IH2 x Hx) as (y & Hy & Sy). exists y. split; [now right|exact Sy].
Qed.
Lemma bins_same rows rows' : Forall2 same_bin rows rows' -> bins_ok rows -> bins_ok rows'.
Proof.
  intros F [B1 B2]. split.
  - rewrite Forall_forall in *. intros r' Hr'. destruct (proj2 (same_in _ _ F) r' Hr') as (r & Hr & (_ & E & _)). rewrite E. now apply B1.
  - clear B1. induction F as [|r r' l l' S1 F IH]; [constructor|]. apply Sorting.Sorted.StronglySorted_inv in B2. destruct B2 as [B2 B3]. constructor; [now apply IH|].
    rewrite Forall_forall in *. intros x' Hx'. destruct (proj2 (same_in _ _ F) x' Hx') as (x & Hx & Sx). specialize (B3 x Hx).
    destruct (same_edges _ _ S1) as [_ ->]. destruct (same_edges _ _ Sx) as [-> _]. exact B3.
Qed.
Lemma range_same rows rows' lo hi : Forall2 same_bin rows rows' -> range_ok rows lo hi -> range_ok rows' lo hi.
Proof.
  intros F (H1 & (r & Hr & G1 & G2) & (q & Hq & G3 & G4) & H4). destruct (same_in _ _ F) as [I1 I2]. split; [exact H1|]. split; [|split].
  - destruct (I1 r Hr) as (r' & Hr' & Sr). exists r'. destruct (same_edges _ _ Sr) as [-> ->]. auto.
  - destruct (I1 q Hq) as (r' & Hr' & Sr). exists r'. destruct (same_edges _ _ Sr) as [-> ->]. auto.
  - intros x' Hx'. destruct (I2 x' Hx') as (x & Hx & Sx). destruct (same_edges _ _ Sx) as [-> ->]. now apply H4.
Qed.

(* ---- the colours ---- *)
Lemma color_error_eq v1 s1 v2 s2 V1 S1 V2 S2 : v1 == V1 -> s1 == S1 -> v2 == V2 -> s2 == S2 -> ~ V1 == 0 -> ~ V2 == 0 ->
  color_error (v1, s1) (v2, s2) = (sqrt (Q2R S1) / Q2R V2 + Q2R V1 * sqrt (Q2R S2) / (Q2R V2 * Q2R V2))%R.
Proof.
  intros E1 E2 E3 E4 N1 N2. unfold color_error. cbn [fst snd].
  assert (EQ : v1 / v2 == V1 / V2) by now rewrite E1, E3. rewrite (Qeq_eqR _ _ EQ), (Qeq_eqR _ _ E1), (Qeq_eqR _ _ E2), (Qeq_eqR _ _ E3), (Qeq_eqR _ _ E4).
  rewrite Q2R_div by assumption. 
  assert (Z : forall x, ~ x == 0 -> Q2R x <> 0%R) by (intros x Hx C; apply Hx, eqR_Qeq; rewrite C; unfold Q2R; cbn; Lra.lra).
  field. split; now apply Z.
Qed.
Lemma sorted_f rows : bins_ok rows -> nondecreasing (map b_f rows).
Proof.
  intros [B1 B2]. unfold nondecreasing. rewrite <- (ss_nth Qle). induction B2 as [|r l B2 IH B3]; cbn [map]; [constructor|]. inversion B1 as [|x y D1 D2]; subst. constructor; [now apply IH|].
  rewrite Forall_forall in *. intros f Hf. apply in_map_iff in Hf. destruct Hf as (x & <- & Hx). specialize (B3 x Hx). specialize (D2 x Hx). unfold left_edge, right_edge in B3. half (b_df r). half (b_df x). lra.
Qed.
Lemma get_last_cons {A} (a : A) l : get_last (a :: l) = Ok (last l a).
Proof.
  destruct (exists_last (l := a :: l) ltac:(discriminate)) as (l' & x & E). rewrite E, get_last_app. f_equal.
  destruct l as [|b l]; [destruct l' as [|c [|]]; cbn in E |- *; congruence|]. rewrite <- (last_last l' x a), <- E. reflexivity.
Qed.
Lemma power_color_main rows e0 e1 e2 e3 e4 m excl : bins_ok rows -> contiguous rows ->
  wide_range rows e0 e1 -> wide_range rows e1 e2 -> wide_range rows e2 e3 -> wide_range rows e3 e4 ->
  (forall lo hi, In (lo, hi) excl -> (exists r, In r rows /\ lo <= b_f r) /\ exists r, In r rows /\ hi <= b_f r) ->
  exists c0 s0 c1 s1 rows', power_color rows [e0; e1; e2; e3; e4] m excl = Ok ((c0, s0), (c1, s1), rows') /\
  bridged_all excl rows rows' /\
  c0 == integral rows' e0 e1 / integral rows' e2 e3 /\ c1 == integral rows' e1 e2 / integral rows' e3 e4 /\
  (~ integral rows' e0 e1 == 0 -> ~ integral rows' e2 e3 == 0 ->
     s0 = propagated (Q2R (integral rows' e0 e1)) (std_dev m rows e0 e1) (Q2R (integral rows' e2 e3)) (std_dev m rows e2 e3)) /\
  (~ integral rows' e1 e2 == 0 -> ~ integral rows' e3 e4 == 0 ->
     s1 = propagated (Q2R (integral rows' e1 e2)) (std_dev m rows e1 e2) (Q2R (integral rows' e3 e4)) (std_dev m rows e3 e4)).
Proof.
  intros B C W0 W1 W2 W3 Hex. pose proof (sorted_f rows B) as Hs. destruct (exclude_total excl rows Hs Hex) as (rows' & EX).
  pose proof (exclude_all_ok excl rows rows' Hs EX) as BA. pose proof (bridged_same _ _ _ BA) as F. pose proof (bins_same _ _ F B) as B'.
  assert (V : forall a b, wide_range rows a b -> exists v w, (let! v := integrate_power rows' a b None in let! e := integrate_power rows a b m in Ok (fst v, snd e)) = Ok (v, w) /\
     v == integral rows' a b /\ w == integral_var (power_var m) rows a b).
  { intros a b W. apply wide_ok in W; [|exact C]. destruct (integrate_gen rows' a b B' (range_same _ _ _ _ F W) None) as (v & u & E1 & Ev & _).
    destruct (integrate_gen rows a b B W m) as (v' & w & E2 & _ & Ew). exists v, w. rewrite E1, E2. cbn [bind fst snd]. auto. }
  destruct (V _ _ W0) as (v0 & w0 & E0 & V0 & S0). destruct (V _ _ W1) as (v1 & w1 & E1 & V1 & S1).
  destruct (V _ _ W2) as (v2 & w2 & E2 & V2 & S2). destruct (V _ _ W3) as (v3 & w3 & E3 & V3 & S3). clear V.
  destruct W0 as (r0 & l & Er & L0 & R0 & O0 & _). destruct W1 as (r1 & l1 & Er1 & _ & _ & O1 & _). destruct W2 as (r2 & l2 & Er2 & _ & _ & O2 & _).
  destruct W3 as (r3 & l3 & Er3 & L3 & R3 & O3 & _). rewrite Er in Er3. injection Er3 as <- <-.
  exists (v0 / v2), (color_error (v0, w0) (v2, w2)), (v1 / v3), (color_error (v1, w1) (v3, w3)), rows'. split.
  { unfold power_color. rewrite Er. cbn [get nth_error bind]. destruct (qmin_list_ok [e0; e1; e2; e3; e4] ltac:(discriminate)) as (lo & -> & Hlo & _).
    destruct (qmax_list_ok [e0; e1; e2; e3; e4] ltac:(discriminate)) as (hi & -> & Hhi & _). cbn [bind]. rewrite get_last_cons. cbn [bind].
    unfold left_edge, right_edge in *.
    assert (Q1 : qlt lo (b_f r0 - b_df r0 / 2) = false).
    { destruct (qlt lo (b_f r0 - b_df r0 / 2)) eqn:Q1; [|reflexivity]. qb. destruct Hlo as [<-|[<-|[<-|[<-|[<-|[]]]]]]; lra. }
    assert (Q2 : qlt (b_f (last l r0) + b_df (last l r0) / 2) hi = false).
    { destruct (qlt (b_f (last l r0) + b_df (last l r0) / 2) hi) eqn:Q2; [|reflexivity]. qb. destruct Hhi as [<-|[<-|[<-|[<-|[<-|[]]]]]]; lra. }
    rewrite Q1, Q2, <- Er, EX. cbn [bind]. rewrite E0. cbn [bind]. rewrite E2. cbn [bind]. rewrite E1. cbn [bind]. rewrite E3. cbn [bind fst]. reflexivity. }
  split; [exact BA|]. split; [now rewrite V0, V2|]. split; [now rewrite V1, V3|]. split; intros N1 N2; unfold propagated, std_dev; now apply color_error_eq.
Qed.
