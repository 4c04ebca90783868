(* P_base2.v: shifts, slices, truncation, splitting, sorting, joining and rebinning of time series. *)
From Verif Require Import Np Lib S_gti S_seg S_utils S_lc S_base M_gti M_seg M_merge M_utils M_lc M_base
  P_gti_cross P_gti_final P_seg_regions P_seg_cut P_seg_mask P_lc_make P_base.
From Coq Require Import Lqa.
Open Scope Q_scope.

(* ---------- C24: shifts ---------- *)
Lemma moved_map d l : moved_times d l (map (fun x => x + d) l).
Proof. unfold moved_times. induction l; constructor; [reflexivity|assumption]. Qed.
Lemma moved_iv_map d g : moved_intervals d g (map (fun iv => (fst iv + d, snd iv + d)) g).
Proof. unfold moved_intervals. induction g; constructor; [split; reflexivity|assumption]. Qed.
Lemma get_last_app {A} (l : list A) a : get_last (l ++ [a]) = Ok a.
Proof. unfold get_last. rewrite rev_app_distr. reflexivity. Qed.
Lemma get_last_map {A B} (f : A -> B) l a : get_last l = Ok a -> get_last (map f l) = Ok (f a).
Proof. unfold get_last. rewrite <- map_rev. destruct (rev l); [discriminate|]. simpl. congruence. Qed.
Lemma shift_main d s : s_time s <> [] -> exists r, shift d s = Ok r /\
  moved_times d (s_time s) (s_time r) /\ s_cols r = s_cols s /\ s_errs r = s_errs s /\ s_dt r = s_dt s /\ s_mjdref r = s_mjdref s /\
  exists g g', gti_of s = Some g /\ gti_of r = Some g' /\ moved_intervals d g g'.
Proof.
  intros N. unfold shift. destruct (s_time s) as [|t0 ts] eqn:T; [congruence|]. eexists. split; [reflexivity|]. cbn [s_time s_cols s_errs s_dt s_mjdref].
  rewrite <- T. split; [apply moved_map|]. repeat (split; [reflexivity|]). unfold gti_of. cbn [s_gti s_time s_dt].
  destruct (s_gti s) as [g|]; cbn [option_map].
  - exists g. eexists. split; [reflexivity|]. split; [reflexivity|apply moved_iv_map].
  - assert (exists tl, get_last (s_time s) = Ok tl) as [tl Etl].
    { rewrite T. unfold get_last. destruct (rev (t0 :: ts)) eqn:R; [|eexists; reflexivity]. apply (f_equal (@rev Q)) in R. rewrite rev_involutive in R. discriminate. }
    rewrite (get_last_map (fun x => x + d) _ _ Etl), Etl. rewrite T. cbn [map get nth_error]. do 2 eexists. split; [reflexivity|]. split; [reflexivity|].
    constructor; [|constructor]. cbn [fst snd]. split; lra.
Qed.
Lemma moved_trans d1 d2 a b c : moved_times d1 a b -> moved_times d2 b c -> moved_times (d1 + d2) a c.
Proof. unfold moved_times. intros H. revert c. induction H; intros c H2; inversion H2; subst; constructor; [lra|auto]. Qed.
Lemma moved_iv_trans d1 d2 a b c : moved_intervals d1 a b -> moved_intervals d2 b c -> moved_intervals (d1 + d2) a c.
Proof. unfold moved_intervals. intros H. revert c. induction H; intros c H2; inversion H2; subst; constructor; [lra|auto]. Qed.
Lemma shift_back d s r : shift d s = Ok r -> exists q, shift (- d) r = Ok q /\
  same_values (s_time s) (s_time q) /\ s_cols q = s_cols s /\ s_errs q = s_errs s /\ s_dt q = s_dt s /\ s_mjdref q = s_mjdref s /\
  exists g g', gti_of s = Some g /\ gti_of q = Some g' /\ same_intervals g g'.
Proof.
  intros H. assert (N : s_time s <> []) by (intros Z; unfold shift in H; rewrite Z in H; discriminate).
  destruct (shift_main d s N) as (r' & E & M & C & E2 & D & MJ & g & g1 & Eg & Eg1 & MG). rewrite H in E. injection E as <-.
  assert (Nr : s_time r <> []) by (intros Z; rewrite Z in M; inversion M; congruence).
  destruct (shift_main (- d) r Nr) as (q & Eq & M' & C' & E2' & D' & MJ' & g2 & g3 & Eg2 & Eg3 & MG'). rewrite Eg1 in Eg2. injection Eg2 as <-.
  exists q. split; [assumption|]. split.
  - pose proof (moved_trans _ _ _ _ _ M M') as K. unfold same_values, moved_times in *. clear - K. induction K; constructor; [lra|assumption].
  - repeat (split; [congruence|]). exists g, g3. split; [assumption|]. split; [assumption|].
    pose proof (moved_iv_trans _ _ _ _ _ MG MG') as K. unfold same_intervals, moved_intervals in *. clear - K. induction K; constructor; [lra|assumption].
Qed.
Lemma change_main m s : s_time s <> [] -> exists r, change_mjdref m s = Ok r /\ s_mjdref r = m /\
  Forall2 (fun t t' => absolute m t' == absolute (s_mjdref s) t) (s_time s) (s_time r) /\
  s_cols r = s_cols s /\ s_errs r = s_errs s /\ s_dt r = s_dt s /\
  exists g g', gti_of s = Some g /\ gti_of r = Some g' /\
    Forall2 (fun x y => absolute m (fst y) == absolute (s_mjdref s) (fst x) /\ absolute m (snd y) == absolute (s_mjdref s) (snd x)) g g'.
Proof.
  intros N. unfold change_mjdref. destruct (shift_main ((s_mjdref s - m) * 86400) s N) as (r & -> & M & C & E2 & D & MJ & g & g1 & Eg & Eg1 & MG).
  cbn [bind]. eexists. split; [reflexivity|]. cbn [s_time s_cols s_errs s_dt s_mjdref]. split; [reflexivity|]. unfold absolute. split.
  { unfold moved_times in M. clear - M. induction M; constructor; [lra|assumption]. }
  repeat (split; [assumption|]). exists g, g1. split; [assumption|]. split; [exact Eg1|].
  unfold moved_intervals in MG. clear - MG. induction MG; constructor; [lra|assumption].
Qed.

(* The GTI mask does not depend on the time reference. *)
Lemma qle_moved d a b a' b' : a' == a + d -> b' == b + d -> qle a' b' = qle a b.
Proof. intros Ha Hb. destruct (qle a b) eqn:E; destruct (qle a' b') eqn:F; try reflexivity; qb; lra. Qed.
Lemma qlt_moved d a b a' b' : a' == a + d -> b' == b + d -> qlt a' b' = qlt a b.
Proof. intros Ha Hb. destruct (qlt a b) eqn:E; destruct (qlt a' b') eqn:F; try reflexivity; qb; lra. Qed.
Definition moved_opt (d : Q) (a b : option ivl) : Prop :=
  match a, b with None, None => True | Some x, Some y => fst y == fst x + d /\ snd y == snd x + d | _, _ => False end.
Lemma mask_jit_moved d minlen : forall time time', moved_times d time time' -> forall cur cur' nxt rest rest',
  moved_opt d cur cur' -> moved_intervals d rest rest' ->
  mask_jit minlen time' cur' nxt rest' = mask_jit minlen time cur nxt rest.
Proof.
  assert (MF : forall rest rest', moved_intervals d rest rest' -> map (fun _ : ivl => false) rest' = map (fun _ => false) rest).
  { intros rest rest' H. induction H; simpl; [reflexivity|f_equal; assumption]. }
  induction 1 as [|t t' time time' Et H IH]; intros cur cur' nxt rest rest' Hc Hr; simpl.
  - f_equal. apply MF. assumption.
  - assert (A : match cur' with None => true | Some iv => qlt (snd iv) t' || nxt end = match cur with None => true | Some iv => qlt (snd iv) t || nxt end).
    { destruct cur, cur'; simpl in Hc; try contradiction; [|reflexivity]. destruct Hc as [Hc1 Hc2]. rewrite (qlt_moved d _ _ _ _ Hc2 Et). reflexivity. }
    rewrite A. destruct (match cur with None => true | Some iv => qlt (snd iv) t || nxt end).
    + inversion Hr as [|iv iv' l l' [Hi1 Hi2] Hl]; subst; simpl.
      * f_equal. f_equal. clear - H. induction H; simpl; [reflexivity|f_equal; assumption].
      * assert (B : qlt (snd iv' - fst iv') minlen = qlt (snd iv - fst iv) minlen) by (apply (qlt_moved 0); lra). rewrite B.
        destruct (qlt (snd iv - fst iv) minlen); (rewrite (IH (Some iv) (Some iv') _ l l'); [|split; assumption|assumption]); [reflexivity|].
        rewrite (qle_moved d _ _ _ _ Hi1 Et), (qle_moved d _ _ _ _ Et Hi2). reflexivity.
    + rewrite (IH cur cur' nxt rest rest' Hc Hr). f_equal. f_equal.
      destruct cur, cur'; simpl in Hc; try contradiction; [|reflexivity]. destruct Hc as [Hc1 Hc2].
      rewrite (qle_moved d _ _ _ _ Hc1 Et), (qle_moved d _ _ _ _ Et Hc2). reflexivity.
Qed.
Lemma check_moved d g g' : moved_intervals d g g' -> check_gtis g' = check_gtis g.
Proof.
  intros H. unfold check_gtis. inversion H as [|x y l l' Hx Hl]; [reflexivity|]. subst.
  assert (E1 : forall g g', moved_intervals d g g' -> forallb (fun iv : ivl => qle (fst iv) (snd iv)) g' = forallb (fun iv : ivl => qle (fst iv) (snd iv)) g).
  { clear. intros g g' H. induction H as [|x y l l' [H1 H2] H IH]; simpl; [reflexivity|]. rewrite IH, (qle_moved d _ _ _ _ H1 H2). reflexivity. }
  assert (E2 : forall g g', moved_intervals d g g' -> forallb (fun p : ivl * ivl => qle (snd (fst p)) (fst (snd p))) (combine g' (tl g')) = forallb (fun p : ivl * ivl => qle (snd (fst p)) (fst (snd p))) (combine g (tl g))).
  { clear. intros g g' H. induction H as [|x y l l' [H1 H2] H IH]; [reflexivity|]. inversion H as [|u v k k' [K1 K2] K]; subst; [reflexivity|].
    cbn [tl combine forallb fst snd] in *. rewrite IH, (qle_moved d _ _ _ _ H2 K1). reflexivity. }
  rewrite (E1 _ _ H), (E2 _ _ H). reflexivity.
Qed.
Lemma mask_moved numba d time time' g g' dt eps m new : moved_times d time time' -> moved_intervals d g g' ->
  create_gti_mask numba time g (0, 0) 0 (Some dt) eps = Ok (m, new) ->
  exists new', create_gti_mask numba time' g' (0, 0) 0 (Some dt) eps = Ok (m, new').
Proof.
  intros Ht Hg H. unfold create_gti_mask in *.
  inversion Ht as [|t0 t0' tm tm' Ht0 Htm]; subst; [discriminate|]. inversion Hg as [|x y l l' Hx Hl]; subst; [discriminate|].
  change (qlt 0 0) with false in *. cbv iota beta in *. destruct numba.
  - rewrite (check_moved d _ _ Hg). apply bind_ok in H. destruct H as (u & Hu & H). rewrite Hu. cbn [bind].
    match type of H with Ok (fst ?J, _) = _ => assert (Hm : m = fst J) by congruence end. rewrite Hm. clear H Hm.
    eexists. f_equal. f_equal. apply f_equal. apply (mask_jit_moved d).
    + assumption.
    + exact I.
    + cbn [map]. constructor; [cbn [fst snd]; destruct Hx; split; lra|].
      clear - Hl. induction Hl as [|x y l l' [H1 H2] H IH]; simpl; constructor; [cbn [fst snd]; split; lra|assumption].
  - unfold create_gti_mask_complete in *. rewrite (check_moved d _ _ Hg). apply bind_ok in H. destruct H as (u & Hu & H). rewrite Hu. cbn [bind option_map] in *.
    match type of H with Ok ?J = _ => assert (Hm : m = fst J) by (injection H as H _; symmetry; exact H) end. rewrite Hm. clear H Hm.
    eexists. f_equal. match goal with |- ?J = (_, _) => rewrite (surjective_pairing J) end. f_equal. unfold mask_complete_core. cbn [fst snd].
    set (f := fun iv : ivl => (fst iv + 0, snd iv - 0)).
    assert (N : forall l l', moved_intervals d l l' -> moved_intervals d (filter (fun iv => qle 0 (snd iv - fst iv)) (map f l)) (filter (fun iv => qle 0 (snd iv - fst iv)) (map f l'))).
    { clear. intros l l' H. induction H as [|x y l l' [H1 H2] H IH]; simpl; [constructor|].
      assert (E : qle 0 (snd y - 0 - (fst y + 0)) = qle 0 (snd x - 0 - (fst x + 0))) by (apply (qle_moved 0); lra). rewrite E.
      destruct (qle 0 (snd x - 0 - (fst x + 0))); [|exact IH]. constructor; [cbn [fst snd f]; split; lra|exact IH]. }
    specialize (N _ _ Hg). set (G := filter _ (map f (x :: l))) in *. set (G' := filter _ (map f (y :: l'))) in *. clearbody G G'.
    assert (EX : forall t t', t' == t + d ->
      existsb (fun iv : Q * Q => qle (fst iv + dt / 2 - eps * dt) t' && qle t' (snd iv - dt / 2 + eps * dt)) G' =
      existsb (fun iv : Q * Q => qle (fst iv + dt / 2 - eps * dt) t && qle t (snd iv - dt / 2 + eps * dt)) G).
    { intros t t' E. induction N as [|iu v k k' [K1 K2] K IH]; simpl; [reflexivity|]. rewrite IH.
      assert (X1 := qle_moved d (fst iu + dt / 2 - eps * dt) t (fst v + dt / 2 - eps * dt) t').
      assert (X2 := qle_moved d t (snd iu - dt / 2 + eps * dt) t' (snd v - dt / 2 + eps * dt)).
      rewrite X1, X2; try assumption; try lra. reflexivity. }
    cbn [map combine fst snd]. f_equal; [apply EX; assumption|]. clear - Htm EX. induction Htm as [|t t' tm tm' E H IH]; simpl; [reflexivity|].
    f_equal; [apply EX; assumption|assumption].
Qed.
Lemma shifted_mask numba d s r g g' dt m new : shift d s = Ok r -> gti_of s = Some g -> gti_of r = Some g' ->
  create_gti_mask numba (s_time s) g (0, 0) 0 (Some dt) gti_eps = Ok (m, new) ->
  exists new', create_gti_mask numba (s_time r) g' (0, 0) 0 (Some dt) gti_eps = Ok (m, new').
Proof.
  intros H Hg Hg' Hm. assert (N : s_time s <> []) by (intros Z; unfold shift in H; rewrite Z in H; discriminate).
  destruct (shift_main d s N) as (r' & E & M & _ & _ & _ & _ & g1 & g2 & E1 & E2 & MG). rewrite H in E. injection E as <-.
  rewrite Hg in E1. rewrite Hg' in E2. injection E1 as <-. injection E2 as <-. apply (mask_moved numba d _ _ _ _ _ _ _ _ M MG Hm).
Qed.
(* tstart of a light curve is left behind *)
Lemma shift_tstart d s r : shift d s = Ok r -> s_tstart r = s_tstart s /\ s_tseg r = s_tseg s.
Proof. unfold shift. destruct (s_time s); [discriminate|]. intros H. injection H as <-. split; reflexivity. Qed.
Lemma shift_tstart_stale : exists s r t0 ts, s_time s = [1; 2; 3] /\ s_tstart s = Some ts /\ ts == 1 - s_dt s / 2 /\
  shift 10 s = Ok r /\ nth_error (s_time r) 0 = Some t0 /\ ~ (forall ts', s_tstart r = Some ts' -> ts' == t0 - s_dt r / 2).
Proof.
  exists (mkSeries [1; 2; 3] [] [] 1 None 0 (Some (1 # 2)) (Some 3)). do 3 eexists. split; [reflexivity|]. split; [reflexivity|]. split; [reflexivity|].
  split; [reflexivity|]. split; [reflexivity|]. intros H. specialize (H (1 # 2) eq_refl). revert H. vm_compute. discriminate.
Qed.

(* ---------- C25: slices and truncation ---------- *)
Lemma zslice_nat {A} (l : list A) i j : zslice l (Z.of_nat i) (Z.of_nat j) = slice l i j.
Proof.
  unfold zslice, norm_idx. replace (Z.of_nat i <? 0)%Z with false by (symmetry; apply Z.ltb_ge; lia).
  replace (Z.of_nat j <? 0)%Z with false by (symmetry; apply Z.ltb_ge; lia). rewrite !Nat2Z.id. reflexivity.
Qed.
Lemma slice_len {A} (l : list A) i j : length (slice l i j) = (Nat.min j (length l) - i)%nat.
Proof. unfold slice. rewrite firstn_length, skipn_length. lia. Qed.
Lemma nth_error_skipn {A} n (l : list A) i : nth_error (skipn n l) i = nth_error l (n + i).
Proof. revert n. induction l as [|a l IH]; intros [|n]; simpl; try reflexivity; [destruct i; reflexivity|apply IH]. Qed.
Lemma nth_error_firstn {A} n (l : list A) i : (i < n)%nat -> nth_error (firstn n l) i = nth_error l i.
Proof. revert n i. induction l as [|a l IH]; intros [|n] [|i] H; simpl; try reflexivity; try lia. apply IH. lia. Qed.
Lemma slice_nth {A} (l : list A) i j k : (i + k < j)%nat -> nth_error (slice l i j) k = nth_error l (i + k).
Proof. intros H. unfold slice. rewrite nth_error_firstn by lia. apply nth_error_skipn. Qed.
Lemma get_nth {A} (l : list A) i a : get l i = Ok a <-> nth_error l i = Some a.
Proof. unfold get. destruct (nth_error l i); split; intros H; congruence. Qed.
Lemma get_last_nth' {A} (l : list A) a : get_last l = Ok a <-> nth_error l (length l - 1) = Some a /\ l <> [].
Proof.
  destruct l as [|x l'] using rev_ind; [split; [discriminate|intros [_ H]; congruence]|]. rewrite get_last_app, app_length, nth_error_app2; simpl length; [|lia].
  replace (length l' + 1 - 1 - length l')%nat with 0%nat by lia. simpl. split; [intros H; split; [congruence|destruct l'; discriminate]|intros [H _]; congruence].
Qed.
(* the part of the GTIs around the samples kept *)
Lemma truncate_main srt s i j g : sorts_by t_end srt -> (i < j)%nat -> (j <= length (s_time s))%nat -> 0 < s_dt s ->
  increasing (s_time s) -> gti_of s = Some g -> good g ->
  (forall t0 tl, nth_error (s_time s) i = Some t0 -> nth_error (s_time s) (j - 1) = Some tl ->
     no_touching g [(t0 - s_dt s / 2, tl + s_dt s / 2)] /\
     exists t, covered g t /\ t0 - s_dt s / 2 <= t /\ t < tl + s_dt s / 2) ->
  exists r t0 tl first last, truncate_by_index srt s (Z.of_nat i) (Some (Z.of_nat j)) = Ok r /\
    s_time r = slice (s_time s) i j /\ s_cols r = map_cols (fun l => slice l i j) (s_cols s) /\
    s_errs r = map_cols (fun l => slice l i j) (s_errs s) /\ s_dt r = s_dt s /\ s_mjdref r = s_mjdref s /\
    nth_error (s_time s) i = Some t0 /\ nth_error (s_time s) (j - 1) = Some tl /\
    exists g', gti_of r = Some g' /\ well_formed g' /\ nth_error g' 0 = Some first /\ nth_error g' (length g' - 1) = Some last /\
      s_tstart r = Some (fst first) /\ s_tseg r = Some (snd last - fst first) /\
      forall t, covered g' t <-> covered g t /\ t0 - s_dt s / 2 <= t /\ t < tl + s_dt s / 2.
Proof.
  intros Hs Hij Hj Hd Hinc Hg G Hx. destruct (nth_error_ex (s_time s) i) as [t0 E0]; [lia|]. destruct (nth_error_ex (s_time s) (j - 1)) as [tl El]; [lia|].
  destruct (Hx t0 tl E0 El) as [NT (tc & Tc & Tc1 & Tc2)].
  assert (Le : t0 <= tl).
  { destruct (Nat.eq_dec i (j - 1)) as [E|E]; [rewrite <- E in El; rewrite E0 in El; injection El as <-; lra|].
    assert (t0 < tl) by (apply (Hinc i (j - 1)%nat); [lia|assumption|assumption]). lra. }
  assert (HH : s_dt s / 2 == (1 # 2) * s_dt s) by field.
  set (w := (t0 - (1 # 2) * s_dt s, tl + (1 # 2) * s_dt s)).
  assert (Gw : good [w]).
  { split; [discriminate|]. split.
    - split; [intros a b [E|[]]; injection E as <- <-; lra|]. intros k m a b c d Hkm Hk Hm. destruct m as [|[|m]]; [lia|discriminate|discriminate].
    - intros a b [E|[]]. injection E as <- <-. lra. }
  assert (NTw : no_touching g [w]).
  { intros a b c d Hin [E|[]]. injection E as <- <-. destruct (NT a b _ _ Hin (or_introl eq_refl)) as [N1 N2]. split; intros K; [apply N1|apply N2]; clear - K; unfold Qdiv; change (/ 2) with (1 # 2); lra. }
  destruct (cross_two_exact srt g [w] Hs G Gw NTw) as (g' & Ec & W' & _ & _ & CV).
  assert (CV' : forall t, covered g' t <-> covered g t /\ t0 - s_dt s / 2 <= t /\ t < tl + s_dt s / 2).
  { intros t. rewrite CV. split; intros [H1 H2]; (split; [assumption|]).
    - destruct H2 as (a & b & [E|[]] & H2). injection E as <- <-. lra.
    - exists (fst w), (snd w). split; [left; reflexivity|]. unfold w. cbn [fst snd]. lra. }
  assert (Ng' : g' <> []). { intros ->. assert (C : covered [] tc) by (apply CV'; repeat split; assumption). destruct C as (? & ? & [] & _). }
  destruct (nth_error_ex g' 0) as [first Ef]; [destruct g'; [congruence|simpl; lia]|].
  destruct (nth_error_ex g' (length g' - 1)) as [last Ela]; [destruct g'; [congruence|simpl; lia]|].
  unfold truncate_by_index. cbn [apply_mask s_time s_cols s_errs s_dt s_mjdref].
  assert (L : length (slice (s_time s) i j) = (j - i)%nat) by (rewrite slice_len; lia).
  unfold zslice_opt. rewrite zslice_nat.
  assert (A1 : get (slice (s_time s) i j) 0 = Ok t0) by (apply get_nth; rewrite slice_nth by lia; rewrite Nat.add_0_r; assumption).
  assert (A2 : get_last (slice (s_time s) i j) = Ok tl).
  { apply get_last_nth'. rewrite L. split; [rewrite slice_nth by lia; replace (i + (j - i - 1))%nat with (j - 1)%nat by lia; assumption|].
    intros Z. rewrite Z in L. simpl in L. lia. }
  rewrite A1, A2. cbn [bind]. rewrite Hg. fold w. rewrite Ec. cbn [bind].
  assert (B1 : get g' 0 = Ok first) by (apply get_nth; assumption). assert (B2 : get_last g' = Ok last) by (apply get_last_nth'; split; assumption).
  rewrite B1, B2. cbn [bind]. exists (mkSeries (slice (s_time s) i j) (map_cols (fun l => slice l i j) (s_cols s)) (map_cols (fun l => slice l i j) (s_errs s)) (s_dt s) (Some g') (s_mjdref s) (Some (fst first)) (Some (snd last - fst first))).
  exists t0, tl, first, last. split.
  { f_equal. f_equal; unfold map_cols; apply map_ext; intros [k v]; cbn; rewrite zslice_nat; reflexivity. }
  cbn [s_time s_cols s_errs s_dt s_mjdref]. repeat (split; [first [reflexivity|assumption]|]). exists g'. repeat (split; [first [reflexivity|assumption]|]). exact CV'.
Qed.
