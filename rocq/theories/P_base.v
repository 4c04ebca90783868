(* P_base.v: proofs about filtering, arithmetic and shifts of time series. *)
From Verif Require Import Np Lib S_gti S_seg S_lc S_base M_gti M_seg M_merge M_utils M_lc M_base P_gti_cross P_gti_final P_seg_cut P_seg_mask P_lc_make.
From Coq Require Import Lqa.
Open Scope Q_scope.

Lemma select_keep {A} (l : list A) m : select l m = keep m l.
Proof. revert m. induction l as [|a l IH]; intros [|b m]; simpl; try reflexivity. destruct b; rewrite IH; reflexivity. Qed.
Lemma keep_map {A B} (f : A -> B) m l : keep m (map f l) = map f (keep m l).
Proof. revert m. induction l as [|a l IH]; intros [|b m]; simpl; try reflexivity. destruct b; simpl; rewrite IH; reflexivity. Qed.
Lemma keep_len {A B} m (l : list A) (l' : list B) : length l = length l' -> length (keep m l) = length (keep m l').
Proof. revert l l'. induction m as [|b m IH]; intros [|x l] [|y l'] H; simpl in *; try reflexivity; try discriminate. destruct b; simpl; [f_equal|]; apply IH; lia. Qed.

Lemma well_formed_le g a b : well_formed g -> In (a, b) g -> a <= b.
Proof. intros [W _] Hin. apply (W a b Hin). Qed.
Lemma mask_ok numba time g d : time <> [] -> nondecreasing time -> g <> [] -> well_formed g -> 0 < d \/ (0 <= d /\ gaps_between g) ->
  (numba = false \/ all_hold_bins g (gti_eps * d) d time) ->
  exists m new, create_gti_mask numba time g (0, 0) 0 (Some d) gti_eps = Ok (m, new) /\ flags (bin_in g (gti_eps * d) d) time m.
Proof.
  intros Nt Ht Ng W Hd Hb. assert (Hd0 : 0 <= d) by (destruct Hd as [Hd|[Hd _]]; lra).
  assert (EQ : forall t, (exists a b, In (a, b) g /\ bin_inside t d (gti_eps * d) (a + 0) (b - 0)) <-> bin_in g (gti_eps * d) d t).
  { intros t. unfold bin_in, bin_inside. split; intros (a & b & H & H1 & H2); exists a, b; (split; [assumption|]); split; lra. }
  assert (slow : numba = false -> exists m new, create_gti_mask numba time g (0, 0) 0 (Some d) gti_eps = Ok (m, new) /\ flags (bin_in g (gti_eps * d) d) time m).
  { intros ->. destruct (mask_no_numba time g (0, 0) 0 d gti_eps Nt Ng W ltac:(lra)) as (m & new & E & L & H & _).
    exists m, new. split; [assumption|]. split; [assumption|]. intros i t Hi. rewrite (H i t Hi). cbn [fst snd]. rewrite <- EQ.
    split; intros (a & b & Hin & H1); exists a, b; (split; [assumption|]); [apply H1|]. split; [|assumption].
    pose proof (well_formed_le g a b W Hin). lra. }
  destruct Hb as [Hb|Hb]; [apply slow; assumption|]. destruct numba; [|apply slow; reflexivity].
  destruct (mask_fast_main time g (0, 0) 0 d gti_eps) as (m & new & E & L & H & _); try assumption; try (cbn [fst snd]; lra).
  - unfold gti_eps. lra.
  - unfold gti_eps. lra.
  - destruct Hd as [Hd|[_ Hd]]; [left|right]; assumption.
  - intros a b Hin. destruct (Hb a b Hin) as (t & H1 & H2 & H3). exists t. split; [assumption|]. unfold bin_inside. cbn [fst snd]. split; lra.
  - exists m, new. split; [assumption|]. split; [assumption|]. intros i t Hi. rewrite (H i t Hi). apply EQ.
Qed.

(* Zipping. *)
Lemma zip_combined f a : forall b, length a = length b -> combined f a b (zip_with f a b).
Proof.
  unfold combined. induction a as [|x a IH]; intros [|y b] L; simpl in *; try discriminate.
  - split; [reflexivity|]. split; [reflexivity|]. intros [|i]; discriminate.
  - destruct (IH b ltac:(lia)) as (H1 & H2 & H3). split; [lia|]. split; [lia|]. intros [|i] u v Hu Hv; simpl in *; [congruence|]. apply H3; assumption.
Qed.
Lemma zip_forall (f : Q -> Q -> Q) (P : Q -> Prop) a : forall b, length a = length b -> Forall P (zip_with f a b) -> Forall2 (fun x y => P (f x y)) a b.
Proof.
  induction a as [|x a IH]; intros [|y b] L H; simpl in *; try discriminate; constructor; inversion H; subst; [assumption|]. apply IH; [lia|assumption].
Qed.

(* touching does not change anything visible *)
Definition unchanged (a a' : series) : Prop :=
  s_time a' = s_time a /\ s_cols a' = s_cols a /\ s_errs a' = s_errs a /\ s_dt a' = s_dt a /\ gti_of a' = gti_of a /\
  s_mjdref a' = s_mjdref a /\ s_tstart a' = s_tstart a /\ s_tseg a' = s_tseg a.
Lemma gti_of_with g s : gti_of (with_gti (Some g) s) = Some g.
Proof. reflexivity. Qed.
Lemma gti_touch s : gti_of (touch s) = gti_of s.
Proof. unfold touch. destruct (gti_of s) eqn:E; [reflexivity|]. unfold gti_of in *. cbn [with_gti s_gti s_time s_dt]. destruct (s_gti s); [discriminate|]. exact E. Qed.
Lemma touch_unchanged s : unchanged s (touch s).
Proof. unfold unchanged. repeat split. apply gti_touch. Qed.
Lemma unchanged_refl s : unchanged s s.
Proof. unfold unchanged. repeat split. Qed.

(* ---------- Lightcurve arithmetic ---------- *)
Definition referred (a b b0 : series) : Prop :=
  (s_mjdref a == s_mjdref b /\ b0 = b) \/ (~ s_mjdref a == s_mjdref b /\ change_mjdref (s_mjdref a) b = Ok b0).
Lemma lc_operate_main srt numba f a b r a' b' : sorts_by t_end srt -> lc_operate srt numba f a b = (Ok r, a', b') ->
  unchanged a a' /\ unchanged b b' /\
  exists b0 ga gb g ka kb la lb ca cb ea eb,
    referred a b b0 /\ gti_of a = Some ga /\ gti_of b0 = Some gb /\
    s_cols a = [(ka, ca)] /\ s_cols b0 = [(kb, cb)] /\ s_errs a = [(la, ea)] /\ s_errs b0 = [(lb, eb)] /\
    cross_two_gtis srt ga gb = Ok g /\ s_gti r = Some g /\ s_dt r = s_dt a /\ s_mjdref r = s_mjdref a /\
    (good ga -> good gb -> no_touching ga gb -> forall t, covered g t <-> covered ga t /\ covered gb t) /\
    (good ga -> good gb -> nondecreasing (s_time a) -> nondecreasing (s_time b0) -> 0 < s_dt a -> 0 < s_dt b0 ->
     length ca = length (s_time a) -> length ea = length (s_time a) -> length cb = length (s_time b0) -> length eb = length (s_time b0) ->
     (numba = false \/ (all_hold_bins g (gti_eps * s_dt a) (s_dt a) (s_time a) /\ all_hold_bins g (gti_eps * s_dt b0) (s_dt b0) (s_time b0))) ->
     exists ma mb counts err2,
       flags (bin_in g (gti_eps * s_dt a) (s_dt a)) (s_time a) ma /\
       flags (bin_in g (gti_eps * s_dt b0) (s_dt b0)) (s_time b0) mb /\
       s_time r = keep ma (s_time a) /\
       Forall2 (fun x y => Qabs (x - y) < s_dt a / 100) (keep ma (s_time a)) (keep mb (s_time b0)) /\
       s_cols r = [(0%nat, counts)] /\ combined f (keep ma ca) (keep mb cb) counts /\
       s_errs r = [(0%nat, err2)] /\ combined Qplus (keep ma ea) (keep mb eb) err2).
Proof.
  intros Hs H. unfold lc_operate in H.
  set (other := if qeq (s_mjdref a) (s_mjdref b) then Ok b else change_mjdref (s_mjdref a) b) in H. injection H as H <- <-.
  split; [apply touch_unchanged|]. split; [destruct (qeq _ _); [apply touch_unchanged|apply unchanged_refl]|].
  apply bind_ok in H. destruct H as (b0 & E0 & H).
  assert (R : referred a b b0).
  { unfold other, referred in *. destruct (qeq _ _) eqn:E; qb; [left; split; [assumption|congruence]|right; split; assumption]. }
  clear E0 other. destruct (gti_of a) as [ga|] eqn:Ga; [|discriminate]. destruct (gti_of b0) as [gb|] eqn:Gb; [|discriminate].
  destruct (s_cols a) as [|[ka ca] [|]] eqn:Ca; try discriminate. destruct (s_cols b0) as [|[kb cb] [|]] eqn:Cb; try discriminate.
  destruct (s_errs a) as [|[la ea] [|]] eqn:Ea; try discriminate. destruct (s_errs b0) as [|[lb eb] [|]] eqn:Eb; try discriminate.
  apply bind_ok in H. destruct H as (g & Eg & H). apply bind_ok in H. destruct H as (ma & Ema & H). apply bind_ok in H. destruct H as (mb & Emb & H).
  rewrite !select_keep in H. destruct (_ && _)%bool eqn:EC; [|discriminate]. injection H as <-. cbn [s_gti s_dt s_mjdref s_time s_cols s_errs].
  apply andb_true_iff in EC. destruct EC as [EL EF]. apply Nat.eqb_eq in EL. rewrite forallb_forall in EF.
  exists b0, ga, gb, g, ka, kb, la, lb, ca, cb, ea, eb. repeat (split; [first [assumption|reflexivity]|]). split.
  - intros G0 G1 NT t. destruct (cross_two_exact srt ga gb Hs G0 G1 NT) as (g' & E' & _ & _ & _ & K). rewrite Eg in E'. injection E' as <-. apply K.
  - intros G0 G1 Ta Tb Da Db Lca Lea Lcb Leb Hb.
    destruct (cross_two_complete srt ga gb Hs G0 G1) as (g' & E' & W & _ & _ & _ & _). rewrite Eg in E'. injection E' as <-.
    assert (Nta : s_time a <> []) by (intros Z; rewrite Z in Ema; discriminate).
    assert (Ntb : s_time b0 <> []) by (intros Z; rewrite Z in Emb; discriminate).
    assert (Ng : g <> []) by (intros Z; rewrite Z in Ema; unfold create_gti_mask in Ema; destruct (s_time a); discriminate).
    destruct (mask_ok numba (s_time a) g (s_dt a)) as (m1 & n1 & X1 & F1); try assumption; [left; assumption|destruct Hb as [Hb|[Hb _]]; [left|right]; assumption|].
    destruct (mask_ok numba (s_time b0) g (s_dt b0)) as (m2 & n2 & X2 & F2); try assumption; [left; assumption|destruct Hb as [Hb|[_ Hb]]; [left|right]; assumption|].
    rewrite X1 in Ema. rewrite X2 in Emb. injection Ema as <-. injection Emb as <-. cbn [fst] in *.
    assert (L : forall (u v : list Q), length u = length (s_time a) -> length v = length (s_time b0) -> length (keep m1 u) = length (keep m2 v)).
    { intros u v Hu Hv. rewrite (keep_len m1 u (s_time a) Hu), (keep_len m2 v (s_time b0) Hv). exact EL. }
    do 4 eexists. split; [exact F1|]. split; [exact F2|]. split; [reflexivity|]. split.
    { apply (zip_forall Qminus (fun d => Qabs d < s_dt a / 100)); [exact EL|]. apply Forall_forall. intros d Hd. specialize (EF d Hd). qb. exact EF. }
    split; [reflexivity|]. split; [apply zip_combined; apply L; assumption|]. split; [reflexivity|]. apply zip_combined. apply L; assumption.
Qed.

(* ---------- StingrayTimeseries arithmetic ---------- *)
Lemma same_list_iff a : forall b, same_list a b = true <-> same_values a b.
Proof.
  unfold same_values. induction a as [|x a IH]; intros [|y b]; simpl; split; intros H; try discriminate; try constructor; try (inversion H; fail).
  - apply andb_true_iff in H. destruct H as [H _]. qb. assumption.
  - apply andb_true_iff in H. apply IH. apply H.
  - inversion H; subst. apply andb_true_iff. split; [qb; assumption|apply IH; assumption].
Qed.
Lemma find_column k c : find_col k c = column k c.
Proof. induction c as [|[k' v] c IH]; [reflexivity|]. simpl. destruct (Nat.eqb k' k); [reflexivity|assumption]. Qed.
Lemma operate_cols_ok f b : forall a r, operate_cols f a b = Ok r ->
  map fst r = map fst a /\
  forall k v, column k a = Some v -> exists w x, column k b = Some w /\ column k r = Some x /\ combined f v w x.
Proof.
  induction a as [|[k v] a IH]; intros r H; simpl in H.
  - injection H as <-. split; [reflexivity|]. discriminate.
  - destruct (find_col k b) as [w|] eqn:F; [|discriminate]. destruct (Nat.eqb _ _) eqn:L; [|discriminate].
    apply bind_ok in H. destruct H as (r' & Hr & H). injection H as <-. destruct (IH r' Hr) as [I1 I2]. apply Nat.eqb_eq in L.
    split; [simpl; rewrite I1; reflexivity|]. intros k0 v0. simpl. destruct (Nat.eqb k k0) eqn:E.
    + apply Nat.eqb_eq in E. subst k0. intros Hv. injection Hv as <-. exists w, (zip_with f v w).
      split; [rewrite <- find_column; assumption|]. split; [reflexivity|]. apply zip_combined. assumption.
    + apply I2.
Qed.
Lemma column_map (h : list Q -> list Q) k c : column k (map_cols h c) = option_map h (column k c).
Proof. induction c as [|[k' v] c IH]; [reflexivity|]. simpl. destruct (Nat.eqb k' k); [reflexivity|assumption]. Qed.

Lemma operate_same srt numba f a b : s_mjdref a == s_mjdref b -> same_gtis (gti_of a) (gti_of b) = true ->
  let '(out, a', b') := operate srt numba f a b in
  unchanged a a' /\ unchanged b b' /\
  (~ same_values (s_time a) (s_time b) -> out = Err ValueError) /\
  (forall r, out = Ok r ->
     same_values (s_time a) (s_time b) /\ s_time r = s_time a /\ gti_of r = gti_of a /\ s_dt r = s_dt a /\ s_mjdref r = s_mjdref a /\
     (forall k v, column k (s_cols a) = Some v -> exists w x, column k (s_cols b) = Some w /\ column k (s_cols r) = Some x /\ combined f v w x) /\
     (forall k v, column k (s_errs a) = Some v -> exists w x, column k (s_errs b) = Some w /\ column k (s_errs r) = Some x /\ combined Qplus v w x) /\
     map fst (s_cols r) = map fst (s_cols a) /\ map fst (s_errs r) = map fst (s_errs a)).
Proof.
  intros Hm Hg. unfold operate. assert (E : qeq (s_mjdref a) (s_mjdref b) = true) by (qb; assumption). rewrite E. rewrite Hg.
  split; [apply touch_unchanged|]. split; [apply touch_unchanged|]. unfold operate_base. cbn [touch with_gti s_time s_cols s_errs s_dt s_mjdref].
  split.
  - intros N. destruct (same_list _ _) eqn:S; [|reflexivity]. apply same_list_iff in S. contradiction.
  - intros r Hr. destruct (same_list _ _) eqn:S; [|discriminate]. apply same_list_iff in S. apply bind_ok in Hr. destruct Hr as (c & Hc & Hr).
    apply bind_ok in Hr. destruct Hr as (e & He & Hr). injection Hr as <-. cbn [s_time s_cols s_errs s_dt s_mjdref].
    destruct (operate_cols_ok _ _ _ _ Hc) as [C1 C2]. destruct (operate_cols_ok _ _ _ _ He) as [D1 D2].
    split; [assumption|]. split; [reflexivity|]. split.
    + transitivity (gti_of (touch a)); [|apply gti_touch]. unfold gti_of at 1. cbn [s_gti s_time s_dt]. change (with_gti (gti_of a) a) with (touch a).
      destruct (gti_of (touch a)) eqn:G; [reflexivity|]. unfold gti_of in G. cbn [touch with_gti s_gti s_time s_dt] in G.
      destruct (gti_of a); [discriminate|]. exact G.
    + repeat split; assumption.
Qed.

(* GTIs differ: the result is right, but both operands are cut down to the common GTIs. *)
Lemma apply_gtis_ok numba g s : s_time s <> [] -> nondecreasing (s_time s) -> g <> [] -> well_formed g -> 0 < s_dt s ->
  (numba = false \/ all_hold_bins g (gti_eps * s_dt s) (s_dt s) (s_time s)) ->
  exists m, flags (bin_in g (gti_eps * s_dt s) (s_dt s)) (s_time s) m /\
    (forall inplace, exists self r, apply_gtis numba (Some g) inplace s = Ok (self, r) /\
       s_time r = keep m (s_time s) /\ s_cols r = map_cols (keep m) (s_cols s) /\ s_errs r = map_cols (keep m) (s_errs s) /\
       s_dt r = s_dt s /\ s_mjdref r = s_mjdref s /\
       (if inplace then self = r /\ gti_of r = Some g else unchanged s self /\ gti_of r = gti_of s)).
Proof.
  intros Nt Ht Ng W Hd Hb. destruct (mask_ok numba (s_time s) g (s_dt s) Nt Ht Ng W (or_introl Hd) Hb) as (m & new & E & F).
  exists m. split; [assumption|]. intros inplace. unfold apply_gtis.
  assert (C : check_gtis g = Ok tt) by (apply check_gtis_iff; split; assumption). rewrite C. cbn [bind]. rewrite E. cbn [bind fst].
  assert (MC : forall c, map_cols (fun l => select l m) c = map_cols (keep m) c).
  { intros c. unfold map_cols. apply map_ext. intros [k v]. cbn. rewrite select_keep. reflexivity. }
  destruct inplace; do 2 eexists; (split; [reflexivity|]); cbn [with_gti apply_mask s_time s_cols s_errs s_dt s_mjdref]; rewrite select_keep, !MC;
    repeat (split; [reflexivity|]).
  - split; reflexivity.
  - split; [apply touch_unchanged|]. unfold gti_of at 1. cbn [apply_mask s_gti s_time s_dt]. destruct (gti_of s) eqn:G; [reflexivity|].
    unfold gti_of in G. destruct (s_gti s); [discriminate|]. destruct (s_time s) as [|t0 ts] eqn:T; [congruence|]. simpl in G.
    assert (exists tl, get_last (t0 :: ts) = Ok tl) as [tl Etl].
    { unfold get_last. destruct (rev (t0 :: ts)) eqn:R; [|eexists; reflexivity]. apply (f_equal (@rev Q)) in R. rewrite rev_involutive in R. discriminate. }
    rewrite Etl in G. discriminate.
Qed.
Lemma operate_cut srt numba f a b ga gb g r a' b' : sorts_by t_end srt -> s_mjdref a == s_mjdref b ->
  gti_of a = Some ga -> gti_of b = Some gb -> good ga -> good gb -> same_gtis (Some ga) (Some gb) = false ->
  cross_two_gtis srt ga gb = Ok g -> nondecreasing (s_time a) -> nondecreasing (s_time b) -> 0 < s_dt a -> 0 < s_dt b ->
  (numba = false \/ (all_hold_bins g (gti_eps * s_dt a) (s_dt a) (s_time a) /\ all_hold_bins g (gti_eps * s_dt b) (s_dt b) (s_time b))) ->
  operate srt numba f a b = (Ok r, a', b') ->
  exists ma mb,
    flags (bin_in g (gti_eps * s_dt a) (s_dt a)) (s_time a) ma /\ flags (bin_in g (gti_eps * s_dt b) (s_dt b)) (s_time b) mb /\
    same_values (keep ma (s_time a)) (keep mb (s_time b)) /\
    s_time r = keep ma (s_time a) /\ gti_of r = Some g /\ s_mjdref r = s_mjdref a /\ s_dt r = s_dt a /\
    (forall k v, column k (s_cols a) = Some v -> exists w x, column k (s_cols b) = Some w /\ column k (s_cols r) = Some x /\ combined f (keep ma v) (keep mb w) x) /\
    (forall k v, column k (s_errs a) = Some v -> exists w x, column k (s_errs b) = Some w /\ column k (s_errs r) = Some x /\ combined Qplus (keep ma v) (keep mb w) x) /\
    (* the operands are not what they were *)
    s_time a' = keep ma (s_time a) /\ gti_of a' = Some g /\ s_cols a' = map_cols (keep ma) (s_cols a) /\
    s_time b' = keep mb (s_time b) /\ gti_of b' = Some g /\ s_cols b' = map_cols (keep mb) (s_cols b).
Proof.
  intros Hs Hm Ga Gb G0 G1 Hg Eg Ta Tb Da Db Hb H. unfold operate in H.
  assert (E : qeq (s_mjdref a) (s_mjdref b) = true) by (qb; assumption). rewrite E in H. rewrite Ga, Gb, Hg, Eg in H.
  destruct (cross_two_complete srt ga gb Hs G0 G1) as (g' & E' & W & _ & _ & _ & _). rewrite Eg in E'. injection E' as <-.
  destruct (apply_gtis numba (Some g) true (touch a)) as [[x y]|] eqn:Ea; [|discriminate].
  destruct (apply_gtis numba (Some g) true (touch b)) as [[x' y']|] eqn:Eb; [|discriminate].
  injection H as H <- <-.
  assert (Ng : g <> []). { intros ->. unfold apply_gtis in Ea. cbn in Ea. discriminate. }
  assert (Nta : s_time a <> []). { intros Z. unfold apply_gtis in Ea. apply bind_ok in Ea. destruct Ea as (? & _ & Ea). cbn [touch with_gti s_time] in Ea. rewrite Z in Ea. discriminate. }
  assert (Ntb : s_time b <> []). { intros Z. unfold apply_gtis in Eb. apply bind_ok in Eb. destruct Eb as (? & _ & Eb). cbn [touch with_gti s_time] in Eb. rewrite Z in Eb. discriminate. }
  destruct (apply_gtis_ok numba g (touch a)) as (ma & Fa & Ka); try assumption; [destruct Hb as [Hb|[Hb _]]; [left|right]; assumption|].
  destruct (apply_gtis_ok numba g (touch b)) as (mb & Fb & Kb); try assumption; [destruct Hb as [Hb|[_ Hb]]; [left|right]; assumption|].
  destruct (Ka true) as (self & ra & E1 & A1 & A2 & A3 & A4 & A5 & -> & A6). destruct (Kb true) as (self' & rb & E2 & B1 & B2 & B3 & B4 & B5 & -> & B6).
  rewrite Ea in E1. rewrite Eb in E2. injection E1 as -> _. injection E2 as -> _.
  cbn [touch with_gti s_time s_cols s_errs s_dt s_mjdref] in *.
  exists ma, mb. split; [assumption|]. split; [assumption|]. unfold operate_base in H. rewrite A1, B1, A2, B2, A3, B3 in H.
  destruct (same_list _ _) eqn:S; [|discriminate]. apply same_list_iff in S. apply bind_ok in H. destruct H as (c & Hc & H).
  apply bind_ok in H. destruct H as (e & He & H). injection H as <-. cbn [s_time s_cols s_errs s_dt s_mjdref].
  destruct (operate_cols_ok _ _ _ _ Hc) as [_ C2]. destruct (operate_cols_ok _ _ _ _ He) as [_ D2].
  split; [assumption|]. split; [reflexivity|]. split; [unfold gti_of at 1; cbn [s_gti]; rewrite A6; reflexivity|]. split; [assumption|]. split; [assumption|].
  split; [|split].
  - intros k v Hv. destruct (C2 k (keep ma v)) as (w & z & Hw & Hz & K); [rewrite column_map, Hv; reflexivity|].
    rewrite column_map in Hw. destruct (column k (s_cols b)) as [w0|]; [|discriminate]. injection Hw as <-. exists w0, z. repeat split; try reflexivity; assumption || apply K.
  - intros k v Hv. destruct (D2 k (keep ma v)) as (w & z & Hw & Hz & K); [rewrite column_map, Hv; reflexivity|].
    rewrite column_map in Hw. destruct (column k (s_errs b)) as [w0|]; [|discriminate]. injection Hw as <-. exists w0, z. repeat split; try reflexivity; assumption || apply K.
  - repeat split; assumption.
Qed.
