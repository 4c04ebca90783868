(* P_helpers.v: proofs about the small helpers of utils.py. *)
From Verif Require Import Np Lib S_gti S_seg S_utils M_gti M_seg M_utils P_seg_regions P_seg_cut P_rebin P_rebin2 P_hist.
From Coq Require Import Lqa Sorted Permutation.
Open Scope Q_scope.

(* ---------- find_nearest ---------- *)
Lemma ssr_spec times v : nondecreasing times ->
  (forall k t, nth_error times k = Some t -> ((k < searchsorted_right times v)%nat <-> t <= v)) /\
  (searchsorted_right times v <= length times)%nat.
Proof.
  intros Hs. apply (proj2 (ss_nth Qle times)) in Hs. induction Hs as [|a l Hs IH Hf]; simpl.
  - split; [|lia]. intros [|k] t; discriminate.
  - destruct IH as [IH1 IH2]. destruct (qle a v) eqn:E; qb; (split; [|lia]).
    + intros [|k] t H; [injection H as <-; split; [intros _; assumption|lia]|]. simpl in H. rewrite <- (IH1 _ _ H). lia.
    + intros k t H. split; [lia|]. intros C. exfalso. destruct k as [|k]; [injection H as <-; lra|]. simpl in H.
      apply nth_error_In in H. rewrite Forall_forall in Hf. specialize (Hf t H). lra.
Qed.
Lemma abs_le_l a : a <= Qabs a.
Proof. apply Qle_Qabs. Qed.
Lemma zget_neg1 (l : list Q) : zget l (-1) = get_last l.
Proof.
  destruct l as [|a l' _] using rev_ind; [reflexivity|]. unfold zget, get_last. rewrite rev_unit.
  change (0 <=? -1)%Z with false. cbv iota. rewrite app_length. cbn [length].
  replace (-1 + Z.of_nat (length l' + 1))%Z with (Z.of_nat (length l')) by lia.
  replace (0 <=? Z.of_nat (length l'))%Z with true by (symmetry; apply Z.leb_le; lia).
  rewrite Nat2Z.id. unfold get. rewrite nth_error_app2 by lia. rewrite Nat.sub_diag. reflexivity.
Qed.
Lemma zget_nat (l : list Q) i : zget l (Z.of_nat i) = get l i.
Proof. unfold zget. replace (0 <=? Z.of_nat i)%Z with true by (symmetry; apply Z.leb_le; lia). rewrite Nat2Z.id. reflexivity. Qed.

Lemma find_nearest_main array value left : nondecreasing array -> array <> [] ->
  exists a i, find_nearest array value left = Ok (a, Z.of_nat i) /\ nth_error array i = Some a /\
    forall k b, nth_error array k = Some b -> Qabs (value - a) <= Qabs (value - b).
Proof.
  intros Hs Hne. unfold find_nearest.
  set (p := if left then searchsorted_left array value else searchsorted_right array value).
  assert (Hp : (forall k t, nth_error array k = Some t -> ((k < p)%nat -> t <= value) /\ ((p <= k)%nat -> value <= t)) /\ (p <= length array)%nat).
  { unfold p. destruct left.
    - destruct (ssl_spec array value Hs) as [A B]. split; [|assumption]. intros k t H. destruct (A k t H) as [A1 A2]. split.
      + intros C. apply A1 in C. lra.
      + intros C. apply Qnot_lt_le. intros D. apply A2 in D. lia.
    - destruct (ssr_spec array value Hs) as [A B]. split; [|assumption]. intros k t H. destruct (A k t H) as [A1 A2]. split.
      + assumption.
      + intros C. apply Qlt_le_weak. apply Qnot_le_lt. intros D. apply A2 in D. lia. }
  destruct Hp as [P Hlen].
  assert (Hpos : (0 < length array)%nat) by (destruct array; [congruence|simpl; lia]).
  assert (Hmon : forall i j a b, (i <= j)%nat -> nth_error array i = Some a -> nth_error array j = Some b -> a <= b).
  { intros i j a b Hij Ha Hb. destruct (Nat.eq_dec i j) as [e|e]; [subst; assert (a = b) by congruence; subst; lra|].
    apply (Hs i j); [lia|assumption|assumption]. }
  assert (HabsL : forall t, t <= value -> Qabs (value - t) == value - t) by (intros; apply Qabs_pos; lra).
  assert (HabsR : forall t, value <= t -> Qabs (value - t) == t - value).
  { intros t Ht. rewrite Qabs_neg by lra. ring. }
  destruct (Z.of_nat p =? Z.of_nat (length array))%Z eqn:E.
  - apply Z.eqb_eq in E. assert (Ep : p = length array) by lia. clear E.
    destruct (nth_error_ex array (p - 1)) as [a Ea]; [lia|].
    exists a, (p - 1)%nat. replace (Z.of_nat p - 1)%Z with (Z.of_nat (p - 1)) by lia. rewrite zget_nat. unfold get. rewrite Ea.
    cbn [bind]. split; [reflexivity|]. split; [reflexivity|]. intros k b Hb.
    assert (Hk : (k < length array)%nat) by (apply nth_error_Some; congruence).
    destruct (P _ _ Ea) as [A1 _]. destruct (P _ _ Hb) as [B1 _]. specialize (A1 ltac:(lia)). specialize (B1 ltac:(lia)).
    rewrite HabsL, HabsL by assumption. assert (b <= a) by (apply (Hmon k (p - 1)%nat); [lia|assumption|assumption]). lra.
  - apply Z.eqb_neq in E. assert (Hlt : (p < length array)%nat) by lia. clear E.
    destruct (nth_error_ex array p Hlt) as [b Eb].
    rewrite zget_nat. unfold get at 1. rewrite Eb.
    destruct (P _ _ Eb) as [_ Pb]. specialize (Pb (le_n _)).
    assert (Hright : forall k c, (p <= k)%nat -> nth_error array k = Some c -> Qabs (value - b) <= Qabs (value - c)).
    { intros k c Hk Hc. destruct (P _ _ Hc) as [_ Pc]. specialize (Pc Hk). rewrite HabsR, HabsR by assumption.
      assert (b <= c) by (apply (Hmon p k); assumption). lra. }
    destruct p as [|q].
    + change (Z.of_nat 0 - 1)%Z with (-1)%Z. rewrite zget_neg1.
      destruct (nth_error_ex array (length array - 1)) as [l El]; [lia|]. rewrite (get_last_nth _ _ El). cbn [bind].
      assert (Hr := Hright _ _ (Nat.le_0_l _) El).
      replace (qlt (Qabs (value - l)) (Qabs (value - b))) with false by (symmetry; apply qlt_f; assumption).
      exists b, 0%nat. split; [reflexivity|]. split; [assumption|]. intros k c Hc. apply (Hright k); [lia|assumption].
    + replace (Z.of_nat (S q) - 1)%Z with (Z.of_nat q) by lia. rewrite zget_nat. unfold get.
      destruct (nth_error_ex array q) as [a Ea]; [lia|]. rewrite Ea. cbn [bind].
      destruct (P _ _ Ea) as [Pa _]. specialize (Pa (Nat.lt_succ_diag_r _)).
      assert (Hleft : forall k c, (k <= q)%nat -> nth_error array k = Some c -> Qabs (value - a) <= Qabs (value - c)).
      { intros k c Hk Hc. destruct (P _ _ Hc) as [Pc _]. specialize (Pc ltac:(lia)). rewrite HabsL, HabsL by assumption.
        assert (c <= a) by (apply (Hmon k q); assumption). lra. }
      destruct (qlt (Qabs (value - a)) (Qabs (value - b))) eqn:E; qb.
      * exists a, q. split; [reflexivity|]. split; [assumption|]. intros k c Hc.
        destruct (Nat.le_gt_cases k q) as [H|H]; [apply (Hleft k); assumption|].
        assert (Hr := Hright k c ltac:(lia) Hc). lra.
      * exists b, (S q). split; [reflexivity|]. split; [assumption|]. intros k c Hc.
        destruct (Nat.le_gt_cases k q) as [H|H]; [|apply (Hright k); [lia|assumption] ].
        assert (Hl := Hleft k c H Hc). lra.
Qed.
Lemma find_nearest_empty value left : find_nearest [] value left = Err IndexError.
Proof. destruct left; reflexivity. Qed.

(* ---------- nearest_power_of_two ---------- *)
Lemma npt_refuted : exists x p, power_of_two p /\ (Z.abs (x - p) < Z.abs (x - nearest_power_of_two x))%Z.
Proof. exists 10%Z, 8%Z. split; [exists 3%Z; split; [lia|reflexivity]|]. vm_compute. reflexivity. Qed.
Lemma npt_one_refuted : nearest_power_of_two 1 = 2%Z.
Proof. reflexivity. Qed.
Lemma npt_main x : (2 <= x)%Z -> exists k, (0 <= k)%Z /\ (2 ^ k < x <= 2 ^ (k + 1))%Z /\
  nearest_power_of_two x = (if (x =? 2 ^ k + 1)%Z && (2 <=? k)%Z then 2 ^ k else 2 ^ (k + 1))%Z.
Proof.
  intros Hx. exists (Z.log2 (x - 1)). set (k := Z.log2 (x - 1)).
  assert (Hk := Z.log2_spec (x - 1) ltac:(lia)). fold k in Hk. rewrite <- Z.add_1_r in Hk.
  assert (Hk0 : (0 <= k)%Z) by apply Z.log2_nonneg.
  split; [assumption|]. split; [lia|].
  assert (Hp : (2 ^ (k + 1) = 2 * 2 ^ k)%Z) by (rewrite Z.pow_add_r by lia; lia).
  unfold nearest_power_of_two. replace (x =? 0)%Z with false by (symmetry; apply Z.eqb_neq; lia).
  unfold bit_length at 2 4. replace (x - 1 =? 0)%Z with false by (symmetry; apply Z.eqb_neq; lia).
  rewrite Z.abs_eq by lia. fold k.
  destruct (x =? 2 ^ k + 1)%Z eqn:E1; [apply Z.eqb_eq in E1|apply Z.eqb_neq in E1].
  - assert (El : (2 ^ bit_length (x - 2) = 2 ^ k)%Z).
    { unfold bit_length. destruct (x - 2 =? 0)%Z eqn:E2; [apply Z.eqb_eq in E2|apply Z.eqb_neq in E2].
      - assert (k = 0)%Z by (unfold k; replace (x - 1)%Z with 1%Z by lia; reflexivity). subst k. rewrite H. reflexivity.
      - f_equal. rewrite Z.abs_eq by lia. 
        assert (H : Z.log2 (x - 2) = (k - 1)%Z).
        { apply Z.log2_unique; [|]; assert (Hk1 : (1 <= k)%Z).
          - destruct (Z.eq_dec k 0) as [e|e]; [|lia]. rewrite e in E1. simpl in E1. lia.
          - lia.
          - destruct (Z.eq_dec k 0) as [e|e]; [|lia]. rewrite e in E1. simpl in E1. lia.
          - replace (Z.succ (k - 1)) with k by lia. assert (2 ^ k = 2 * 2 ^ (k - 1))%Z.
            { rewrite <- Z.pow_succ_r by lia. f_equal. lia. } assert (1 <= 2 ^ (k - 1))%Z by (assert (0 < 2 ^ (k - 1))%Z by (apply Z.pow_pos_nonneg; lia); lia). lia. }
        lia. }
    rewrite El. cbn [andb]. destruct (2 <=? k)%Z eqn:E2; [apply Z.leb_le in E2|apply Z.leb_gt in E2].
    + assert (4 <= 2 ^ k)%Z by (change 4%Z with (2 ^ 2)%Z; apply Z.pow_le_mono_r; lia).
      replace (x - 2 ^ k <? 2 ^ (k + 1) - x)%Z with true by (symmetry; apply Z.ltb_lt; lia). reflexivity.
    + assert (2 ^ k <= 2)%Z by (change 2%Z with (2 ^ 1)%Z at 2; apply Z.pow_le_mono_r; lia).
      replace (x - 2 ^ k <? 2 ^ (k + 1) - x)%Z with false by (symmetry; apply Z.ltb_ge; lia). reflexivity.
  - cbn [andb]. assert (El : (2 ^ bit_length (x - 2) = 2 ^ (k + 1))%Z).
    { unfold bit_length. destruct (x - 2 =? 0)%Z eqn:E2; [apply Z.eqb_eq in E2|apply Z.eqb_neq in E2].
      - exfalso. apply E1. assert (k = 0)%Z by (unfold k; replace (x - 1)%Z with 1%Z by lia; reflexivity). rewrite H. simpl. lia.
      - rewrite Z.abs_eq by lia. do 2 f_equal. apply Z.log2_unique; [assumption|]. rewrite <- Z.add_1_r. lia. }
    rewrite El. destruct (x - 2 ^ (k + 1) <? 2 ^ (k + 1) - x)%Z; reflexivity.
Qed.
Lemma npt_power x : (2 <= x)%Z -> power_of_two (nearest_power_of_two x) /\ (x <= 2 * nearest_power_of_two x)%Z /\ (nearest_power_of_two x < 2 * x)%Z.
Proof.
  intros Hx. destruct (npt_main x Hx) as (k & Hk & B & ->).
  assert (Hp : (2 ^ (k + 1) = 2 * 2 ^ k)%Z) by (rewrite Z.pow_add_r by lia; lia).
  destruct ((x =? 2 ^ k + 1)%Z && (2 <=? k)%Z)%bool; (split; [eexists; split; [|reflexivity]; lia|]); lia.
Qed.

(* ---------- fix_segment_size_to_integer_samples ---------- *)
Lemma fix_segment_main s dt tol seg n : 0 < dt -> fix_segment_size s dt tol = (seg, n) ->
  seg == inject_Z n * dt /\ s - dt < seg /\ seg < s + dt /\ (s < seg -> seg < s + tol * dt) /\
  (seg < s -> s + tol * dt <= seg + dt \/ s == seg).
Proof.
  intros Hdt E. unfold fix_segment_size in E. 
  assert (Inj : forall A B (a a' : A) (b b' : B), (a, b) = (a', b') -> a' = a /\ b' = b) by (intros; split; congruence).
  apply Inj in E. destruct E as [Eseg En]. rewrite <- En in Eseg. subst seg. clear Inj.
  assert (Ef := qdiv_mul s dt Hdt). set (f := s / dt) in *.
  assert (F1 := Qfloor_le f). assert (F2 := Qlt_floor f). assert (C1 := Qle_ceiling f). assert (C2 := Qceiling_lt f).
  rewrite inject_Z_plus in F2. unfold Z.sub in C2. rewrite inject_Z_plus in C2. change (inject_Z 1) with 1 in *. change (inject_Z (Z.opp 1)) with (-(1)) in *.
  split; [reflexivity|].
  assert (Hmul : forall a b, a < b -> a * dt < b * dt) by (intros; apply Qmult_lt_compat_r; assumption).
  assert (Hmul' : forall a b, a <= b -> a * dt <= b * dt) by (intros; apply Qmult_le_compat_r; [assumption|lra]).
  destruct (qlt (inject_Z (Qceiling f) - f) tol) eqn:Et; qb; subst n.
  - assert (M1 := Hmul _ _ C2). assert (M2 := Hmul' _ _ C1). assert (M3 := Hmul _ _ Et).
    split; [lra|]. split; [lra|]. split; [lra|]. intros; lra.
  - assert (M1 := Hmul _ _ F2). assert (M2 := Hmul' _ _ F1). assert (M3 := Hmul' _ _ Et).
    split; [lra|]. split; [lra|]. split; [lra|]. intros _.
    destruct (Z.eq_dec (Qceiling f) (Qfloor f)) as [e|e].
    + right. rewrite e in C1. assert (f == inject_Z (Qfloor f)) by lra. rewrite <- H. symmetry. assumption.
    + left. assert (Hc : (Qceiling f <= Qfloor f + 1)%Z).
      { destruct (Z.le_gt_cases (Qceiling f) (Qfloor f + 1)) as [H|H]; [assumption|]. exfalso.
        assert (Hz : inject_Z (Qfloor f + 2) <= inject_Z (Qceiling f)) by (rewrite <- Zle_Qle; lia).
        rewrite inject_Z_plus in Hz. change (inject_Z 2) with 2 in Hz. lra. }
      assert (Hz : inject_Z (Qceiling f) <= inject_Z (Qfloor f + 1)) by (rewrite <- Zle_Qle; lia).
      rewrite inject_Z_plus in Hz. change (inject_Z 1) with 1 in Hz. assert (M4 := Hmul' _ _ Hz). lra.
Qed.
Lemma fix_segment_exact k dt tol : 0 < dt -> snd (fix_segment_size (inject_Z k * dt) dt tol) = k.
Proof.
  intros Hdt. unfold fix_segment_size. cbn [snd]. assert (E : inject_Z k * dt / dt == inject_Z k) by (field; lra).
  assert (Ec : Qceiling (inject_Z k * dt / dt) = k) by (rewrite (Qceiling_comp _ _ E); apply Qceiling_Z).
  assert (Ef : Qfloor (inject_Z k * dt / dt) = k) by (rewrite (Qfloor_comp _ _ E); apply Qfloor_Z).
  rewrite Ec, Ef. destruct (qlt _ tol); reflexivity.
Qed.

(* ---------- look_for_array_in_array ---------- *)
Lemma look_for_main a1 a2 :
  match look_for_array_in_array a1 a2 with
  | Some v => exists i, nth_error a1 i = Some v /\ (exists w, In w a2 /\ v == w) /\
                forall k u w, (k < i)%nat -> nth_error a1 k = Some u -> In w a2 -> ~ u == w
  | None => forall u w, In u a1 -> In w a2 -> ~ u == w
  end.
Proof.
  assert (Hex : forall u, existsb (qeq u) a2 = true <-> exists w, In w a2 /\ u == w).
  { intros u. rewrite existsb_exists. split; intros (w & H1 & H2); exists w; (split; [assumption|]); [apply qeq_t in H2|apply qeq_t]; assumption. }
  unfold look_for_array_in_array. induction a1 as [|a a1 IH]; [intros u w []|]. cbn [find].
  destruct (existsb (qeq a) a2) eqn:E.
  - apply Hex in E. exists 0%nat. split; [reflexivity|]. split; [assumption|]. intros k u w Hk. lia.
  - assert (Hn : forall w, In w a2 -> ~ a == w).
    { intros w Hw C. assert (existsb (qeq a) a2 = true) by (apply Hex; exists w; split; assumption). congruence. }
    destruct (find _ a1) as [v|].
    + destruct IH as (i & H1 & H2 & H3). exists (S i). split; [assumption|]. split; [assumption|].
      intros [|k] u w Hk Hu Hw; [injection Hu as <-; apply Hn; assumption|]. apply (H3 k u w); [lia|assumption|assumption].
    + intros u w [ <- | Hu] Hw; [apply Hn; assumption|apply IH; assumption].
Qed.

(* ---------- equal_count_energy_ranges ---------- *)
Lemma count_perm {A} (p : A -> bool) l l' : Permutation l l' -> count p l = count p l'.
Proof. intros H. induction H; cbn [count]; lia. Qed.
Lemma count_firstn {A} (p : A -> bool) l : forall n, (n <= length l)%nat -> (forall k a, (k < n)%nat -> nth_error l k = Some a -> p a = true) -> (n <= count p l)%nat.
Proof.
  induction l as [|a l IH]; intros [|n] Hn H; try (cbn [count]; lia); [simpl in Hn; lia|]. cbn [count].
  rewrite (H 0%nat a) by (reflexivity || lia). assert (n <= count p l)%nat; [|lia]. apply IH; [simpl in Hn; lia|]. intros k b Hk Hb. apply (H (S k)); [lia|assumption].
Qed.
Lemma count_skipn {A} (p : A -> bool) l : forall n, (forall k a, (n <= k)%nat -> nth_error l k = Some a -> p a = false) -> (count p l <= n)%nat.
Proof.
  induction l as [|a l IH]; intros n H; [cbn [count]; lia|]. cbn [count]. destruct n as [|n].
  - rewrite (H 0%nat a) by (reflexivity || lia). assert (count p l <= 0)%nat; [|lia]. apply IH. intros k b Hk Hb. apply (H (S k)); [lia|assumption].
  - assert (count p l <= n)%nat by (apply IH; intros k b Hk Hb; apply (H (S k)); [lia|assumption]). destruct (p a); lia.
Qed.
Lemma np_sort_nd l : nondecreasing (np_sort l).
Proof.
  assert (H := isort_by_sorted (fun x : Q => x) l). unfold nondecreasing. apply (proj1 (ss_nth Qle (np_sort l))). exact H.
Qed.
Lemma percentile_main l q v : l <> [] -> 0 <= q -> q < 100 -> percentile l q = Ok v ->
  let pos := q / 100 * inject_Z (Z.of_nat (length l) - 1) in
  interpolated l pos v /\
  inject_Z (Z.of_nat (count (fun e => qlt e v) l)) <= pos + 1 /\ pos < inject_Z (Z.of_nat (count (fun e => qle e v) l)).
Proof.
  intros Hne H0 H1 E pos. unfold percentile in E. fold pos in E.
  assert (Hlen : (0 < length l)%nat) by (destruct l; [congruence|simpl; lia]).
  assert (HL : length (np_sort l) = length l) by (apply Permutation_length, isort_by_perm).
  assert (Hq : 0 <= q / 100 /\ q / 100 < 1) by (unfold Qdiv; change (/ 100) with (1 # 100); split; lra).
  assert (Hz : 0 <= inject_Z (Z.of_nat (length l) - 1)) by (change 0 with (inject_Z 0); rewrite <- Zle_Qle; lia).
  assert (Hpos : 0 <= pos) by (unfold pos; apply Qmult_le_0_compat; [apply Hq|assumption]).
  assert (Hmax : pos <= inject_Z (Z.of_nat (length l) - 1)).
  { unfold pos. setoid_replace (inject_Z (Z.of_nat (length l) - 1)) with (1 * inject_Z (Z.of_nat (length l) - 1)) at 2 by ring.
    apply Qmult_le_compat_r; [lra|assumption]. }
  assert (F1 := Qfloor_le pos). assert (F2 := Qlt_floor pos). rewrite inject_Z_plus in F2. change (inject_Z 1) with 1 in F2.
  assert (Hf0 : (0 <= Qfloor pos)%Z) by (change 0%Z with (Qfloor 0); apply Qfloor_resp_le; assumption).
  set (i := Z.to_nat (Qfloor pos)) in *.
  assert (Hi : Z.of_nat i = Qfloor pos) by (unfold i; lia).
  assert (Hil : (i < length l)%nat).
  { assert (Hle : inject_Z (Qfloor pos) <= inject_Z (Z.of_nat (length l) - 1)) by lra. rewrite <- Zle_Qle in Hle. lia. }
  apply bind_ok in E. destruct E as (a & Ea & E). apply bind_ok in E. destruct E as (b & Eb & E).
  unfold get in Ea, Eb. destruct (nth_error (np_sort l) i) as [a'|] eqn:Ea'; [|discriminate]. injection Ea as <-.
  destruct (nth_error (np_sort l) (Nat.min (S i) (length l - 1))) as [b'|] eqn:Eb'; [|discriminate]. injection Eb as <-.
  assert (Hnd := np_sort_nd l).
  assert (Hmon : forall i j a b, (i <= j)%nat -> nth_error (np_sort l) i = Some a -> nth_error (np_sort l) j = Some b -> a <= b).
  { intros i' j c d Hij Ha Hb. destruct (Nat.eq_dec i' j) as [e|e]; [subst; assert (c = d) by congruence; subst; lra|].
    apply (Hnd i' j); [lia|assumption|assumption]. }
  assert (Hab : a' <= b') by (apply (Hmon i (Nat.min (S i) (length l - 1))); [lia|assumption|assumption]).
  set (w := pos - inject_Z (Qfloor pos)) in *.
  split.
  { exists (np_sort l), i, a'. split; [apply isort_by_perm|]. split; [assumption|]. split; [assumption|]. rewrite Hi. split; [lra|].
    injection E as <-. split.
    - intros c Hc. assert (Hsi : (S i < length l)%nat) by (rewrite <- HL; apply nth_error_Some; congruence).
      replace (Nat.min (S i) (length l - 1)) with (S i) in Eb' by lia. assert (b' = c) by congruence. subst c. reflexivity.
    - intros Hc. assert (Hsi : (length l <= S i)%nat) by (rewrite <- HL; apply nth_error_None; assumption).
      replace (Nat.min (S i) (length l - 1)) with i in Eb' by lia. assert (b' = a') by congruence. subst b'. ring. }
  assert (Hv : a' <= v /\ v <= b').
  { injection E as <-. assert (M1 : 0 <= w * (b' - a')) by (apply Qmult_le_0_compat; unfold w; lra).
    assert (M2 : w * (b' - a') <= 1 * (b' - a')) by (apply Qmult_le_compat_r; unfold w; lra). lra. }
  assert (Hperm := isort_by_perm (fun x : Q => x) l).
  rewrite <- (count_perm (fun e => qlt e v) _ _ Hperm), <- (count_perm (fun e => qle e v) _ _ Hperm). fold (np_sort l).
  split.
  - assert (C : (count (fun e => qlt e v) (np_sort l) <= S i)%nat).
    { apply count_skipn. intros k c Hk Hc. apply qlt_f.
      assert (Hkl : (k < length l)%nat) by (rewrite <- HL; apply nth_error_Some; congruence).
      assert (b' <= c) by (apply (Hmon (Nat.min (S i) (length l - 1)) k); [lia|assumption|assumption]). lra. }
    apply zof_le in C. rewrite zof_S, Hi in C. lra.
  - assert (C : (S i <= count (fun e => qle e v) (np_sort l))%nat).
    { apply count_firstn; [lia|]. intros k c Hk Hc. apply qle_t. assert (c <= a') by (apply (Hmon k i); [lia|assumption|assumption]). lra. }
    apply zof_le in C. rewrite zof_S, Hi in C. lra.
Qed.
Lemma percentile_ok l q : l <> [] -> 0 <= q -> q < 100 -> exists v, percentile l q = Ok v.
Proof.
  intros Hne H0 H1. unfold percentile. set (pos := q / 100 * inject_Z (Z.of_nat (length l) - 1)).
  assert (Hlen : (0 < length l)%nat) by (destruct l; [congruence|simpl; lia]).
  assert (HL : length (np_sort l) = length l) by (apply Permutation_length, isort_by_perm).
  assert (Hz : 0 <= inject_Z (Z.of_nat (length l) - 1)) by (change 0 with (inject_Z 0); rewrite <- Zle_Qle; lia).
  assert (Hmax : pos <= inject_Z (Z.of_nat (length l) - 1)).
  { unfold pos. setoid_replace (inject_Z (Z.of_nat (length l) - 1)) with (1 * inject_Z (Z.of_nat (length l) - 1)) at 2 by ring.
    apply Qmult_le_compat_r; [unfold Qdiv; change (/ 100) with (1 # 100); lra|assumption]. }
  assert (F1 := Qfloor_le pos).
  assert (Hil : (Z.to_nat (Qfloor pos) < length l)%nat).
  { assert (Hle : inject_Z (Qfloor pos) <= inject_Z (Z.of_nat (length l) - 1)) by lra. rewrite <- Zle_Qle in Hle. lia. }
  unfold get. destruct (nth_error_ex (np_sort l) (Z.to_nat (Qfloor pos))) as [a ->]; [lia|].
  destruct (nth_error_ex (np_sort l) (Nat.min (S (Z.to_nat (Qfloor pos))) (length l - 1))) as [b ->]; [lia|].
  cbn [bind]. eexists. reflexivity.
Qed.
Lemma map_result_nth {A B} (f : A -> result B) l r : map_result f l = Ok r ->
  length r = length l /\ forall i a, nth_error l i = Some a -> exists b, nth_error r i = Some b /\ f a = Ok b.
Proof.
  revert r. induction l as [|a l IH]; intros r E; cbn [map_result] in E.
  - injection E as <-. split; [reflexivity|]. intros [|i]; discriminate.
  - apply bind_ok in E. destruct E as (b & Eb & E). apply bind_ok in E. destruct E as (r' & Er & E). injection E as <-.
    destruct (IH r' Er) as [H1 H2]. split; [simpl; lia|]. intros [|i] c Hc.
    + injection Hc as <-. exists b. split; [reflexivity|assumption].
    + apply H2. assumption.
Qed.
Lemma map_result_ok {A B} (f : A -> result B) l : (forall a, In a l -> exists b, f a = Ok b) -> exists r, map_result f l = Ok r.
Proof.
  induction l as [|a l IH]; intros H; cbn [map_result]; [eexists; reflexivity|].
  destruct (H a (or_introl eq_refl)) as [b ->]. destruct IH as [r ->]; [intros c Hc; apply H; right; assumption|]. cbn [bind]. eexists. reflexivity.
Qed.
Lemma qmin_list_ok l : l <> [] -> exists m, qmin_list l = Ok m /\ In m l /\ forall e, In e l -> m <= e.
Proof.
  destruct l as [|a l]; [congruence|intros _]. cbn [qmin_list].
  assert (H : forall l a, In (fold_left qmin l a) (a :: l) /\ forall e, In e (a :: l) -> fold_left qmin l a <= e).
  { clear. induction l as [|b l IH]; intros a; cbn [fold_left].
    - split; [left; reflexivity|]. intros e [ <- | [] ]. lra.
    - destruct (IH (qmin a b)) as [I1 I2]. assert (I3 := I2 _ (or_introl eq_refl)). destruct (qmin_cases a b) as [ [E L] | [E L] ]; rewrite E in *.
      + split; [destruct I1 as [I1|I1]; [left; assumption|right; right; assumption]|].
        intros e [ <- | [ <- | He] ]; [assumption|lra|apply I2; right; assumption].
      + split; [right; assumption|]. intros e [ <- | [ <- | He] ]; [lra|assumption|apply I2; right; assumption]. }
  exists (fold_left qmin l a). split; [reflexivity|]. apply H.
Qed.
Lemma qmax_list_ok l : l <> [] -> exists m, qmax_list l = Ok m /\ In m l /\ forall e, In e l -> e <= m.
Proof.
  destruct l as [|a l]; [congruence|intros _]. cbn [qmax_list].
  assert (H : forall l a, In (fold_left qmax l a) (a :: l) /\ forall e, In e (a :: l) -> e <= fold_left qmax l a).
  { clear. induction l as [|b l IH]; intros a; cbn [fold_left].
    - split; [left; reflexivity|]. intros e [ <- | [] ]. lra.
    - destruct (IH (qmax a b)) as [I1 I2]. assert (I3 := I2 _ (or_introl eq_refl)). destruct (qmax_cases a b) as [ [E L] | [E L] ]; rewrite E in *.
      + split; [destruct I1 as [I1|I1]; [left; assumption|right; right; assumption]|].
        intros e [ <- | [ <- | He] ]; [assumption|lra|apply I2; right; assumption].
      + split; [right; assumption|]. intros e [ <- | [ <- | He] ]; [lra|assumption|apply I2; right; assumption]. }
  exists (fold_left qmax l a). split; [reflexivity|]. apply H.
Qed.
(* Interior edge k of n is the interpolated quantile k/n of the selected energies, and the number of selected
   energies below it is k (N-1) / n up to one. *)
Lemma equal_count_main energies n emin emax : (1 < n)%nat -> energies <> [] ->
  exists lo hi, lower_bound_is energies emin lo /\ upper_bound_is energies emax hi /\
  let en := filter (fun e => qle lo e && qle e hi)%bool energies in
  (en <> [] ->
  exists edges, equal_count_energy_ranges energies n emin emax = Ok edges /\ length edges = S n /\
    nth_error edges 0 = Some lo /\ nth_error edges n = Some hi /\
    forall k e, (0 < k < n)%nat -> nth_error edges k = Some e ->
      let pos := inject_Z (Z.of_nat k) / inject_Z (Z.of_nat n) * inject_Z (Z.of_nat (length en) - 1) in
      interpolated en pos e /\
      inject_Z (Z.of_nat (count (fun u => qlt u e) en)) <= pos + 1 /\ pos < inject_Z (Z.of_nat (count (fun u => qle u e) en))).
Proof.
  intros Hn Hen0.
  assert (Hlo : exists lo, lower_bound_is energies emin lo /\ match emin with Some e => Ok e | None => qmin_list energies end = Ok lo).
  { destruct emin as [e|]; [exists e; split; reflexivity|]. destruct (qmin_list_ok energies Hen0) as (m & E & H). exists m. split; assumption. }
  assert (Hhi : exists hi, upper_bound_is energies emax hi /\ match emax with Some e => Ok e | None => qmax_list energies end = Ok hi).
  { destruct emax as [e|]; [exists e; split; reflexivity|]. destruct (qmax_list_ok energies Hen0) as (m & E & H). exists m. split; assumption. }
  destruct Hlo as (lo & Blo & Elo). destruct Hhi as (hi & Bhi & Ehi). exists lo, hi. split; [assumption|]. split; [assumption|].
  intros en Hne. unfold equal_count_energy_ranges. rewrite Elo, Ehi. cbn [bind].
  assert (Een : match emin, emax with None, None => energies | _, _ => filter (fun e => qle lo e && qle e hi)%bool energies end = en).
  { destruct emin as [e|]; [reflexivity|]. destruct emax as [e|]; [reflexivity|]. unfold en.
    destruct Blo as [_ B1]. destruct Bhi as [_ B2]. clear - B1 B2. induction energies as [|a l IH]; [reflexivity|]. cbn [filter].
    replace (qle lo a && qle a hi)%bool with true.
    - rewrite <- IH; [reflexivity| |]; intros u Hu; [apply B1|apply B2]; right; assumption.
    - symmetry. apply andb_true_iff. rewrite !qle_t. split; [apply B1|apply B2]; left; reflexivity. }
  rewrite Een.
  replace (Nat.ltb 1 n) with true by (symmetry; apply Nat.ltb_lt; assumption).
  set (f := fun k => percentile en (inject_Z (Z.of_nat k) * (100 / inject_Z (Z.of_nat n)))).
  assert (Hnq : 0 < inject_Z (Z.of_nat n)) by (apply bins_pos; lia).
  assert (Hrange : forall k, (0 < k < n)%nat -> 0 <= inject_Z (Z.of_nat k) * (100 / inject_Z (Z.of_nat n)) < 100).
  { intros k Hk. assert (E : inject_Z (Z.of_nat k) * (100 / inject_Z (Z.of_nat n)) * inject_Z (Z.of_nat n) == 100 * inject_Z (Z.of_nat k)) by (field; lra).
    assert (K1 : 0 < inject_Z (Z.of_nat k)) by (apply bins_pos; lia).
    assert (K2 : inject_Z (Z.of_nat k) < inject_Z (Z.of_nat n)) by (rewrite <- Zlt_Qlt; lia).
    set (z := inject_Z (Z.of_nat k) * (100 / inject_Z (Z.of_nat n))) in *. split.
    - apply Qnot_lt_le. intros C. assert (z * inject_Z (Z.of_nat n) < 0 * inject_Z (Z.of_nat n)) by (apply Qmult_lt_compat_r; assumption). lra.
    - apply Qnot_le_lt. intros C. assert (100 * inject_Z (Z.of_nat n) <= z * inject_Z (Z.of_nat n)) by (apply Qmult_le_compat_r; [assumption|lra]). lra. }
  destruct (map_result_ok f (seq 1 (n - 1))) as [ps Eps].
  { intros k Hk. apply in_seq in Hk. destruct (Hrange k ltac:(lia)) as [R1 R2]. apply percentile_ok; assumption. }
  rewrite Eps. cbn [bind]. destruct (map_result_nth _ _ _ Eps) as [L N]. rewrite seq_length in L.
  exists (lo :: ps ++ [hi]). split; [reflexivity|]. split; [simpl; rewrite app_length; simpl; lia|]. split; [reflexivity|]. split.
  - destruct n as [|n]; [lia|]. cbn [nth_error]. rewrite nth_error_app2 by lia. replace (n - length ps)%nat with 0%nat by lia. reflexivity.
  - intros k e Hk He. destruct k as [|k]; [lia|]. cbn [nth_error] in He. rewrite nth_error_app1 in He by lia.
    destruct (N k (S k)) as (b & Hb & Fb).
    { rewrite (nth_error_nth' _ 0%nat) by (rewrite seq_length; lia). rewrite seq_nth by lia. reflexivity. }
    assert (b = e) by congruence. subst b. destruct (Hrange (S k) Hk) as [R1 R2].
    destruct (percentile_main en _ e Hne R1 R2 Fb) as (P0 & P1 & P2).
    assert (Epos : inject_Z (Z.of_nat (S k)) * (100 / inject_Z (Z.of_nat n)) / 100 * inject_Z (Z.of_nat (length en) - 1) ==
                   inject_Z (Z.of_nat (S k)) / inject_Z (Z.of_nat n) * inject_Z (Z.of_nat (length en) - 1)) by (field; lra).
    cbv zeta. split; [|rewrite <- Epos; split; assumption].
    destruct P0 as (srt & i & a & I1 & I2 & I3 & I4 & I5 & I6). exists srt, i, a. rewrite Epos in I4.
    split; [assumption|]. split; [assumption|]. split; [assumption|]. split; [assumption|]. split; [|assumption].
    intros c Hc. rewrite (I5 c Hc), Epos. reflexivity.
Qed.

(* ---------- _int_sum_non_zero ---------- *)
Lemma int_sum_main (l : list Z) :
  int_sum_non_zero (map inject_Z l) = fold_right Z.add 0%Z (filter (fun z => (0 <? z)%Z) l).
Proof.
  unfold int_sum_non_zero. assert (H : forall s, fold_left (fun s a => if qlt 0 a then (s + py_int a)%Z else s) (map inject_Z l) s =
    (s + fold_right Z.add 0 (filter (fun z => (0 <? z)%Z) l))%Z); [|rewrite H; lia].
  induction l as [|z l IH]; intros s; [simpl; lia|]. cbn [map fold_left filter].
  assert (E : qlt 0 (inject_Z z) = (0 <? z)%Z).
  { apply eq_true_iff_eq. rewrite qlt_t, Z.ltb_lt. change 0 with (inject_Z 0) at 1. rewrite <- Zlt_Qlt. reflexivity. }
  rewrite E. destruct (0 <? z)%Z eqn:Ez; rewrite IH; [|reflexivity]. cbn [fold_right]. apply Z.ltb_lt in Ez.
  unfold py_int. replace (qle 0 (inject_Z z)) with true by (symmetry; apply qle_t; change 0 with (inject_Z 0) at 1; rewrite <- Zle_Qle; lia).
  rewrite Qfloor_Z. lia.
Qed.

(* ---------- columns of n-dimensional arrays ---------- *)
Lemma all_indices_len dims : length (all_indices dims) = shape_size dims.
Proof.
  induction dims as [|d dims IH]; [reflexivity|]. cbn [all_indices shape_size]. generalize 0%nat. induction d as [|d IHd]; intros s; [reflexivity|].
  cbn [seq flat_map]. rewrite app_length, map_length, IH, IHd. reflexivity.
Qed.
Lemma digit_chars i : (i < 10)%nat -> uint_chars (Nat.to_uint i) = [(48 + i)%nat].
Proof. intros H. do 10 (destruct i as [|i]; [reflexivity|]). lia. Qed.
Definition idx_lt (a b : list nat) : Prop := str_le (key_chars a) (key_chars b) = true.
Lemma str_le_refl a : str_le a a = true.
Proof. induction a as [|x a IH]; [reflexivity|]. cbn [str_le]. rewrite Nat.eqb_refl, IH. apply orb_true_r. Qed.
Lemma key_chars_cons i r : r <> [] -> key_chars (i :: r) = uint_chars (Nat.to_uint i) ++ [95%nat] ++ key_chars r.
Proof. destruct r; [congruence|reflexivity]. Qed.
Lemma key_chars_head i r : (i < 10)%nat -> exists t, key_chars (i :: r) = (48 + i)%nat :: t.
Proof.
  intros Hi. destruct r as [|j r]; cbn [key_chars]; rewrite digit_chars by assumption; eexists; reflexivity.
Qed.
Lemma all_indices_in dims a : In a (all_indices dims) -> Forall2 (fun i d => (i < d)%nat) a dims.
Proof.
  revert a. induction dims as [|d dims IH]; intros a H; cbn [all_indices] in H.
  - destruct H as [ <- | [] ]. constructor.
  - apply in_flat_map in H. destruct H as (i & Hi & H). apply in_map_iff in H. destruct H as (b & <- & Hb). apply in_seq in Hi.
    constructor; [lia|]. apply IH. assumption.
Qed.
Lemma ss_map {A B} (R : B -> B -> Prop) (f : A -> B) l : StronglySorted (fun a b => R (f a) (f b)) l -> StronglySorted R (map f l).
Proof. intros H. induction H; cbn [map]; constructor; [assumption|]. rewrite Forall_map. assumption. Qed.
Lemma all_indices_sorted dims : Forall (fun d => d <= 10)%nat dims -> StronglySorted idx_lt (all_indices dims).
Proof.
  induction dims as [|d dims IH]; intros H; [repeat constructor|]. inversion H as [|? ? Hd Hr]; subst. specialize (IH Hr).
  cbn [all_indices].
  assert (G : forall n s, (s + n <= 10)%nat -> StronglySorted idx_lt (flat_map (fun i => map (cons i) (all_indices dims)) (seq s n))).
  { induction n as [|n IHn]; intros s Hs; [constructor|]. cbn [seq flat_map]. apply ss_app. split; [|split].
    - apply ss_map. apply (ss_weaken idx_lt); [|assumption]. intros a b Ha Hb Hab. unfold idx_lt in *.
      destruct (list_eq_dec Nat.eq_dec a b) as [ -> | ne]; [apply str_le_refl|].
      destruct a as [|x a]; [destruct b as [|y b]|destruct b as [|y b] ].
      + apply str_le_refl.
      + rewrite (key_chars_cons s (y :: b)) by discriminate. cbn [key_chars]. rewrite digit_chars by lia. cbn [app str_le].
        rewrite Nat.eqb_refl. apply orb_true_r.
      + exfalso. apply all_indices_in in Ha, Hb. inversion Hb; subst. inversion Ha.
      + rewrite (key_chars_cons s (x :: a)), (key_chars_cons s (y :: b)) by discriminate.
        rewrite digit_chars by lia. cbn [app str_le]. rewrite !Nat.eqb_refl, Hab. cbn [andb]. rewrite !orb_true_r. reflexivity.
    - apply IHn. lia.
    - intros a b Ha Hb. apply in_map_iff in Ha. destruct Ha as (a' & <- & Ha).
      apply in_flat_map in Hb. destruct Hb as (i & Hi & Hb). apply in_seq in Hi. apply in_map_iff in Hb. destruct Hb as (b' & <- & Hb).
      unfold idx_lt. destruct (key_chars_head s a' ltac:(lia)) as [t ->]. destruct (key_chars_head i b' ltac:(lia)) as [t' ->].
      cbn [str_le]. replace (Nat.ltb (48 + s) (48 + i)) with true by (symmetry; apply Nat.ltb_lt; lia). reflexivity. }
  apply G. lia.
Qed.
Lemma sort_keys_id {A} (l : list (list nat * A)) : StronglySorted idx_lt (map fst l) -> sort_keys l = l.
Proof.
  induction l as [|e l IH]; intros H; [reflexivity|]. cbn [map] in H. inversion H as [|? ? Hs HF]; subst.
  unfold sort_keys in *. cbn [fold_right]. rewrite IH by assumption. destruct l as [|e' l]; [reflexivity|].
  cbn [key_insert]. cbn [map] in HF. inversion HF as [|? ? Hlt _]; subst. unfold idx_lt in Hlt. rewrite Hlt. reflexivity.
Qed.
Lemma fold_max_bound dims : forall l i, (forall a, In a (i :: l) -> Forall2 (fun i d => (i < d)%nat) a dims) -> In (map (fun d => (d - 1)%nat) dims) (i :: l) ->
  fold_left max_lists l i = map (fun d => (d - 1)%nat) dims.
Proof.
  set (top := map (fun d => (d - 1)%nat) dims).
  assert (M1 : forall a, Forall2 (fun i d => (i < d)%nat) a dims -> max_lists a top = top /\ max_lists top a = top).
  { unfold top. intros a H. induction H as [|i d a ds Hi Ha IH]; [split; reflexivity|]. cbn [map max_lists]. destruct IH as [-> ->]. split; f_equal; lia. }
  assert (M2 : forall a b, Forall2 (fun i d => (i < d)%nat) a dims -> Forall2 (fun i d => (i < d)%nat) b dims -> Forall2 (fun i d => (i < d)%nat) (max_lists a b) dims).
  { clear. intros a b H. revert b. induction H as [|i d a ds Hi Ha IH]; intros b Hb; inversion Hb; subst; cbn [max_lists]; constructor; [lia|]. apply IH. assumption. }
  induction l as [|b l IH]; intros i H Hin.
  - destruct Hin as [ -> | [] ]. reflexivity.
  - cbn [fold_left]. assert (Hi := H i (or_introl eq_refl)). assert (Hb := H b (or_intror (or_introl eq_refl))). apply IH.
    + intros a [ <- | Ha]; [apply M2; assumption|]. apply H. right. right. assumption.
    + destruct Hin as [ -> | [ -> | Hin] ].
      * left. apply M1. assumption.
      * left. apply M1. assumption.
      * right. assumption.
Qed.
Lemma all_indices_top dims : Forall (fun d => 1 <= d)%nat dims -> In (map (fun d => (d - 1)%nat) dims) (all_indices dims).
Proof.
  induction dims as [|d dims IH]; intros H; [left; reflexivity|]. inversion H; subst. cbn [map all_indices]. apply in_flat_map.
  exists (d - 1)%nat. split; [apply in_seq; lia|]. apply in_map. apply IH. assumption.
Qed.
Lemma nd_round_trip {A} dims (columns : list A) : Forall (fun d => 1 <= d <= 10)%nat dims -> length columns = shape_size dims ->
  make_1d_arrays_into_nd (make_nd_into_arrays dims columns) = Ok (dims, columns).
Proof.
  intros Hd HL. unfold make_1d_arrays_into_nd, make_nd_into_arrays.
  assert (Hfst : map fst (combine (all_indices dims) columns) = all_indices dims).
  { assert (L : length (all_indices dims) = length columns) by (rewrite all_indices_len; congruence). clear HL. revert columns L.
    induction (all_indices dims) as [|a l IH]; intros [|c cs] L; try discriminate; [reflexivity|]. cbn [combine map fst]. rewrite IH by (simpl in L; lia). reflexivity. }
  assert (Hsnd : map snd (combine (all_indices dims) columns) = columns).
  { assert (L : length (all_indices dims) = length columns) by (rewrite all_indices_len; congruence). clear HL Hfst. revert columns L.
    induction (all_indices dims) as [|a l IH]; intros [|c cs] L; try discriminate; [reflexivity|]. cbn [combine map snd]. rewrite IH by (simpl in L; lia). reflexivity. }
  rewrite sort_keys_id by (rewrite Hfst; apply all_indices_sorted; eapply Forall_impl; [|exact Hd]; simpl; lia).
  rewrite Hfst, Hsnd. 
  assert (Htop := all_indices_top dims ltac:(eapply Forall_impl; [|exact Hd]; simpl; lia)).
  assert (Hin := all_indices_in dims).
  destruct (all_indices dims) as [|i is]; [destruct Htop|]. rewrite (fold_max_bound dims) by assumption.
  rewrite map_map. do 2 f_equal. clear - Hd. induction Hd as [|d dims H Hd IH]; [reflexivity|]. cbn [map]. rewrite IH. f_equal. lia.
Qed.
Lemma nd_eleven : exists dims (columns : list nat) out, length columns = shape_size dims /\
  make_1d_arrays_into_nd (make_nd_into_arrays dims columns) = Ok (dims, out) /\ out <> columns.
Proof.
  exists [11%nat], (seq 0 11). eexists. split; [reflexivity|]. split; [vm_compute; reflexivity|]. vm_compute. discriminate.
Qed.
