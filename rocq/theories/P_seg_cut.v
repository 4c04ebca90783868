(* P_seg_cut.v: cutting GTIs into segments, index ranges of events and bins. *)
From Verif Require Import Np Lib S_gti S_seg M_gti M_seg P_seg_regions.
Open Scope Q_scope.

Lemma qdiv_mul x s : 0 < s -> x / s * s == x.
Proof. intros H. field. lra. Qed.

(* arange *)
Lemma arange_len_spec a b step i : 0 < step ->
  (i < arange_len a b step)%nat <-> a + inject_Z (Z.of_nat i) * step < b.
Proof.
  intros Hs. unfold arange_len. split.
  - intros H. assert (H1 : (Z.of_nat i < Qceiling ((b - a) / step))%Z) by lia.
    assert (H2 : inject_Z (Z.of_nat i) < (b - a) / step).
    { apply Qnot_le_lt. intros C. apply Qceiling_resp_le in C. rewrite Qceiling_Z in C. lia. }
    apply (Qmult_lt_r _ _ step) in H2; [|assumption]. rewrite qdiv_mul in H2 by assumption. lra.
  - intros H. assert (H1 : inject_Z (Z.of_nat i) < (b - a) / step) by (apply Qlt_shift_div_l; lra).
    assert (H2 := Qle_ceiling ((b - a) / step)).
    assert (H3 : inject_Z (Z.of_nat i) < inject_Z (Qceiling ((b - a) / step))) by lra.
    rewrite <- Zlt_Qlt in H3. lia.
Qed.
Lemma in_arange a b step x : 0 < step ->
  In x (arange a b step) <-> exists i : nat, x = a + inject_Z (Z.of_nat i) * step /\ a + inject_Z (Z.of_nat i) * step < b.
Proof.
  intros Hs. unfold arange. rewrite in_map_iff. split.
  - intros (i & <- & Hi). apply in_seq in Hi. exists i. split; [reflexivity|].
    apply arange_len_spec; [assumption|lia].
  - intros (i & -> & H). exists i. split; [reflexivity|]. apply in_seq. apply arange_len_spec in H; [lia|assumption].
Qed.
Lemma nth_arange a b step i x : 0 < step ->
  nth_error (arange a b step) i = Some x -> x = a + inject_Z (Z.of_nat i) * step /\ (i < arange_len a b step)%nat.
Proof.
  intros Hs H. unfold arange in H. rewrite nth_error_map in H.
  assert (Hi : (i < length (seq 0 (arange_len a b step)))%nat).
  { apply nth_error_Some. destruct (nth_error (seq _ _) i); [discriminate|discriminate]. }
  rewrite seq_length in Hi. destruct (nth_error (seq 0 (arange_len a b step)) i) eqn:E; [|discriminate].
  apply nth_error_nth with (d := 0%nat) in E. rewrite seq_nth in E by assumption. simpl in E. subst n.
  injection H as <-. auto.
Qed.

Lemma zof_le i j : (i <= j)%nat -> inject_Z (Z.of_nat i) <= inject_Z (Z.of_nat j).
Proof. intros H. rewrite <- Zle_Qle. lia. Qed.
Lemma zof_S i : inject_Z (Z.of_nat (S i)) == inject_Z (Z.of_nat i) + 1.
Proof. change 1 with (inject_Z 1). rewrite <- inject_Z_plus. rewrite Nat2Z.inj_succ. reflexivity. Qed.
Lemma zof_lt i j : (i < j)%nat -> inject_Z (Z.of_nat i) + 1 <= inject_Z (Z.of_nat j).
Proof. intros H. rewrite <- zof_S. apply zof_le. assumption. Qed.
Lemma zof_0 i : 0 <= inject_Z (Z.of_nat i).
Proof. change 0 with (inject_Z 0). rewrite <- Zle_Qle. lia. Qed.

(* C08 *)
Lemma seg_starts_iff seg eps iv s : 0 < seg ->
  In s (segment_starts seg 1 eps iv) <->
  seg <= snd iv - fst iv + eps /\
  exists k : nat, s = fst iv + inject_Z (Z.of_nat k) * (seg * 1) /\ s + seg < snd iv + eps.
Proof.
  intros Hs. unfold segment_starts. destruct (qlt _ _) eqn:E; qb.
  - split; [intros []|]. intros [H _]. lra.
  - rewrite in_arange by lra. split.
    + intros (i & -> & H). split; [lra|]. exists i. split; [reflexivity|lra].
    + intros (_ & i & -> & H). exists i. split; [reflexivity|lra].
Qed.

Lemma time_intervals_ok g seg eps st en : time_intervals_from_gtis g seg 1 eps = Ok (st, en) ->
  st = flat_map (segment_starts seg 1 eps) g /\ st <> [] /\ en = map (fun s => s + seg) st.
Proof.
  unfold time_intervals_from_gtis. destruct (flat_map _ g) eqn:E; intros H; [discriminate|].
  injection H as <- <-. split; [reflexivity|]. split; [discriminate|reflexivity].
Qed.

(* Each segment sits in its GTI up to eps, on the grid of the GTI's start; no room for another one. *)
Lemma time_intervals_sound g seg eps st en : 0 < seg -> 0 <= eps ->
  time_intervals_from_gtis g seg 1 eps = Ok (st, en) ->
  en = map (fun s => s + seg) st /\
  (forall s, In s st -> exists a b (k : nat), In (a, b) g /\ s == a + inject_Z (Z.of_nat k) * seg /\ a <= s /\ s + seg < b + eps) /\
  (forall a b (k : nat), In (a, b) g -> a + inject_Z (Z.of_nat k + 1) * seg < b + eps ->
     exists s, In s st /\ s == a + inject_Z (Z.of_nat k) * seg).
Proof.
  intros Hs He H. apply time_intervals_ok in H. destruct H as (-> & _ & ->). split; [reflexivity|]. split.
  - intros s H. apply in_flat_map in H. destruct H as ([a b] & Hin & H).
    apply seg_starts_iff in H; [|assumption]. destruct H as (_ & k & -> & H). simpl in *.
    exists a, b, k. split; [assumption|]. split; [ring|]. split; [|lra].
    assert (0 <= inject_Z (Z.of_nat k) * (seg * 1)) by (apply Qmult_le_0_compat; [apply zof_0|lra]). lra.
  - intros a b k Hin H. rewrite inject_Z_plus in H. change (inject_Z 1) with 1 in H.
    assert (H0 : 0 <= inject_Z (Z.of_nat k) * seg) by (apply Qmult_le_0_compat; [apply zof_0|lra]).
    assert (E : (inject_Z (Z.of_nat k) + 1) * seg == inject_Z (Z.of_nat k) * seg + seg) by ring. rewrite E in H.
    exists (a + inject_Z (Z.of_nat k) * (seg * 1)). split; [|ring]. apply in_flat_map.
    exists (a, b). split; [assumption|]. apply seg_starts_iff; [assumption|]. simpl.
    assert (E2 : inject_Z (Z.of_nat k) * (seg * 1) == inject_Z (Z.of_nat k) * seg) by ring.
    split; [lra|]. exists k. split; [reflexivity|]. lra.
Qed.

Lemma multiple_lt u x y : 0 < u -> multiple_of u x -> multiple_of u y -> x < y + u -> x <= y.
Proof.
  intros Hu [k Hk] [m Hm] H. rewrite Hk, Hm in *.
  assert (E : inject_Z k * u < inject_Z (m + 1) * u). { rewrite inject_Z_plus. change (inject_Z 1) with 1. lra. }
  apply Qmult_lt_r in E; [|assumption]. rewrite <- Zlt_Qlt in E.
  apply Qmult_le_compat_r; [|lra]. rewrite <- Zle_Qle. lia.
Qed.
Lemma multiple_plus u x y : multiple_of u x -> multiple_of u y -> multiple_of u (x + y).
Proof. intros [k Hk] [m Hm]. exists (k + m)%Z. rewrite inject_Z_plus, Hk, Hm. ring. Qed.
Lemma multiple_scal u x (k : Z) : multiple_of u x -> multiple_of u (inject_Z k * x).
Proof. intros [m Hm]. exists (k * m)%Z. rewrite inject_Z_mult, Hm. ring. Qed.
Lemma multiple_eq u x y : x == y -> multiple_of u x -> multiple_of u y.
Proof. intros E [m Hm]. exists m. rewrite <- E. assumption. Qed.

(* order of the starts: strictly, one segment apart when they are in the same GTI or separated GTIs *)
Lemma segs_ordered seg eps (Hs : 0 < seg) g :
  (forall iv s, In iv g -> In s (segment_starts seg 1 eps iv) -> s + seg <= snd iv) ->
  StronglySorted (fun x y : Q * Q => snd x <= fst y) g ->
  StronglySorted (fun s t => s + seg <= t) (flat_map (segment_starts seg 1 eps) g).
Proof.
  induction g as [|iv g IH]; intros Hin Hss; simpl; [constructor|].
  apply StronglySorted_inv in Hss. destruct Hss as [Hss Hf].
  apply ss_app. split; [|split].
  - unfold segment_starts. destruct (qlt _ _); [constructor|]. apply ss_nth.
    intros i j x y Hij Hx Hy. apply nth_arange in Hx; [|lra]. apply nth_arange in Hy; [|lra].
    destruct Hx as [-> _], Hy as [-> _]. apply zof_lt in Hij.
    assert (H : (inject_Z (Z.of_nat i) + 1) * seg <= inject_Z (Z.of_nat j) * seg) by (apply Qmult_le_compat_r; lra).
    lra.
  - apply IH; [|assumption]. intros iv' s Hiv. apply Hin. right; assumption.
  - intros x y Hx Hy. apply (Hin iv) in Hx; [|left; reflexivity].
    apply in_flat_map in Hy. destruct Hy as (iv' & Hiv & Hy).
    apply seg_starts_iff in Hy; [|assumption]. destruct Hy as (_ & k & -> & _).
    rewrite Forall_forall in Hf. specialize (Hf _ Hiv).
    assert (0 <= inject_Z (Z.of_nat k) * (seg * 1)) by (apply Qmult_le_0_compat; [apply zof_0|lra]). lra.
Qed.

Lemma time_intervals_exact g seg eps u : 0 < seg -> 0 < eps -> eps <= u ->
  well_formed g -> multiple_of u seg -> (forall a b, In (a, b) g -> multiple_of u a /\ multiple_of u b) ->
  forall st en, time_intervals_from_gtis g seg 1 eps = Ok (st, en) ->
  en = map (fun s => s + seg) st /\
  (forall s, In s st -> exists a b, In (a, b) g /\ a <= s /\ s + seg <= b) /\
  (forall i j s t, (i < j)%nat -> nth_error st i = Some s -> nth_error st j = Some t -> s + seg <= t) /\
  (forall a b, In (a, b) g -> a <= b -> exists r, (r == a \/ (exists s, In s st /\ a <= s /\ r == s + seg)) /\ r <= b /\ b - r < seg).
Proof.
  intros Hs He Heu Hwf Hms Hmg st en H.
  assert (Hu : 0 < u) by lra.
  assert (H' := H). apply time_intervals_ok in H'. destruct H' as (Est & Hne & Een).
  assert (Hin : forall iv s, In iv g -> In s (segment_starts seg 1 eps iv) -> s + seg <= snd iv).
  { intros [a b] s Hiv Hst. apply seg_starts_iff in Hst; [|assumption]. destruct Hst as (_ & k & -> & Hlt). simpl in *.
    destruct (Hmg _ _ Hiv) as [Ha Hb]. apply (multiple_lt u); [assumption| |assumption|lra].
    apply multiple_plus; [apply multiple_plus|assumption]; [assumption|].
    apply (multiple_eq u (inject_Z (Z.of_nat k) * seg)); [ring|]. apply multiple_scal. assumption. }
  split; [assumption|]. split; [|split].
  - intros s Hst. rewrite Est in Hst. apply in_flat_map in Hst. destruct Hst as ([a b] & Hiv & Hst).
    assert (H2 := Hin _ _ Hiv Hst). apply seg_starts_iff in Hst; [|assumption]. destruct Hst as (_ & k & -> & _).
    exists a, b. simpl in *. split; [assumption|]. split; [|assumption].
    assert (0 <= inject_Z (Z.of_nat k) * (seg * 1)) by (apply Qmult_le_0_compat; [apply zof_0|lra]). lra.
  - rewrite Est. apply (proj1 (ss_nth (fun s t => s + seg <= t) _)). apply segs_ordered; auto.
    apply ss_nth. destruct Hwf as [_ Hwf]. intros i j [a b] [c d] Hij Hi Hj. simpl. eapply Hwf; eassumption.
  - intros a b Hiv Hab.
    destruct (Qlt_le_dec (b - a) seg) as [Hshort|Hlong].
    + exists a. split; [left; reflexivity|]. split; lra.
    + (* k = floor ((b-a)/seg) - 1 *)
      set (k := (Qfloor ((b - a) / seg) - 1)%Z).
      assert (Hk0 : (0 <= k)%Z).
      { unfold k. assert (1 <= Qfloor ((b - a) / seg))%Z; [|lia]. change 1%Z with (Qfloor 1).
        apply Qfloor_resp_le. apply Qle_shift_div_l; lra. }
      assert (F1 := Qfloor_le ((b - a) / seg)). assert (F2 := Qlt_floor ((b - a) / seg)).
      assert (G1 : inject_Z (k + 1) * seg <= b - a).
      { replace (k + 1)%Z with (Qfloor ((b - a) / seg)) by (unfold k; lia).
        apply Qle_trans with ((b - a) / seg * seg); [apply Qmult_le_compat_r; lra|].
        rewrite qdiv_mul; lra. }
      assert (G2 : b - a < inject_Z (k + 2) * seg).
      { replace (k + 2)%Z with (Qfloor ((b - a) / seg) + 1)%Z by (unfold k; lia).
        apply Qle_lt_trans with ((b - a) / seg * seg); [rewrite qdiv_mul; lra|].
        apply Qmult_lt_r; assumption. }
      destruct (time_intervals_sound g seg eps st en Hs) as (_ & _ & Hc); [lra|assumption|].
      destruct (Hc a b (Z.to_nat k) Hiv) as (s & Hst & Hse).
      { rewrite Z2Nat.id by assumption. lra. }
      rewrite Z2Nat.id in Hse by assumption.
      rewrite inject_Z_plus in G1, G2. change (inject_Z 1) with 1 in G1. change (inject_Z 2) with 2 in G2.
      assert (Hkq : 0 <= inject_Z k) by (change 0 with (inject_Z 0); rewrite <- Zle_Qle; assumption).
      assert (0 <= inject_Z k * seg) by (apply Qmult_le_0_compat; lra).
      exists (s + seg). split; [right; exists s; split; [assumption|split; [lra|reflexivity]]|]. lra.
Qed.

Lemma time_intervals_err g seg eps : 0 < seg ->
  (exists e, time_intervals_from_gtis g seg 1 eps = Err e) <-> (forall a b, In (a, b) g -> b - a + eps <= seg).
Proof.
  intros Hs. unfold time_intervals_from_gtis. destruct (flat_map _ g) as [|x l] eqn:E.
  - split; [|eauto]. intros _ a b Hin.
    destruct (Qlt_le_dec seg (b - a + eps)) as [C|C]; [exfalso|assumption].
    assert (H : In (a + inject_Z (Z.of_nat 0) * (seg * 1)) (flat_map (segment_starts seg 1 eps) g)).
    { apply in_flat_map. exists (a, b). split; [assumption|]. apply seg_starts_iff; [assumption|]. simpl.
      split; [lra|]. exists 0%nat. split; [reflexivity|]. simpl. change (inject_Z 0) with 0. lra. }
    rewrite E in H. destruct H.
  - split; [intros [e H]; discriminate|]. intros H. exfalso.
    assert (Hx : In x (flat_map (segment_starts seg 1 eps) g)) by (rewrite E; left; reflexivity).
    apply in_flat_map in Hx. destruct Hx as ([a b] & Hin & Hx). apply seg_starts_iff in Hx; [|assumption].
    destruct Hx as (_ & k & -> & Hx). simpl in *. specialize (H _ _ Hin).
    assert (0 <= inject_Z (Z.of_nat k) * (seg * 1)) by (apply Qmult_le_0_compat; [apply zof_0|lra]). lra.
Qed.

Definition eps5 : Q := 1 # 100000.
Lemma time_intervals_outside : exists g seg st en s,
  good g /\ 0 < seg /\ time_intervals_from_gtis g seg 1 eps5 = Ok (st, en) /\ In s st /\
  (forall a b, In (a, b) g -> b < s + seg).
Proof.
  exists [(0, 999999 # 1000000)], 1. eexists _, _, _. split; [|split; [|split; [|split]]].
  - split; [discriminate|]. split; [split|].
    + intros a b [E|[]]; inversion E; discriminate.
    + intros [|i] [|j]; simpl; intros a b c d H; try lia; try (destruct j; discriminate); destruct i; discriminate.
    + intros a b [E|[]]; inversion E; reflexivity.
  - reflexivity.
  - vm_compute. reflexivity.
  - left; reflexivity.
  - intros a b [E|[]]; inversion E; reflexivity.
Qed.
Lemma time_intervals_overlap : exists g seg st en s t,
  good g /\ 0 < seg /\ time_intervals_from_gtis g seg 1 eps5 = Ok (st, en) /\
  nth_error st 0 = Some s /\ nth_error st 1 = Some t /\ s <= t /\ t < s + seg.
Proof.
  exists [(0, 999999 # 1000000); (999999 # 1000000, 2)], 1. eexists _, _, _, _. split; [|split; [|split; [|split; [|split; [|split]]]]].
  - split; [discriminate|]. split; [split|].
    + intros a b [E|[E|[]]]; inversion E; discriminate.
    + intros [|[|i]] [|[|j]]; simpl; intros a b c d H E1 E2; try lia; try (destruct j; discriminate); try (destruct i; discriminate).
      inversion E1; inversion E2; subst. lra.
    + intros a b [E|[E|[]]]; inversion E; reflexivity.
  - reflexivity.
  - vm_compute. reflexivity.
  - reflexivity.
  - reflexivity.
  - vm_compute. discriminate.
  - vm_compute. reflexivity.
Qed.

(* searchsorted on sorted arrays *)
Lemma ssl_spec times v : nondecreasing times ->
  (forall k t, nth_error times k = Some t -> ((k < searchsorted_left times v)%nat <-> t < v)) /\
  (searchsorted_left times v <= length times)%nat.
Proof.
  intros Hs. apply (proj2 (ss_nth Qle times)) in Hs. induction Hs as [|a l Hs IH Hf]; simpl.
  - split; [|lia]. intros [|k] t; discriminate.
  - destruct IH as [IH1 IH2]. destruct (qlt a v) eqn:E; qb; (split; [|lia]).
    + intros [|k] t H; simpl in H.
      * inversion H; subst. split; [intros _; assumption|lia].
      * rewrite <- (IH1 k t H). lia.
    + intros [|k] t H; simpl in H.
      * inversion H; subst. split; [lia|]. intros C. lra.
      * split; [lia|]. intros C. apply nth_error_In in H. rewrite Forall_forall in Hf. specialize (Hf _ H). lra.
Qed.
Lemma ssl_mono times v w : nondecreasing times -> v <= w -> (searchsorted_left times v <= searchsorted_left times w)%nat.
Proof.
  intros Hs Hvw. destruct (ssl_spec times v Hs) as [H1 H2]. destruct (ssl_spec times w Hs) as [H3 _].
  destruct (Nat.le_gt_cases (searchsorted_left times v) (searchsorted_left times w)) as [H|H]; [assumption|].
  destruct (nth_error_ex times (searchsorted_left times w)) as [t Et]; [lia|].
  assert (t < v) by (apply (H1 _ _ Et); assumption).
  assert (C : (searchsorted_left times w < searchsorted_left times w)%nat) by (apply (H3 _ _ Et); lra). lia.
Qed.

Lemma is_sorted_iff l : is_sorted l = true <-> nondecreasing l.
Proof.
  unfold nondecreasing. rewrite <- (ss_nth Qle l). induction l as [|a l IH]; [split; [constructor|reflexivity]|].
  destruct l as [|b l]; [split; [repeat constructor|reflexivity]|].
  change (is_sorted (a :: b :: l)) with (qle a b && is_sorted (b :: l)). split.
  - intros H. qb. apply IH in H0. constructor; [assumption|]. constructor; [assumption|].
    apply StronglySorted_inv in H0. destruct H0 as [_ H0]. rewrite Forall_forall in *. intros x Hx.
    apply H0 in Hx. lra.
  - intros H. apply StronglySorted_inv in H. destruct H as [H1 H2]. apply andb_true_iff. split.
    + qb. inversion H2; assumption.
    + apply IH. assumption.
Qed.

(* C14 *)
Lemma unbinned_main times g seg eps out : 0 < seg ->
  generate_indices_of_segment_boundaries_unbinned times g seg eps = Ok out ->
  (exists st, time_intervals_from_gtis g seg 1 eps = Ok (st, map (fun s => s + seg) st) /\
     map fst out = map (fun s => (s, s + seg)) st) /\
  (forall s e i j, In (s, e, (i, j)) out -> (i <= j <= length times)%nat /\ e = s + seg /\
     forall k t, nth_error times k = Some t -> ((i <= k < j)%nat <-> s <= t /\ t < e)).
Proof.
  intros Hs H. unfold generate_indices_of_segment_boundaries_unbinned in H.
  apply bind_ok in H. destruct H as ([st en] & E & H). simpl in H.
  destruct (is_sorted times) eqn:Es; [|discriminate]. injection H as <-.
  apply is_sorted_iff in Es. assert (E' := time_intervals_ok _ _ _ _ _ E). destruct E' as (_ & _ & Een).
  subst en. split.
  - exists st. split; [assumption|]. rewrite map_map. simpl. clear. induction st as [|s st IH]; simpl; [reflexivity|].
    f_equal. assumption.
  - intros s e i j Hin. apply in_map_iff in Hin. destruct Hin as ([s' e'] & Eq & Hin). inversion Eq; subst; clear Eq.
    assert (He : e = s + seg).
    { clear - Hin. induction st as [|x st IH]; simpl in Hin; [destruct Hin|]. destruct Hin as [E|Hin]; [inversion E; reflexivity|auto]. }
    simpl. destruct (ssl_spec times s Es) as [A1 A2]. destruct (ssl_spec times e Es) as [B1 B2].
    split; [split; [apply ssl_mono; [assumption|rewrite He; lra]|assumption]|]. split; [assumption|].
    intros k t Hk. rewrite <- (B1 _ _ Hk).
    assert (Hx : (searchsorted_left times s <= k)%nat <-> s <= t).
    { destruct (A1 _ _ Hk) as [C1 C2]. split; intros H.
      - apply Qnot_lt_le. intros C. apply C2 in C. lia.
      - destruct (Nat.le_gt_cases (searchsorted_left times s) k) as [D|D]; [assumption|]. apply C1 in D. lra. }
    rewrite <- Hx. tauto.
Qed.
Lemma unbinned_unsorted times g seg eps : ~ nondecreasing times ->
  exists e, generate_indices_of_segment_boundaries_unbinned times g seg eps = Err e.
Proof.
  intros H. unfold generate_indices_of_segment_boundaries_unbinned.
  destruct (time_intervals_from_gtis g seg 1 eps) as [ss|e]; simpl; [|eauto].
  destruct (is_sorted times) eqn:E; [apply is_sorted_iff in E; contradiction|]. simpl. eauto.
Qed.

(* C10 *)
Lemma border_one_main time g0 g1 i j : increasing time -> border_bins_one time g0 g1 = Ok (i, j) ->
  (j <= length time)%nat /\
  forall k t, nth_error time k = Some t -> ((i <= k < j)%nat <-> g0 <= t /\ t <= g1).
Proof.
  intros Hinc H. assert (Hs : nondecreasing time).
  { intros a b x y Hab Hx Hy. assert (x < y) by (eapply Hinc; eassumption). lra. }
  destruct (ssl_spec time g0 Hs) as [A1 A2]. destruct (ssl_spec time g1 Hs) as [B1 B2].
  unfold border_bins_one in H.
  set (sa := searchsorted_left time g0) in *. set (sb := searchsorted_left time g1) in *.
  set (stop := if (length time <? sb + 1)%nat then length time else (sb + 1)%nat) in *.
  apply bind_ok in H. destruct H as (ts & Ets & H). apply bind_ok in H. destruct H as (te & Ete & H).
  assert (E0 : qlt ts g0 = false).
  { unfold get in Ets. destruct (nth_error time sa) eqn:E; [|discriminate]. inversion Ets; subst.
    destruct (qlt ts g0) eqn:E1; [|reflexivity]. qb. apply (A1 _ _ E) in E1. lia. }
  rewrite E0 in H. unfold get in Ete. destruct (nth_error time (stop - 1)) eqn:E; [|discriminate]. inversion Ete; subst q; clear Ete.
  assert (Hst : (1 <= stop <= length time)%nat /\ (sb <= stop)%nat /\ (stop <= sb + 1)%nat).
  { assert (stop - 1 < length time)%nat by (apply nth_error_Some; congruence).
    unfold stop in *. destruct (length time <? sb + 1)%nat eqn:El; [apply Nat.ltb_lt in El|apply Nat.ltb_ge in El]; lia. }
  assert (Hj : (j <= length time)%nat /\ forall k t, nth_error time k = Some t -> ((k < j)%nat <-> t <= g1)).
  { destruct (qlt g1 te) eqn:E1; qb; inversion H; subst; clear H.
    - (* time[stop-1] > g1 : stop-1 = sb *)
      assert (~ (stop - 1 < sb)%nat). { intros C. apply (B1 _ _ E) in C. lra. }
      assert (Hsb : (stop - 1 = sb)%nat) by lia. split; [lia|]. intros k t Hk. rewrite Hsb. rewrite (B1 _ _ Hk).
      split; intros D; [lra|]. apply Qnot_le_lt. intros C.
      assert (t == g1) by lra.
      assert (~ (k < sb)%nat) by (intros D1; apply (B1 _ _ Hk) in D1; lra).
      assert (D2 : (sb < k \/ k = sb)%nat) by lia. rewrite Hsb in E. destruct D2 as [D2| ->].
      + assert (te < t) by (eapply Hinc; eassumption). lra.
      + rewrite E in Hk. inversion Hk; subst. lra.
    - split; [lia|]. intros k t Hk. split.
      + intros D. destruct (Nat.eq_dec k (stop - 1)) as [-> |Ne].
        * rewrite E in Hk. inversion Hk; subst. assumption.
        * assert (Hlt : (k < stop - 1)%nat) by lia. assert (t < te) by (eapply Hinc; eassumption). lra.
      + intros D. destruct (Nat.lt_ge_cases k stop) as [F|F]; [assumption|exfalso].
        assert (Hlt : (stop - 1 < k)%nat) by lia. assert (te < t) by (eapply Hinc; eassumption).
        assert (te < g1) by lra. apply (B1 _ _ E) in H0.
        assert (stop = sb)%nat by lia.
        assert (k < length time)%nat by (apply nth_error_Some; congruence).
        unfold stop in *. destruct (length time <? sb + 1)%nat eqn:El; lia. }
  assert (Hi : i = sa) by (destruct (qlt g1 te); inversion H; reflexivity). subst i.
  destruct Hj as [Hj1 Hj2]. split; [assumption|]. intros k t Hk. rewrite <- (Hj2 _ _ Hk).
  assert (Hx : (sa <= k)%nat <-> g0 <= t).
  { destruct (A1 _ _ Hk) as [C1 C2]. split; intros D.
    - apply Qnot_lt_le. intros C. apply C2 in C. lia.
    - destruct (Nat.le_gt_cases sa k) as [F|F]; [assumption|]. apply C1 in F. lra. }
  rewrite <- Hx. tauto.
Qed.
(* It succeeds exactly when some sample is not before g0. *)
Lemma border_one_ok time g0 g1 : nondecreasing time ->
  (exists b, border_bins_one time g0 g1 = Ok b) <-> exists t, In t time /\ g0 <= t.
Proof.
  intros Hs. destruct (ssl_spec time g0 Hs) as [A1 A2]. destruct (ssl_spec time g1 Hs) as [B1 B2].
  unfold border_bins_one.
  set (sa := searchsorted_left time g0) in *. set (sb := searchsorted_left time g1) in *.
  split.
  - intros [b H]. apply bind_ok in H. destruct H as (ts & Ets & _). unfold get in Ets.
    destruct (nth_error time sa) eqn:E; [|discriminate]. exists q. split; [eapply nth_error_In; eassumption|].
    apply Qnot_lt_le. intros C. apply (A1 _ _ E) in C. lia.
  - intros (t & Ht & Hg). apply In_nth_error in Ht. destruct Ht as [k Hk].
    assert (~ (k < sa)%nat) by (intros C; apply (A1 _ _ Hk) in C; lra).
    assert (k < length time)%nat by (apply nth_error_Some; congruence).
    destruct (nth_error_ex time sa) as [ts Ets]; [lia|]. rewrite (get_ok _ _ _ Ets). simpl.
    set (stop := if (length time <? sb + 1)%nat then length time else (sb + 1)%nat).
    destruct (nth_error_ex time (stop - 1)) as [te Ete].
    { unfold stop. destruct (length time <? sb + 1)%nat eqn:El; [apply Nat.ltb_lt in El|apply Nat.ltb_ge in El]; lia. }
    rewrite (get_ok _ _ _ Ete). simpl. eauto.
Qed.

Lemma border_loop_main time g l : increasing time -> border_bins_loop time g = Ok l ->
  Forall2 (fun (iv : Q * Q) (b : nat * nat) => border_bins_one time (fst iv) (snd iv) = Ok b) g l.
Proof.
  intros Hinc. revert l. induction g as [|[g0 g1] g IH]; intros l H; simpl in H.
  - inversion H; constructor.
  - apply bind_ok in H. destruct H as (b & Eb & H). apply bind_ok in H. destruct H as (r & Er & H).
    inversion H; subst. constructor; auto.
Qed.

Lemma bin_inside_iff t d eps a b : bin_inside t d (eps * d) a b <->
  a + d / 2 - eps * d <= t /\ t <= b - d / 2 + eps * d.
Proof. unfold bin_inside. split; intros [H1 H2]; split; lra. Qed.

Lemma forall2_impl {A B} (R S : A -> B -> Prop) l l' : (forall a b, R a b -> S a b) -> Forall2 R l l' -> Forall2 S l l'.
Proof. intros H. induction 1; constructor; auto. Qed.
Lemma forall2_map_l {A B C} (f : A -> B) (R : B -> C -> Prop) l l' :
  Forall2 R (map f l) l' <-> Forall2 (fun a c => R (f a) c) l l'.
Proof.
  split.
  - revert l'. induction l as [|a l IH]; intros l' H; inversion H; subst; constructor; auto.
  - induction 1; simpl; constructor; auto.
Qed.

Lemma gti_border_bins_main g time d eps l : increasing time -> gti_border_bins g time d eps = Ok l ->
  Forall2 (fun (iv : Q * Q) (b : nat * nat) => (snd b <= length time)%nat /\
     forall k t, nth_error time k = Some t ->
       ((fst b <= k < snd b)%nat <-> bin_inside t d (eps * d) (fst iv) (snd iv))) g l.
Proof.
  intros Hinc H. unfold gti_border_bins in H. apply bind_ok in H. destruct H as (o & _ & H).
  destruct o; [discriminate|]. apply border_loop_main in H; [|assumption].
  unfold narrow in H. rewrite forall2_map_l in H.
  eapply forall2_impl; [|exact H]. intros [a b] [i j] E. simpl in *. apply border_one_main in E; [|assumption].
  destruct E as [E1 E2]. split; [assumption|]. intros k t Hk. rewrite (E2 _ _ Hk). rewrite bin_inside_iff. reflexivity.
Qed.

Lemma border_loop_ok time g : nondecreasing time ->
  (forall g0 g1, In (g0, g1) g -> exists t, In t time /\ g0 <= t) -> exists l, border_bins_loop time g = Ok l.
Proof.
  intros Hs. induction g as [|[g0 g1] g IH]; intros H; simpl; [eauto|].
  destruct (proj2 (border_one_ok time g0 g1 Hs)) as [b ->]; [apply (H g0 g1); left; reflexivity|]. simpl.
  destruct IH as [l ->]; [intros a b' Hin; apply (H a b'); right; assumption|]. simpl. eauto.
Qed.
Lemma gti_border_bins_total g time d eps : nondecreasing time -> g <> [] -> 0 <= d -> 0 <= eps -> eps <= 1 # 2 ->
  (forall a b, In (a, b) g -> a <= b /\ exists t, In t time /\ bin_inside t d (eps * d) a b) ->
  exists l, gti_border_bins g time d eps = Ok l.
Proof.
  intros Hs Hg Hd He0 He Hin. destruct g as [|[a b] g]; [congruence|].
  assert (Hed : 0 <= eps * d) by (apply Qmult_le_0_compat; assumption).
  assert (Hed2 : eps * d <= (1 # 2) * d) by (apply Qmult_le_compat_r; assumption).
  assert (Hhalf : d / 2 == (1 # 2) * d) by (unfold Qdiv; change (/ 2) with (1 # 2); ring).
  destruct (Hin a b (or_introl eq_refl)) as (Hab & t & Ht & Hb). apply bin_inside_iff in Hb.
  unfold gti_border_bins, outside. destruct time as [|t0 time]; [destruct Ht|]. cbn [bind].
  assert (E1 : forallb (qlt (last (t0 :: time) t0)) (flatten ((a, b) :: g)) = false).
  { simpl flatten. cbn [forallb]. replace (qlt (last (t0 :: time) t0) a) with false; [reflexivity|].
    symmetry. qb. apply (proj2 (ss_nth Qle _)) in Hs.
    assert (t <= last (t0 :: time) t0); [|lra]. clear - Ht Hs.
    revert t0 t Ht Hs. induction time as [|x l IH]; intros t0 t Ht Hs.
    - destruct Ht as [-> |[]]. simpl. lra.
    - apply StronglySorted_inv in Hs. destruct Hs as [Hs Hf].
      change (last (t0 :: x :: l) t0) with (last (x :: l) t0). rewrite (last_default (x :: l) t0 x) by discriminate.
      destruct Ht as [-> |Ht].
      + rewrite Forall_forall in Hf. apply Hf. clear. revert x. induction l as [|y l IH]; intros x; [left; reflexivity|].
        change (last (x :: y :: l) x) with (last (y :: l) x). rewrite (last_default (y :: l) x y) by discriminate. right. apply IH.
      + apply IH; assumption. }
  assert (E2 : forallb (fun x => qlt x t0) (flatten ((a, b) :: g)) = false).
  { simpl flatten. cbn [forallb]. replace (qlt b t0) with false; [apply andb_false_r|]. symmetry. qb.
    assert (t0 <= t).
    { apply (proj2 (ss_nth Qle _)) in Hs. apply StronglySorted_inv in Hs. destruct Hs as [_ Hf]. rewrite Forall_forall in Hf.
      destruct Ht as [-> |Ht]; [lra|auto]. }
    lra. }
  rewrite E1, E2. cbn [orb]. apply border_loop_ok; [assumption|].
  intros g0 g1 Hn. unfold narrow in Hn. apply in_map_iff in Hn. destruct Hn as ([x y] & E & Hxy). inversion E; subst; clear E.
  destruct (Hin x y Hxy) as (_ & t' & Ht' & Hb'). apply bin_inside_iff in Hb'. exists t'. split; [assumption|]. simpl. lra.
Qed.

Lemma border_bins_crash : exists g time,
  good g /\ increasing time /\ (exists a b t, In (a, b) g /\ In t time /\ a < t /\ t < b) /\
  gti_border_bins g time 1 (1 # 1000) = Err IndexError.
Proof.
  exists [(0, 2); (10, 12)], [1 # 2; 3 # 2]. split; [|split; [|split]].
  - split; [discriminate|]. split; [split|].
    + intros a b [E|[E|[]]]; inversion E; discriminate.
    + intros [|[|i]] [|[|j]]; simpl; intros a b c d H E1 E2; try lia; try (destruct j; discriminate); try (destruct i; discriminate).
      inversion E1; inversion E2; subst. lra.
    + intros a b [E|[E|[]]]; inversion E; reflexivity.
  - unfold increasing. apply (proj1 (ss_nth Qlt _)). repeat constructor; reflexivity.
  - exists 0, 2, (1 # 2). repeat split; try (left; reflexivity); reflexivity.
  - vm_compute. reflexivity.
Qed.

(* calculate_segment_bin_start with step = nbin *)
Lemma arange_nat_last start stop step : (0 < step)%nat -> (start < stop)%nat ->
  let n := ((stop - start + step - 1) / step)%nat in
  (0 < n)%nat /\ (start + (n - 1) * step < stop)%nat /\ (stop <= start + n * step)%nat.
Proof.
  intros Hs Hlt n. assert (H1 := Nat.div_mod (stop - start + step - 1) step ltac:(lia)).
  assert (H2 := Nat.mod_upper_bound (stop - start + step - 1) step ltac:(lia)). fold n in H1.
  assert (0 < n)%nat. { unfold n. apply Nat.div_str_pos. lia. }
  destruct n as [|m]; [lia|]. simpl in *. nia.
Qed.

Lemma get_last_map_seq (f : nat -> nat) n : (0 < n)%nat -> get_last (map f (seq 0 n)) = Ok (f (n - 1)%nat).
Proof.
  intros H. destruct n as [|n]; [lia|]. rewrite seq_S, map_app. unfold get_last. rewrite rev_app_distr. simpl.
  rewrite Nat.sub_0_r. reflexivity.
Qed.
Lemma removelast_map_seq (f : nat -> nat) n : removelast (map f (seq 0 n)) = map f (seq 0 (n - 1)).
Proof.
  destruct n as [|n]; [reflexivity|]. rewrite seq_S, map_app. simpl. rewrite removelast_last, Nat.sub_0_r. reflexivity.
Qed.

Lemma segment_bins_main start stop nbin : (0 < nbin)%nat -> (start < stop)%nat ->
  calculate_segment_bin_start start stop nbin nbin =
  Ok (map (fun i => start + i * nbin)%nat (seq 0 ((stop - start) / nbin))).
Proof.
  intros Hn Hlt. unfold calculate_segment_bin_start. destruct nbin as [|m]; [lia|]. set (nb := S m) in *.
  unfold arange_nat. destruct (arange_nat_last start stop nb Hn Hlt) as (H1 & H2 & H3).
  set (n := ((stop - start + nb - 1) / nb)%nat) in *. rewrite get_last_map_seq by assumption. cbn [bind].
  destruct (stop <? start + (n - 1) * nb + nb)%nat eqn:E; [apply Nat.ltb_lt in E|apply Nat.ltb_ge in E].
  - rewrite removelast_map_seq. f_equal. f_equal. f_equal.
    apply Nat.div_unique with (r := (stop - start - (n - 1) * nb)%nat); nia.
  - f_equal. f_equal. f_equal. apply Nat.div_unique with (r := 0%nat); [lia|]. nia.
Qed.
Lemma segment_bins_empty start stop nbin step : (stop <= start)%nat ->
  exists e, calculate_segment_bin_start start stop nbin step = Err e.
Proof.
  intros H. unfold calculate_segment_bin_start. destruct step as [|m]; [eauto|].
  unfold arange_nat. replace ((stop - start + S m - 1) / S m)%nat with 0%nat; [simpl; eauto|].
  symmetry. apply Nat.div_small. lia.
Qed.
Lemma segment_bins_fraction : exists start stop nbin step l s,
  (0 < step <= nbin)%nat /\ calculate_segment_bin_start start stop nbin step = Ok l /\
  In s l /\ (stop < s + nbin)%nat.
Proof. exists 0%nat, 10%nat, 4%nat, 1%nat. eexists. exists 8%nat. split; [lia|]. split; [vm_compute; reflexivity|].
  split; [simpl; tauto|lia]. Qed.

(* bin_intervals_from_gtis with fraction_step = 1 *)
Lemma bin_loop_main time seg d eps nbin : (0 < nbin)%nat -> increasing time ->
  forall g st, bin_intervals_loop time seg d eps nbin nbin g = Ok st ->
  exists used : list (nat * nat),
    Forall2 (fun (iv : Q * Q) b => border_bins_one time (fst iv) (snd iv) = Ok b /\ (fst b < snd b)%nat)
            (filter (fun iv : Q * Q => negb (qlt (snd iv - fst iv + d + eps * d) seg)) g) used /\
    st = flat_map (fun b : nat * nat => map (fun i => fst b + i * nbin)%nat (seq 0 ((snd b - fst b) / nbin))) used.
Proof.
  intros Hn Hinc. induction g as [|[g0 g1] g IH]; intros st H; simpl in H |- *.
  - inversion H; subst. exists []. split; [constructor|reflexivity].
  - destruct (qlt (g1 - g0 + d + eps * d) seg) eqn:E; simpl.
    + apply IH. assumption.
    + apply bind_ok in H. destruct H as ([i j] & Eb & H). apply bind_ok in H. destruct H as (new & En & H).
      apply bind_ok in H. destruct H as (r & Er & H). inversion H; subst; clear H.
      destruct (IH _ Er) as (used & HF & ->). exists ((i, j) :: used).
      destruct (Nat.lt_ge_cases i j) as [Hij|Hij].
      * split; [constructor; [split; assumption|assumption]|]. simpl.
        simpl in En. rewrite segment_bins_main in En by assumption. inversion En. reflexivity.
      * destruct (segment_bins_empty i j nbin nbin Hij) as [e Ee]. simpl in En. rewrite Ee in En. discriminate.
Qed.
Lemma unbinned_total times g seg eps : 0 < seg -> nondecreasing times ->
  (exists a b, In (a, b) g /\ seg < b - a + eps) ->
  exists out, generate_indices_of_segment_boundaries_unbinned times g seg eps = Ok out.
Proof.
  intros Hs Ht (a & b & Hin & Hlt). unfold generate_indices_of_segment_boundaries_unbinned.
  destruct (time_intervals_from_gtis g seg 1 eps) as [ss|e] eqn:E; simpl.
  - rewrite (proj2 (is_sorted_iff times) Ht). simpl. eauto.
  - exfalso. assert (H := proj1 (time_intervals_err g seg eps Hs) (ex_intro _ e E) a b Hin). lra.
Qed.
