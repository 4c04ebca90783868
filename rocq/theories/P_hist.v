(* P_hist.v: proofs about the histograms. *)
From Verif Require Import Np Lib S_gti S_seg S_utils M_gti M_seg M_utils P_seg_regions P_seg_cut P_rebin.
From Coq Require Import Lqa Sorted.
Open Scope Q_scope.

(* ---------- the bin of one event ---------- *)
Lemma bins_pos n : (0 < n)%nat -> 0 < inject_Z (Z.of_nat n).
Proof. intros H. change 0 with (inject_Z 0). rewrite <- Zlt_Qlt. lia. Qed.
Lemma width_pos r n : fst r < snd r -> (0 < n)%nat -> 0 < (snd r - fst r) / inject_Z (Z.of_nat n).
Proof. intros H Hn. apply Qlt_shift_div_l; [apply bins_pos; assumption|]. lra. Qed.
Lemma hist_pos_mul r n t : fst r < snd r -> (0 < n)%nat ->
  hist_pos r n t * ((snd r - fst r) / inject_Z (Z.of_nat n)) == t - fst r.
Proof.
  intros H Hn. assert (W := width_pos r n H Hn). assert (B := bins_pos n Hn). unfold hist_pos. field. split; lra.
Qed.
Lemma width_mul r n : (0 < n)%nat -> inject_Z (Z.of_nat n) * ((snd r - fst r) / inject_Z (Z.of_nat n)) == snd r - fst r.
Proof. intros Hn. assert (B := bins_pos n Hn). field. lra. Qed.

Lemma pos_le r n t q : fst r < snd r -> (0 < n)%nat ->
  (q <= hist_pos r n t <-> fst r + q * ((snd r - fst r) / inject_Z (Z.of_nat n)) <= t).
Proof.
  intros H Hn. assert (W := width_pos r n H Hn). assert (E := hist_pos_mul r n t H Hn).
  set (w := (snd r - fst r) / inject_Z (Z.of_nat n)) in *. split; intros L.
  - assert (q * w <= hist_pos r n t * w) by (apply Qmult_le_compat_r; lra). lra.
  - apply Qmult_lt_0_le_reg_r with w; [assumption|]. lra.
Qed.
Lemma pos_lt r n t q : fst r < snd r -> (0 < n)%nat ->
  (hist_pos r n t < q <-> t < fst r + q * ((snd r - fst r) / inject_Z (Z.of_nat n))).
Proof.
  intros H Hn. assert (P := pos_le r n t q H Hn). split; intros L.
  - apply Qnot_le_lt. intros C. apply P in C. lra.
  - apply Qnot_le_lt. intros C. apply P in C. lra.
Qed.
Lemma in_hist_range r n t : fst r < snd r -> (0 < n)%nat -> in_hist n (hist_pos r n t) = in_range r t.
Proof.
  intros H Hn. unfold in_hist, in_range. f_equal; apply eq_true_iff_eq.
  - rewrite !qle_t. rewrite pos_le by assumption. split; intros; lra.
  - rewrite !qlt_t. rewrite pos_lt by assumption. rewrite width_mul by assumption. split; intros; lra.
Qed.
Lemma floor_iff q k : Qfloor q = k <-> inject_Z k <= q /\ q < inject_Z (k + 1).
Proof.
  split.
  - intros <-. split; [apply Qfloor_le|apply Qlt_floor].
  - intros [A B]. assert (F1 := Qfloor_le q). assert (F2 := Qlt_floor q).
    assert (C1 : inject_Z k < inject_Z (Qfloor q + 1)) by lra. assert (C2 : inject_Z (Qfloor q) < inject_Z (k + 1)) by lra.
    rewrite <- Zlt_Qlt in C1, C2. lia.
Qed.
Lemma in_bin_iff r n k t : fst r < snd r -> (0 < n)%nat -> (k < n)%nat ->
  in_bin r n k t = (in_hist n (hist_pos r n t) && Nat.eqb k (Z.to_nat (py_int (hist_pos r n t))))%bool.
Proof.
  intros H Hn Hk. apply eq_true_iff_eq. unfold in_bin, in_hist. rewrite !andb_true_iff, !qle_t, !qlt_t, Nat.eqb_eq.
  rewrite <- pos_le, <- pos_lt by assumption. set (p := hist_pos r n t). split.
  - intros [A B]. assert (0 <= p) by (assert (Z := zof_0 k); lra). split; [split|].
    + assumption.
    + assert (inject_Z (Z.of_nat k + 1) <= inject_Z (Z.of_nat n)) by (rewrite <- Zle_Qle; lia). lra.
    + unfold py_int. replace (qle 0 p) with true by (symmetry; apply qle_t; assumption).
      assert (Qfloor p = Z.of_nat k) by (apply floor_iff; split; assumption). lia.
  - intros [ [A B] C]. unfold py_int in C. replace (qle 0 p) with true in C by (symmetry; apply qle_t; assumption).
    assert (0 <= Qfloor p)%Z.
    { assert (F2 := Qlt_floor p). assert (C1 : inject_Z 0 < inject_Z (Qfloor p + 1)) by (change (inject_Z 0) with 0; lra).
      rewrite <- Zlt_Qlt in C1. lia. }
    apply floor_iff. lia.
Qed.
Lemma int_lt r n t : fst r < snd r -> (0 < n)%nat -> in_hist n (hist_pos r n t) = true -> (Z.to_nat (py_int (hist_pos r n t)) < n)%nat.
Proof.
  intros H Hn E. unfold in_hist in E. apply andb_true_iff in E. destruct E as [A B]. unfold py_int. rewrite A.
  apply qle_t in A. apply qlt_t in B. assert (F := Qfloor_le (hist_pos r n t)).
  assert (C : inject_Z (Qfloor (hist_pos r n t)) < inject_Z (Z.of_nat n)) by lra. rewrite <- Zlt_Qlt in C. lia.
Qed.
(* The equal bins partition the range. *)
Lemma bins_partition r n t : fst r < snd r -> (0 < n)%nat -> in_range r t = true ->
  exists k, (k < n)%nat /\ in_bin r n k t = true /\ forall k', (k' < n)%nat -> in_bin r n k' t = true -> k' = k.
Proof.
  intros H Hn E. rewrite <- (in_hist_range r n t) in E by assumption.
  exists (Z.to_nat (py_int (hist_pos r n t))). assert (L := int_lt r n t H Hn E). split; [assumption|]. split.
  - rewrite in_bin_iff, E, Nat.eqb_refl by assumption. reflexivity.
  - intros k' Hk' E'. rewrite in_bin_iff, E in E' by assumption. simpl in E'. apply Nat.eqb_eq in E'. assumption.
Qed.
Lemma in_bin_in_range r n k t : fst r < snd r -> (0 < n)%nat -> (k < n)%nat -> in_bin r n k t = true -> in_range r t = true.
Proof.
  intros H Hn Hk E. rewrite in_bin_iff in E by assumption. apply andb_true_iff in E. rewrite <- (in_hist_range r n) by assumption. apply E.
Qed.

(* ---------- updates ---------- *)
Lemma add_at_len H : forall k w, length (add_at H k w) = length H.
Proof. induction H as [|h H IH]; intros [|k] w; simpl; auto. Qed.
Lemma add_at_nth H : forall k w j h, nth_error H j = Some h ->
  exists h', nth_error (add_at H k w) j = Some h' /\ h' == h + (if Nat.eqb j k then w else 0).
Proof.
  induction H as [|h0 H IH]; intros k w j h Hj; [destruct j; discriminate|].
  destruct k as [|k], j as [|j]; simpl in *.
  - injection Hj as ->. eexists. split; reflexivity.
  - exists h. split; [assumption|ring].
  - injection Hj as ->. exists h. split; [reflexivity|ring].
  - apply IH. assumption.
Qed.
Lemma add_at_total H : forall k w, (k < length H)%nat -> total (add_at H k w) == total H + w.
Proof.
  induction H as [|h0 H IH]; intros k w Hk; [simpl in Hk; lia|].
  destruct k as [|k]; simpl; [ring|]. rewrite IH by (simpl in Hk; lia). ring.
Qed.
Lemma total_repeat n : total (repeat 0 n) == 0.
Proof. induction n as [|n IH]; [reflexivity|]. simpl. rewrite IH. reflexivity. Qed.
Lemma nth_repeat {A} (a : A) n k : (k < n)%nat -> nth_error (repeat a n) k = Some a.
Proof. revert k. induction n as [|n IH]; intros [|k] H; simpl; try lia; try reflexivity. apply IH. lia. Qed.

(* A fold whose step adds [w a] at the positions where [p] holds. *)
Lemma fold_content {A} (f : list Q -> A -> list Q) (w : A -> Q) (p : A -> bool) k tracks :
  forall H h, (forall H a h, nth_error H k = Some h -> exists h', nth_error (f H a) k = Some h' /\ h' == h + (if p a then w a else 0)) ->
  nth_error H k = Some h ->
  exists h', nth_error (fold_left f tracks H) k = Some h' /\ h' == h + content p (map (fun a => (a, w a)) tracks).
Proof.
  induction tracks as [|a tracks IH]; intros H h Hf Hk; simpl.
  - exists h. split; [assumption|ring].
  - destruct (Hf H a h Hk) as (h1 & E1 & Q1). destruct (IH (f H a) h1 Hf E1) as (h2 & E2 & Q2).
    exists h2. split; [assumption|]. rewrite Q2, Q1. ring.
Qed.
Lemma fold_len {A} (f : list Q -> A -> list Q) tracks : (forall H a, length (f H a) = length H) -> forall H, length (fold_left f tracks H) = length H.
Proof. intros Hf. induction tracks as [|a tracks IH]; intros H; simpl; [reflexivity|]. rewrite IH. apply Hf. Qed.
Lemma fold_total {A} (f : list Q -> A -> list Q) (w : A -> Q) (p : A -> bool) n tracks :
  (forall H a, length H = n -> length (f H a) = n /\ total (f H a) == total H + (if p a then w a else 0)) ->
  forall H, length H = n -> total (fold_left f tracks H) == total H + content p (map (fun a => (a, w a)) tracks).
Proof.
  intros Hf. induction tracks as [|a tracks IH]; intros H HL; simpl; [ring|].
  destruct (Hf H a HL) as [L T]. rewrite IH by assumption. rewrite T. ring.
Qed.
Lemma content_count {A} (p : A -> bool) l : content p (map (fun a => (a, 1)) l) == inject_Z (Z.of_nat (count p l)).
Proof.
  induction l as [|a l IH]; [reflexivity|]. simpl content. rewrite IH. cbn [count]. destruct (p a).
  - rewrite Nat2Z.inj_add, inject_Z_plus. reflexivity.
  - simpl plus. ring.
Qed.

(* ---------- one dimension ---------- *)
Lemma hist1d_main tracks n r : fst r < snd r -> (0 < n)%nat ->
  length (hist1d tracks n r) = n /\
  (forall k, (k < n)%nat -> exists h, nth_error (hist1d tracks n r) k = Some h /\ h == inject_Z (Z.of_nat (count (in_bin r n k) tracks))) /\
  total (hist1d tracks n r) == inject_Z (Z.of_nat (count (in_range r) tracks)).
Proof.
  intros H Hn. unfold hist1d. split; [|split].
  - rewrite fold_len; [apply repeat_length|]. intros H0 a. destruct (in_hist _ _); [apply add_at_len|reflexivity].
  - intros k Hk.
    destruct (fold_content (fun H t => let i := hist_pos r n t in if in_hist n i then add_at H (Z.to_nat (py_int i)) 1 else H)
               (fun _ => 1) (in_bin r n k) k tracks (repeat 0 n) 0) as (h & E & Eh).
    { intros H0 a h Hh. cbv zeta. rewrite in_bin_iff by assumption. destruct (in_hist n (hist_pos r n a)); simpl.
      - apply add_at_nth. assumption.
      - exists h. split; [assumption|ring]. }
    { apply nth_repeat. assumption. }
    exists h. split; [assumption|]. rewrite Eh, content_count. ring.
  - rewrite (fold_total _ (fun _ => 1) (in_range r) n); [|intros H0 a HL|apply repeat_length].
    + rewrite total_repeat, content_count. ring.
    + cbv zeta. rewrite <- (in_hist_range r n) by assumption. destruct (in_hist n (hist_pos r n a)) eqn:E.
      * split; [rewrite add_at_len; assumption|]. apply add_at_total. rewrite HL. apply int_lt; assumption.
      * split; [assumption|ring].
Qed.

Lemma content_ext {A} (p q : A -> bool) l : (forall a, p a = q a) -> content p l = content q l.
Proof. intros E. induction l as [|[a w] l IH]; [reflexivity|]. simpl. rewrite E, IH. reflexivity. Qed.
Lemma content_map {A B} (f : A -> B) (p : B -> bool) (w : A -> Q) l :
  content p (map (fun a => (f a, w a)) l) = content (fun a => p (f a)) (map (fun a => (a, w a)) l).
Proof. induction l as [|a l IH]; [reflexivity|]. simpl. rewrite IH. reflexivity. Qed.
Lemma map_id_q l : map (fun v : Q => v) l = l.
Proof. induction l as [|a l IH]; [reflexivity|]. simpl. rewrite IH. reflexivity. Qed.

Lemma hist1d_weight_main tracks weights n r : fst r < snd r -> (0 < n)%nat ->
  length (hist1d_weight idq tracks weights n r) = n /\
  (forall k, (k < n)%nat -> exists h, nth_error (hist1d_weight idq tracks weights n r) k = Some h /\
     h == content (in_bin r n k) (combine tracks weights)) /\
  total (hist1d_weight idq tracks weights n r) == content (in_range r) (combine tracks weights).
Proof.
  intros H Hn. unfold hist1d_weight. split; [|split].
  - rewrite fold_len; [apply repeat_length|]. intros H0 a. cbv zeta. destruct (in_hist _ _); [rewrite map_length; apply add_at_len|reflexivity].
  - intros k Hk.
    destruct (fold_content (fun H (tw : Q * Q) => let i := hist_pos r n (fst tw) in
                if in_hist n i then map idq (add_at H (Z.to_nat (py_int i)) (snd tw)) else H)
               snd (fun tw => in_bin r n k (fst tw)) k (combine tracks weights) (repeat 0 n) 0) as (h & E & Eh).
    { intros H0 a h Hh. cbv zeta. rewrite in_bin_iff by assumption. rewrite map_id_q. destruct (in_hist n (hist_pos r n (fst a))); simpl.
      - apply add_at_nth. assumption.
      - exists h. split; [assumption|ring]. }
    { apply nth_repeat. assumption. }
    exists h. split; [assumption|]. rewrite Eh. rewrite <- content_map.
    replace (map (fun a : Q * Q => (fst a, snd a)) (combine tracks weights)) with (combine tracks weights); [ring|].
    clear. induction (combine tracks weights) as [|[a b] l IH]; [reflexivity|]. simpl. rewrite <- IH. reflexivity.
  - rewrite (fold_total _ snd (fun tw => in_range r (fst tw)) n); [|intros H0 a HL|apply repeat_length].
    + rewrite total_repeat. rewrite <- content_map.
      replace (map (fun a : Q * Q => (fst a, snd a)) (combine tracks weights)) with (combine tracks weights); [ring|].
      clear. induction (combine tracks weights) as [|[a b] l IH]; [reflexivity|]. simpl. rewrite <- IH. reflexivity.
    + cbv zeta. rewrite map_id_q. rewrite <- (in_hist_range r n) by assumption. destruct (in_hist n (hist_pos r n (fst a))) eqn:E.
      * split; [rewrite add_at_len; assumption|]. apply add_at_total. rewrite HL. apply int_lt; assumption.
      * split; [assumption|ring].
Qed.
Lemma hist1d_weight_integer : exists tracks weights n r h,
  fst r < snd r /\ length tracks = length weights /\ Forall (fun t => exists z, t = inject_Z z) tracks /\
  nth_error (hist1d_weight to_int tracks weights n r) 0 = Some h /\ h == 0 /\ content (in_bin r n 0) (combine tracks weights) == 1.
Proof.
  exists [0; 0], [1 # 2; 1 # 2], 2%nat, (0, 4). eexists. split; [reflexivity|]. split; [reflexivity|]. split.
  - repeat constructor; exists 0%Z; reflexivity.
  - split; [vm_compute; reflexivity|]. split; reflexivity.
Qed.

(* ---------- numba against numpy ---------- *)
Lemma filter_count {A} (p : A -> bool) l : length (filter p l) = count p l.
Proof. induction l as [|a l IH]; [reflexivity|]. simpl. destruct (p a); simpl; rewrite IH; reflexivity. Qed.
Lemma count_ext {A} (p q : A -> bool) l : (forall a, In a l -> p a = q a) -> count p l = count q l.
Proof.
  induction l as [|a l IH]; intros E; [reflexivity|]. simpl. rewrite (E a (or_introl eq_refl)), IH; [reflexivity|].
  intros b Hb. apply E. right. assumption.
Qed.
Lemma np_histogram_nth tracks n r k : (k < n)%nat ->
  nth_error (np_histogram tracks n r) k = Some (inject_Z (Z.of_nat (count (fun t =>
    (in_bin r n k t || (Nat.eqb (S k) n && qeq t (fst r + inject_Z (Z.of_nat (S k)) * ((snd r - fst r) / inject_Z (Z.of_nat n))) &&
       qle (fst r + inject_Z (Z.of_nat k) * ((snd r - fst r) / inject_Z (Z.of_nat n))) t))%bool) tracks))).
Proof.
  intros Hk. unfold np_histogram. rewrite nth_error_map, (nth_error_nth' _ 0%nat) by (rewrite seq_length; assumption).
  rewrite seq_nth by assumption. cbn [option_map]. do 3 f_equal. rewrite filter_count. apply count_ext. intros t _.
  unfold in_bin. replace (Z.of_nat k + 1)%Z with (Z.of_nat (S k)) by lia.
  change (0 + k)%nat with k.
  set (hi := fst r + inject_Z (Z.of_nat (S k)) * ((snd r - fst r) / inject_Z (Z.of_nat n))).
  set (lo := fst r + inject_Z (Z.of_nat k) * ((snd r - fst r) / inject_Z (Z.of_nat n))).
  destruct (Nat.eqb (S k) n); [|simpl; rewrite orb_false_r; reflexivity]. rewrite andb_true_l.
  destruct (qle lo t); [simpl|simpl; rewrite andb_false_r; reflexivity]. rewrite andb_true_r.
  apply eq_true_iff_eq. rewrite orb_true_iff, qle_t, qlt_t, qeq_t. split; intros L; [|destruct L; lra].
  destruct (Qlt_le_dec t hi); [left; assumption|right; lra].
Qed.
Lemma histogram_backends tracks n r : fst r < snd r -> (0 < n)%nat -> (forall t, In t tracks -> ~ t == snd r) ->
  Forall2 Qeq (histogram true tracks n r) (histogram false tracks n r).
Proof.
  intros H Hn Hne. simpl. destruct (hist1d_main tracks n r H Hn) as (L & P & _).
  assert (G : forall (l1 l2 : list Q), length l1 = length l2 ->
     (forall k a b, nth_error l1 k = Some a -> nth_error l2 k = Some b -> a == b) -> Forall2 Qeq l1 l2).
  { induction l1 as [|a l1 IH]; intros [|b l2] HL HP; try discriminate; constructor.
    - apply (HP 0%nat); reflexivity.
    - apply IH; [simpl in HL; lia|]. intros k. apply (HP (S k)). }
  apply G.
  - rewrite L. unfold np_histogram. rewrite map_length, seq_length. reflexivity.
  - intros k a b Ha Hb. assert (Hk : (k < n)%nat) by (rewrite <- L; apply nth_error_Some; congruence).
    destruct (P k Hk) as (h & E & Eh). assert (h = a) by congruence. subst h. rewrite Eh.
    rewrite np_histogram_nth in Hb by assumption.
    assert (Hinj : forall u v : Q, Some u = Some v -> v = u) by congruence. apply Hinj in Hb. rewrite Hb.
    match goal with |- inject_Z (Z.of_nat (count ?p _)) == inject_Z (Z.of_nat (count ?q _)) => rewrite (count_ext p q); [reflexivity|] end.
    intros t Ht. cbv beta.
    destruct (Nat.eqb (S k) n) eqn:E1; [|cbn [andb]; rewrite orb_false_r; reflexivity].
    apply Nat.eqb_eq in E1. replace (qeq t _) with false; [cbn [andb]; rewrite orb_false_r; reflexivity|].
    symmetry. apply qeq_f. intros C. apply (Hne t Ht). rewrite C, E1. rewrite width_mul by assumption. ring.
Qed.
Lemma histogram_upper_edge : exists tracks n r, fst r < snd r /\
  ~ Forall2 Qeq (histogram true tracks n r) (histogram false tracks n r).
Proof.
  exists [1; 4], 2%nat, (0, 4). split; [reflexivity|]. intros C. vm_compute in C.
  inversion C as [|? ? ? ? _ C2]; subst. inversion C2 as [|? ? ? ? C3 _]; subst. discriminate.
Qed.

(* ---------- two dimensions ---------- *)
Definition get2 (H : list (list Q)) (i j : nat) : option Q := match nth_error H i with Some row => nth_error row j | None => None end.
Lemma add_at2_get H : forall i j w a b h, get2 H a b = Some h ->
  exists h', get2 (add_at2 H i j w) a b = Some h' /\ h' == h + (if Nat.eqb a i && Nat.eqb b j then w else 0).
Proof.
  induction H as [|row H IH]; intros i j w a b h Hh; [destruct a; discriminate|].
  destruct i as [|i], a as [|a]; unfold get2 in *; simpl in *.
  - apply add_at_nth. assumption.
  - exists h. split; [assumption|ring].
  - exists h. split; [assumption|ring].
  - apply (IH i j w a b h Hh).
Qed.
Lemma fold_content2 {A} (f : list (list Q) -> A -> list (list Q)) (w : A -> Q) (p : A -> bool) i j tracks :
  forall H h, (forall H a h, get2 H i j = Some h -> exists h', get2 (f H a) i j = Some h' /\ h' == h + (if p a then w a else 0)) ->
  get2 H i j = Some h ->
  exists h', get2 (fold_left f tracks H) i j = Some h' /\ h' == h + content p (map (fun a => (a, w a)) tracks).
Proof.
  induction tracks as [|a tracks IH]; intros H h Hf Hk; simpl.
  - exists h. split; [assumption|ring].
  - destruct (Hf H a h Hk) as (h1 & E1 & Q1). destruct (IH (f H a) h1 Hf E1) as (h2 & E2 & Q2).
    exists h2. split; [assumption|]. rewrite Q2, Q1. ring.
Qed.
Lemma get2_repeat bx by_ i j : (i < bx)%nat -> (j < by_)%nat -> get2 (repeat (repeat 0 by_) bx) i j = Some 0.
Proof. intros Hi Hj. unfold get2. rewrite nth_repeat by assumption. apply nth_repeat. assumption. Qed.

Lemma hist2d_weight_main tracks bx by_ rx ry i j : fst rx < snd rx -> fst ry < snd ry -> (i < bx)%nat -> (j < by_)%nat ->
  exists h, get2 (hist2d_weight tracks bx by_ rx ry) i j = Some h /\
    h == content (fun xy : Q * Q => in_bin rx bx i (fst xy) && in_bin ry by_ j (snd xy)) tracks.
Proof.
  intros Hx Hy Hi Hj. unfold hist2d_weight.
  destruct (fold_content2 (fun H t => let '(x, y, w) := t in
                        let i := hist_pos rx bx x in let j := hist_pos ry by_ y in
                        if in_hist bx i && in_hist by_ j
                        then add_at2 H (Z.to_nat (py_int i)) (Z.to_nat (py_int j)) w else H)
             snd (fun t : Q * Q * Q => in_bin rx bx i (fst (fst t)) && in_bin ry by_ j (snd (fst t)))%bool i j tracks (repeat (repeat 0 by_) bx) 0)
    as (h & E & Eh).
  { intros H [ [x y] w] h Hh. cbv zeta. cbn [fst snd]. rewrite !in_bin_iff by (try assumption; lia).
    destruct (in_hist bx (hist_pos rx bx x)); [|exists h; split; [assumption|simpl; ring] ].
    destruct (in_hist by_ (hist_pos ry by_ y)); cbn [andb]; [|exists h; rewrite andb_false_r; split; [assumption|simpl; ring] ].
    apply add_at2_get. assumption. }
  { apply get2_repeat; assumption. }
  exists h. split; [assumption|]. rewrite Eh, Qplus_0_l. clear.
  induction tracks as [|[ [x y] w] l IH]; [reflexivity|]. simpl. rewrite IH. reflexivity.
Qed.
Lemma hist2d_main tracks bx by_ rx ry i j : fst rx < snd rx -> fst ry < snd ry -> (i < bx)%nat -> (j < by_)%nat ->
  exists h, get2 (hist2d tracks bx by_ rx ry) i j = Some h /\
    h == inject_Z (Z.of_nat (count (fun xy : Q * Q => in_bin rx bx i (fst xy) && in_bin ry by_ j (snd xy))%bool tracks)).
Proof.
  intros Hx Hy Hi Hj. unfold hist2d.
  destruct (hist2d_weight_main (map (fun p => (fst p, snd p, 1)) tracks) bx by_ rx ry i j Hx Hy Hi Hj) as (h & E & Eh).
  exists h. split; [assumption|]. rewrite Eh. rewrite <- content_count. clear.
  induction tracks as [|[x y] l IH]; [reflexivity|]. simpl. rewrite IH. reflexivity.
Qed.

(* ---------- three dimensions ---------- *)
Definition get3 (H : list (list (list Q))) (i j k : nat) : option Q := match nth_error H i with Some h => get2 h j k | None => None end.
Lemma add_at3_get H : forall i j k w a b c h, get3 H a b c = Some h ->
  exists h', get3 (add_at3 H i j k w) a b c = Some h' /\ h' == h + (if Nat.eqb a i && Nat.eqb b j && Nat.eqb c k then w else 0).
Proof.
  induction H as [|row H IH]; intros i j k w a b c h Hh; [destruct a; discriminate|].
  destruct i as [|i], a as [|a]; unfold get3 in *; simpl in *.
  - apply add_at2_get. assumption.
  - exists h. split; [assumption|ring].
  - exists h. split; [assumption|ring].
  - apply (IH i j k w a b c h Hh).
Qed.
Lemma wrap_index_in n r t : fst r < snd r -> (0 < n)%nat -> in_range r t = true ->
  wrap_index n (py_int (hist_pos r n t)) = Ok (Z.to_nat (py_int (hist_pos r n t))).
Proof.
  intros H Hn E. rewrite <- (in_hist_range r n) in E by assumption. assert (L := int_lt r n t H Hn E).
  unfold in_hist in E. apply andb_true_iff in E. destruct E as [E _].
  assert (0 <= py_int (hist_pos r n t))%Z.
  { unfold py_int. rewrite E. apply qle_t in E. assert (F2 := Qlt_floor (hist_pos r n t)).
    assert (C1 : inject_Z 0 < inject_Z (Qfloor (hist_pos r n t) + 1)) by (change (inject_Z 0) with 0; lra).
    rewrite <- Zlt_Qlt in C1. lia. }
  unfold wrap_index. replace (0 <=? py_int (hist_pos r n t))%Z with true by (symmetry; apply Z.leb_le; assumption).
  replace (py_int (hist_pos r n t) <? Z.of_nat n)%Z with true by (symmetry; apply Z.ltb_lt; lia). reflexivity.
Qed.
(* Right only if all third coordinates are in range. *)
Lemma hist3d_main tracks bx by_ bz rx ry rz : fst rx < snd rx -> fst ry < snd ry -> fst rz < snd rz ->
  (0 < bx)%nat -> (0 < by_)%nat -> (0 < bz)%nat ->
  (forall x y z w, In (x, y, z, w) tracks -> in_range rz z = true) ->
  exists H, hist3d_weight tracks bx by_ bz rx ry rz = Ok H /\
    forall i j k, (i < bx)%nat -> (j < by_)%nat -> (k < bz)%nat -> exists h, get3 H i j k = Some h /\
    h == content (fun v : Q * Q * Q => in_bin rx bx i (fst (fst v)) && in_bin ry by_ j (snd (fst v)) && in_bin rz bz k (snd v)) tracks.
Proof.
  intros Hx Hy Hz Bx By Bz Hr. unfold hist3d_weight.
  assert (G : forall H, exists H', hist3d_loop bx by_ bz rx ry rz tracks H = Ok H' /\
     forall i j k h, (i < bx)%nat -> (j < by_)%nat -> (k < bz)%nat -> get3 H i j k = Some h -> exists h', get3 H' i j k = Some h' /\
     h' == h + content (fun v : Q * Q * Q => in_bin rx bx i (fst (fst v)) && in_bin ry by_ j (snd (fst v)) && in_bin rz bz k (snd v)) tracks).
  { induction tracks as [|[ [ [x y] z] w] tracks IH]; intros H.
    - exists H. split; [reflexivity|]. intros i j k h _ _ _ Hh. exists h. split; [assumption|simpl; ring].
    - assert (IH' := IH (fun a b c d Hin => Hr a b c d (or_intror Hin))). clear IH.
      assert (Hzr := Hr x y z w (or_introl eq_refl)). cbn [hist3d_loop content].
      destruct (in_hist bx (hist_pos rx bx x) && in_hist by_ (hist_pos ry by_ y))%bool eqn:E.
      + rewrite wrap_index_in by assumption. cbn [bind].
        destruct (IH' (add_at3 H (Z.to_nat (py_int (hist_pos rx bx x))) (Z.to_nat (py_int (hist_pos ry by_ y))) (Z.to_nat (py_int (hist_pos rz bz z))) w)) as (H' & E' & P).
        exists H'. split; [assumption|]. intros i j k h Hi Hj Hk Hh.
        destruct (add_at3_get H (Z.to_nat (py_int (hist_pos rx bx x))) (Z.to_nat (py_int (hist_pos ry by_ y))) (Z.to_nat (py_int (hist_pos rz bz z))) w i j k h Hh) as (h1 & E1 & Q1).
        destruct (P i j k h1 Hi Hj Hk E1) as (h2 & E2 & Q2). exists h2. split; [assumption|]. rewrite Q2, Q1. cbn [fst snd].
        rewrite !in_bin_iff by assumption. rewrite (in_hist_range rz bz z) by assumption. rewrite Hzr.
        apply andb_true_iff in E. destruct E as [-> ->]. cbn [andb]. ring.
      + destruct (IH' H) as (H' & E' & P). exists H'. split; [assumption|]. intros i j k h Hi Hj Hk Hh.
        destruct (P i j k h Hi Hj Hk Hh) as (h2 & E2 & Q2). exists h2. split; [assumption|]. rewrite Q2. cbn [fst snd].
        rewrite !in_bin_iff by assumption. apply andb_false_iff in E.
        destruct E as [-> | ->]; cbn [andb]; rewrite ?andb_false_r; cbn [andb]; ring. }
  destruct (G (repeat (repeat (repeat 0 bz) by_) bx)) as (H' & E' & P). exists H'. split; [assumption|].
  intros i j k Hi Hj Hk. destruct (P i j k 0 Hi Hj Hk) as (h & E & Eh).
  { unfold get3. rewrite nth_repeat by assumption. apply get2_repeat; assumption. }
  exists h. split; [assumption|]. rewrite Eh. ring.
Qed.
Lemma hist3d_out_of_range_counted : exists x y z b r H h, fst r < snd r /\ in_range r z = false /\ z < fst r /\
  hist3d_weight [(x, y, z, 1)] b b b r r r = Ok H /\ get3 H 0 0 1 = Some h /\ h == 1.
Proof.
  exists 0, 0, (-(1 # 2)), 2%nat, (0, 1). eexists. eexists. split; [reflexivity|]. split; [reflexivity|]. split; [reflexivity|].
  split; [vm_compute; reflexivity|]. split; reflexivity.
Qed.
Lemma hist3d_out_of_bounds : exists x y z b r, fst r < snd r /\ snd r <= z /\
  hist3d_weight [(x, y, z, 1)] b b b r r r = Err IndexError.
Proof. exists 0, 0, 1, 2%nat, (0, 1). split; [reflexivity|]. split; [discriminate|]. vm_compute. reflexivity. Qed.

(* ---------- n dimensions ---------- *)
Fixpoint idx_ok (bins idx : list nat) : Prop :=
  match bins, idx with
  | [], [] => True
  | b :: bins', i :: idx' => (i < b)%nat /\ idx_ok bins' idx'
  | _, _ => False
  end.
Lemma flat_lt bins : forall idx, idx_ok bins idx -> (flat_index bins idx < fold_right Nat.mul 1 bins)%nat.
Proof.
  induction bins as [|b bins IH]; intros [|i idx] H; simpl in *; try contradiction; try lia.
  destruct H as [Hi H]. specialize (IH idx H). set (P := fold_right Nat.mul 1%nat bins) in *.
  assert (i * P + P <= b * P)%nat by (replace (i * P + P)%nat with (S i * P)%nat by (simpl; lia); apply Nat.mul_le_mono_r; lia). lia.
Qed.
Lemma flat_inj bins : forall idx idx', idx_ok bins idx -> idx_ok bins idx' -> flat_index bins idx = flat_index bins idx' -> idx = idx'.
Proof.
  induction bins as [|b bins IH]; intros [|i idx] [|i' idx'] H H' E; simpl in *; try contradiction; try reflexivity.
  destruct H as [Hi H], H' as [Hi' H']. assert (L := flat_lt bins idx H). assert (L' := flat_lt bins idx' H').
  set (P := fold_right Nat.mul 1%nat bins) in *.
  assert (i = i') by (apply (Nat.div_unique (i * P + flat_index bins idx) P i (flat_index bins idx)) in L; [|lia];
     apply (Nat.div_unique (i' * P + flat_index bins idx') P i' (flat_index bins idx')) in L'; [|lia]; congruence).
  subst i'. f_equal. apply IH; try assumption. lia.
Qed.
Definition ranges_ok (rs : list (Q * Q)) : Prop := forall r, In r rs -> fst r < snd r.
Lemma positions_bins rs : forall bins idx t, length bins = length rs -> length t = length rs -> ranges_ok rs -> idx_ok bins idx ->
  in_bins rs bins idx t = (all_in bins (positions rs bins t) &&
    (if list_eq_dec Nat.eq_dec idx (map (fun p => Z.to_nat (py_int p)) (positions rs bins t)) then true else false))%bool.
Proof.
  induction rs as [|r rs IH]; intros [|b bins] [|i idx] [|v t] L1 L2 Hr Hi; try discriminate; try contradiction.
  - destruct (list_eq_dec Nat.eq_dec [] _) as [e|e]; [reflexivity|]. exfalso. apply e. reflexivity.
  - cbn [in_bins positions map]. destruct Hi as [Hi Hi']. 
    assert (Hr0 : fst r < snd r) by (apply Hr; left; reflexivity).
    rewrite (IH bins idx t) by (auto; intros r' Hr'; apply Hr; right; assumption).
    rewrite in_bin_iff by (try assumption; lia). unfold all_in. cbn [combine forallb fst snd].
    set (k := Z.to_nat (py_int (hist_pos r b v))). set (ks := map (fun p => Z.to_nat (py_int p)) (positions rs bins t)).
    set (A := in_hist b (hist_pos r b v)). set (B := forallb _ _).
    destruct (Nat.eqb i k) eqn:E1; destruct (list_eq_dec Nat.eq_dec idx ks) as [e2|e2];
    destruct (list_eq_dec Nat.eq_dec (i :: idx) (k :: ks)) as [e3|e3]; first [apply Nat.eqb_eq in E1 | apply Nat.eqb_neq in E1];
    try (exfalso; congruence); destruct A, B; reflexivity.
Qed.
Lemma positions_ok rs : forall bins t, length bins = length rs -> length t = length rs -> ranges_ok rs -> (forall b, In b bins -> (0 < b)%nat) ->
  all_in bins (positions rs bins t) = true -> idx_ok bins (map (fun p => Z.to_nat (py_int p)) (positions rs bins t)).
Proof.
  induction rs as [|r rs IH]; intros [|b bins] [|v t] L1 L2 Hr Hb E; try discriminate; [exact I|].
  cbn [positions map idx_ok]. unfold all_in in E. cbn [positions combine forallb fst snd] in E. apply andb_true_iff in E. destruct E as [E1 E2].
  split.
  - apply int_lt; [apply Hr; left; reflexivity|apply Hb; left; reflexivity|assumption].
  - apply IH; auto; [intros r' Hr'; apply Hr; right; assumption|intros b' Hb'; apply Hb; right; assumption].
Qed.
Lemma histnd_main tracks bins rs idx : length bins = length rs -> ranges_ok rs -> idx_ok bins idx ->
  (forall t, In t tracks -> length t = length rs) ->
  exists h, nth_error (histnd tracks bins rs) (flat_index bins idx) = Some h /\
    h == inject_Z (Z.of_nat (count (in_bins rs bins idx) tracks)).
Proof.
  intros HL Hr Hi Ht. unfold histnd.
  assert (Hb : forall b, In b bins -> (0 < b)%nat).
  { clear - Hi. revert idx Hi. induction bins as [|b bins IH]; intros [|i idx] Hi b' Hb'; simpl in *; try contradiction.
    destruct Hi as [Hi Hi']. destruct Hb' as [ <- | Hb']; [lia|apply (IH idx); assumption]. }
  set (f := fun H t => let pos := positions rs bins t in
            if all_in bins pos then add_at H (flat_index bins (map (fun p => Z.to_nat (py_int p)) pos)) 1 else H).
  assert (G : forall H h, nth_error H (flat_index bins idx) = Some h -> exists h', nth_error (fold_left f tracks H) (flat_index bins idx) = Some h' /\
     h' == h + inject_Z (Z.of_nat (count (in_bins rs bins idx) tracks))).
  { induction tracks as [|t tracks IH]; intros H h Hh.
    - exists h. split; [assumption|]. simpl. ring.
    - cbn [fold_left count]. assert (Lt := Ht t (or_introl eq_refl)).
      assert (S : exists h1, nth_error (f H t) (flat_index bins idx) = Some h1 /\ h1 == h + (if in_bins rs bins idx t then 1 else 0)).
      { unfold f. cbv zeta. rewrite (positions_bins rs bins idx t) by auto.
        destruct (all_in bins (positions rs bins t)) eqn:E; [|exists h; split; [assumption|simpl; ring] ].
        destruct (add_at_nth H (flat_index bins (map (fun p => Z.to_nat (py_int p)) (positions rs bins t))) 1 _ h Hh) as (h1 & E1 & Q1).
        exists h1. split; [assumption|]. rewrite Q1. cbn [andb].
        destruct (list_eq_dec Nat.eq_dec idx _) as [e|e].
        - rewrite <- e, Nat.eqb_refl. reflexivity.
        - destruct (Nat.eqb (flat_index bins idx) _) eqn:En; [|reflexivity]. apply Nat.eqb_eq in En. exfalso. apply e.
          apply (flat_inj bins); try assumption. apply positions_ok; auto. }
      destruct S as (h1 & E1 & Q1). destruct (IH (fun t' Ht' => Ht t' (or_intror Ht')) (f H t) h1 E1) as (h2 & E2 & Q2).
      exists h2. split; [assumption|]. rewrite Q2, Q1. destruct (in_bins rs bins idx t).
      + rewrite Nat2Z.inj_add, inject_Z_plus. change (inject_Z (Z.of_nat 1)) with 1. ring.
      + simpl plus. ring. }
  destruct (G (repeat 0 (fold_right Nat.mul 1%nat bins)) 0) as (h & E & Eh).
  { apply nth_repeat. apply flat_lt. assumption. }
  exists h. split; [assumption|]. rewrite Eh. ring.
Qed.

(* ---------- compute_bin ---------- *)
Lemma compute_bin_main n lo hi x edges : lo < hi -> (0 < n)%nat -> length edges = S n ->
  nth_error edges 0 = Some lo -> nth_error edges n = Some hi ->
  (lo <= x -> x < hi -> exists k, compute_bin x edges = Ok (Some (Z.of_nat k)) /\ (k < n)%nat /\ in_bin (lo, hi) n k x = true) /\
  (x == hi -> compute_bin x edges = Ok (Some (Z.of_nat n - 1)%Z)) /\
  (hi < x -> compute_bin x edges = Ok None) /\
  (x <= lo - (hi - lo) / inject_Z (Z.of_nat n) -> compute_bin x edges = Ok None).
Proof.
  intros H Hn HL H0 H1.
  assert (Hlast : get_last edges = Ok hi).
  { unfold get_last. destruct edges as [|e edges _] using rev_ind; [discriminate|]. rewrite rev_unit.
    rewrite app_length in HL. simpl in HL. rewrite nth_error_app2 in H1 by lia. replace (n - length edges)%nat with 0%nat in H1 by lia.
    injection H1 as ->. reflexivity. }
  assert (Hfirst : get edges 0 = Ok lo) by (unfold get; rewrite H0; reflexivity).
  assert (W := width_pos (lo, hi) n H Hn). assert (B := bins_pos n Hn). cbn [fst snd] in W.
  set (p := inject_Z (Z.of_nat n) * (x - lo) / (hi - lo)).
  assert (Ep : p == hist_pos (lo, hi) n x) by (unfold p, hist_pos; cbn [fst snd]; field; repeat split; lra).
  assert (Ec : compute_bin x edges = if qeq x hi then Ok (Some (Z.of_nat n - 1)%Z)
     else if ((py_int p <? 0) || (Z.of_nat n <=? py_int p))%Z then Ok None else Ok (Some (py_int p))).
  { unfold compute_bin. rewrite Hfirst, Hlast. cbn [bind]. rewrite HL. replace (Z.of_nat (S n) - 1)%Z with (Z.of_nat n) by lia. reflexivity. }
  split; [|split; [|split] ].
  - intros L1 L2. rewrite Ec. replace (qeq x hi) with false by (symmetry; apply qeq_f; lra).
    assert (Hp0 : 0 <= p) by (rewrite Ep; apply pos_le; [assumption|assumption|cbn [fst snd]; lra]).
    assert (Hpn : p < inject_Z (Z.of_nat n)) by (rewrite Ep; apply pos_lt; [assumption|assumption|rewrite width_mul by assumption; cbn [fst snd]; lra]).
    assert (E1 : py_int p = Qfloor p) by (unfold py_int; replace (qle 0 p) with true by (symmetry; apply qle_t; assumption); reflexivity).
    rewrite E1. assert (F1 := Qfloor_le p). assert (F2 := Qlt_floor p).
    assert (C1 : inject_Z 0 < inject_Z (Qfloor p + 1)) by (change (inject_Z 0) with 0; lra).
    assert (C2 : inject_Z (Qfloor p) < inject_Z (Z.of_nat n)) by lra. rewrite <- Zlt_Qlt in C1, C2.
    replace (Qfloor p <? 0)%Z with false by (symmetry; apply Z.ltb_ge; lia).
    replace (Z.of_nat n <=? Qfloor p)%Z with false by (symmetry; apply Z.leb_gt; lia). simpl.
    exists (Z.to_nat (Qfloor p)). rewrite Z2Nat.id by lia. split; [reflexivity|]. split; [lia|].
    unfold in_bin. rewrite Z2Nat.id by lia. apply andb_true_iff. rewrite qle_t, qlt_t.
    rewrite <- (pos_le (lo, hi)), <- (pos_lt (lo, hi)) by assumption. rewrite <- Ep. split; assumption.
  - intros E. rewrite Ec. replace (qeq x hi) with true by (symmetry; apply qeq_t; assumption). reflexivity.
  - intros L. rewrite Ec. replace (qeq x hi) with false by (symmetry; apply qeq_f; lra).
    assert (Hpn : inject_Z (Z.of_nat n) <= p) by (rewrite Ep; apply pos_le; [assumption|assumption|rewrite width_mul by assumption; cbn [fst snd]; lra]).
    assert (Z0 := zof_0 n).
    assert (E1 : py_int p = Qfloor p) by (unfold py_int; replace (qle 0 p) with true by (symmetry; apply qle_t; lra); reflexivity).
    rewrite E1. apply Qfloor_resp_le in Hpn. rewrite Qfloor_Z in Hpn.
    replace (Z.of_nat n <=? Qfloor p)%Z with true by (symmetry; apply Z.leb_le; lia). rewrite orb_true_r. reflexivity.
  - intros L. rewrite Ec. replace (qeq x hi) with false by (symmetry; apply qeq_f; lra).
    assert (Hp : p <= -(1)).
    { destruct (Qlt_le_dec (-(1)) p) as [C|C]; [|assumption]. rewrite Ep in C.
      assert (D : -(1) <= hist_pos (lo, hi) n x) by lra. apply pos_le in D; [|assumption|assumption]. cbn [fst snd] in D.
      assert (x == lo - (hi - lo) / inject_Z (Z.of_nat n)) by lra.
      assert (E2 := hist_pos_mul (lo, hi) n x H Hn). cbn [fst snd] in E2.
      assert (E3 : (hist_pos (lo, hi) n x + 1) * ((hi - lo) / inject_Z (Z.of_nat n)) == 0) by lra.
      assert (0 < (hist_pos (lo, hi) n x + 1) * ((hi - lo) / inject_Z (Z.of_nat n))) by (apply Qmult_lt_0_compat; lra). lra. }
    assert (E1 : py_int p = Qceiling p) by (unfold py_int; replace (qle 0 p) with false by (symmetry; apply qle_f; lra); reflexivity).
    rewrite E1. apply Qceiling_resp_le in Hp. change (Qceiling (-(1))) with (-1)%Z in Hp.
    replace (Qceiling p <? 0)%Z with true by (symmetry; apply Z.ltb_lt; lia). reflexivity.
Qed.
Lemma compute_bin_below : exists x edges, nth_error edges 0 = Some 0 /\ x < 0 /\ compute_bin x edges = Ok (Some 0%Z).
Proof. exists (-(1 # 2)), [0; 1; 2]. split; [reflexivity|]. split; [reflexivity|]. vm_compute. reflexivity. Qed.
