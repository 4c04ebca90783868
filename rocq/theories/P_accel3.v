(* P_accel3.v: proofs about interbinning. *)
From Verif Require Import Np Lib M_utils M_espec Cplx M_fourier M_accel S_fourier S_accel P_accel.
From Coq Require Import Reals List Arith ZArith Permutation Lra Lia.
Import ListNotations.
Open Scope R_scope.

Lemma interleave_len l : length (interleave l) = (2 * length l - 1)%nat.
Proof.
  induction l as [|a l IH]; [reflexivity|]. destruct l as [|b l]; [reflexivity|].
  change (interleave (a :: b :: l)) with (a :: cscal (csub b a) (PI / 4) :: interleave (b :: l)).
  cbn [length] in *. rewrite IH. lia.
Qed.
Lemma interleave_even l i : (i < length l)%nat -> nth (2 * i) (interleave l) c0 = nth i l c0.
Proof.
  revert i. induction l as [|a l IH]; intros i H; [cbn in H; lia|].
  destruct l as [|b l]; [cbn in H; assert (i = 0%nat) as -> by lia; reflexivity|].
  change (interleave (a :: b :: l)) with (a :: cscal (csub b a) (PI / 4) :: interleave (b :: l)).
  destruct i as [|i]; [reflexivity|]. replace (2 * S i)%nat with (S (S (2 * i))) by lia.
  cbn [nth]. apply IH. cbn in *. lia.
Qed.
Lemma interleave_odd l i : (i + 1 < length l)%nat ->
  nth (2 * i + 1) (interleave l) c0 = cscal (csub (nth (i + 1) l c0) (nth i l c0)) (PI / 4).
Proof.
  revert i. induction l as [|a l IH]; intros i H; [cbn in H; lia|].
  destruct l as [|b l]; [cbn in H; lia|].
  change (interleave (a :: b :: l)) with (a :: cscal (csub b a) (PI / 4) :: interleave (b :: l)).
  destruct i as [|i]; [reflexivity|]. replace (2 * S i + 1)%nat with (S (S (2 * i + 1))) by lia.
  replace (S i + 1)%nat with (S (i + 1)) by lia. cbn [nth]. apply IH. cbn in *. lia.
Qed.

Definition grid (f0 d : R) (m : nat) : list R := map (fun j => f0 + INR j * d) (seq 0 m).
Lemma nth_map_seq {B} (f : nat -> B) n i d : (i < n)%nat -> nth i (map f (seq 0 n)) d = f i.
Proof.
  intros H. rewrite (nth_indep _ d (f 0%nat)) by (rewrite map_length, seq_length; lia).
  rewrite map_nth, seq_nth by lia. reflexivity.
Qed.
Lemma linspace_half f0 d n : (0 < n)%nat ->
  linspace (f0 + INR 0 * d) (f0 + INR (n - 1) * d) (2 * Z.of_nat n - 1) = Ok (grid f0 (d / 2) (2 * n - 1)).
Proof.
  intros Hn. unfold linspace. destruct (Z.ltb_spec (2 * Z.of_nat n - 1) 0); [lia|].
  f_equal. replace (Z.to_nat (2 * Z.of_nat n - 1)) with (2 * n - 1)%nat by lia. unfold grid.
  apply map_ext_in. intros i Hi. apply in_seq in Hi. change (INR 0) with 0.
  assert (En : INR (2 * n - 1 - 1) = 2 * INR (n - 1)).
  { replace (2 * n - 1 - 1)%nat with (2 * (n - 1))%nat by lia. rewrite mult_INR. reflexivity. }
  destruct (Nat.ltb_spec 1 (2 * n - 1)) as [L|L]; cbn [andb].
  - destruct (Nat.eqb_spec (i + 1) (2 * n - 1)) as [E|E].
    + replace i with (2 * n - 1 - 1)%nat by lia. rewrite En. field.
    + destruct (Nat.eqb_spec (2 * n - 1 - 1) 0) as [Z|Z]; [lia|]. rewrite En.
      assert (INR (n - 1) <> 0) by (apply not_0_INR; lia). field. assumption.
  - assert (n = 1%nat) as -> by lia. assert (i = 0%nat) as -> by lia. cbn. ring.
Qed.

Lemma halfway_main n f0 d (a : nat -> cx) :
  (0 < n)%nat -> halfway n (fun i => f0 + INR i * d) a (grid f0 (d / 2) (2 * n - 1)) (interleave (map a (seq 0 n))).
Proof.
  intros Hn. unfold halfway. split; [|split; [|split]].
  - unfold grid. now rewrite map_length, seq_length.
  - now rewrite interleave_len, map_length, seq_length.
  - intros i Hi. split.
    + unfold grid. rewrite nth_map_seq by lia. rewrite mult_INR. cbn [INR]. field.
    + rewrite interleave_even by (now rewrite map_length, seq_length). now apply nth_map_seq.
  - intros i Hi. split.
    + unfold grid. rewrite nth_map_seq by lia. rewrite !plus_INR, mult_INR. cbn [INR]. field.
    + rewrite interleave_odd by (rewrite map_length, seq_length; lia). rewrite !nth_map_seq by lia.
      unfold cscal, csub, cadd, copp. cbn [re im fst snd]. unfold re, im. f_equal; ring.
Qed.

Lemma last_grid {B} (f : nat -> B) n : (0 < n)%nat -> get_last (map f (seq 0 n)) = Ok (f (n - 1)%nat).
Proof.
  intros H. unfold get_last. 
  replace (seq 0 n) with (seq 0 (n - 1) ++ [n - 1]%nat) by (rewrite <- seq_S; f_equal; lia).
  rewrite map_app, rev_app_distr. reflexivity.
Qed.
Lemma first_grid {B} (f : nat -> B) n : (0 < n)%nat -> get (map f (seq 0 n)) 0 = Ok (f 0%nat).
Proof. intros H. destruct n; [lia|reflexivity]. Qed.

Lemma interbin_plain srt n f0 d a : (0 < n)%nat -> 0 <= f0 + INR (n - 1) * d ->
  exists fs l, interbin_fft srt (map (fun i => f0 + INR i * d) (seq 0 n)) (map a (seq 0 n)) = Ok (fs, l) /\
    halfway n (fun i => f0 + INR i * d) a fs l.
Proof.
  intros Hn H0. unfold interbin_fft. rewrite last_grid by assumption. cbn [bind].
  unfold rneg at 1 2 3 4. destruct (Rlt_dec (f0 + INR (n - 1) * d) 0) as [C|_]; [Lra.lra|]. cbn [bind].
  rewrite first_grid, last_grid by assumption. cbn [bind]. rewrite !map_length, !seq_length.
  rewrite linspace_half by assumption. cbn [bind]. rewrite Nat.eqb_refl. cbn [negb].
  eexists _, _. split; [reflexivity|]. now apply halfway_main.
Qed.

(* ---- frequencies in the order of the transform ---- *)
Lemma sorted_unique (key : nat -> R) l : forall l', Permutation l l' ->
  (forall i j, (i < j < length l)%nat -> key (nth i l 0%nat) < key (nth j l 0%nat)) ->
  (forall i j, (i < j < length l')%nat -> key (nth i l' 0%nat) < key (nth j l' 0%nat)) -> l = l'.
Proof.
  induction l as [|a l IH]; intros l' P S S'.
  - apply Permutation_nil in P. now subst.
  - destruct l' as [|b l']; [apply Permutation_sym, Permutation_nil in P; discriminate|].
    assert (E : a = b).
    { destruct (Nat.eq_dec a b) as [E|N]; [assumption|exfalso].
      assert (A : In a l'). { assert (In a (b :: l')) by (apply (Permutation_in a P); now left). destruct H; [congruence|assumption]. }
      assert (B : In b l). { assert (In b (a :: l)) by (apply (Permutation_in b (Permutation_sym P)); now left). destruct H; [congruence|assumption]. }
      apply (In_nth _ _ 0%nat) in A. destruct A as (i & Hi & Ei). apply (In_nth _ _ 0%nat) in B. destruct B as (j & Hj & Ej).
      specialize (S' 0%nat (Datatypes.S i)). specialize (S 0%nat (Datatypes.S j)). cbn [nth length] in S, S'. rewrite Ei in S'. rewrite Ej in S.
      specialize (S ltac:(lia)). specialize (S' ltac:(lia)). Lra.lra. }
    subst b. f_equal. apply IH.
    + now apply Permutation_cons_inv in P.
    + intros i j H. apply (S (Datatypes.S i) (Datatypes.S j)). cbn [length]. lia.
    + intros i j H. apply (S' (Datatypes.S i) (Datatypes.S j)). cbn [length]. lia.
Qed.

Definition rot (p q i : nat) : nat := if Nat.ltb i q then (p + i)%nat else (i - q)%nat.
Lemma rot_list p q : map (rot p q) (seq 0 (p + q)) = seq p q ++ seq 0 p.
Proof.
  replace (p + q)%nat with (q + p)%nat by lia. rewrite seq_app, map_app. cbn [plus]. f_equal.
  - transitivity (map (fun i => p + i)%nat (seq 0 q)).
    + apply map_ext_in. intros i Hi. apply in_seq in Hi. unfold rot. destruct (Nat.ltb_spec i q); lia.
    + clear. revert p. induction q as [|q IH]; intros p; [reflexivity|]. cbn [seq map]. f_equal; [lia|].
      rewrite <- (IH (S p)). rewrite <- seq_shift, map_map. apply map_ext. intros; lia.
  - transitivity (map (fun i => i - q)%nat (seq q p)).
    + apply map_ext_in. intros i Hi. apply in_seq in Hi. unfold rot. destruct (Nat.ltb_spec i q); lia.
    + clear. revert q. induction p as [|p IH]; intros q; [reflexivity|]. cbn [seq map]. f_equal; [lia|].
      rewrite <- (seq_shift p 0), <- (IH (S q)), map_map. apply map_ext_in. intros i Hi. apply in_seq in Hi. lia.
Qed.

Section FftOrder.
Variables (p q : nat) (f0 d : R) (a : nat -> cx).
Hypothesis Hq : (0 < q)%nat.
Hypothesis Hd : 0 < d.
Let n := (p + q)%nat.
Let g := fun i => f0 + INR i * d.
Hypothesis neg : g (q - 1)%nat < 0.
Lemma fft_order_nth {B} (f : nat -> B) i e : (i < n)%nat ->
  nth i (map f (seq q p) ++ map f (seq 0 q)) e = f (if Nat.ltb i p then q + i else i - p)%nat.
Proof.
  intros Hi. unfold n in Hi. destruct (Nat.ltb_spec i p) as [L|L].
  - rewrite app_nth1 by (rewrite map_length, seq_length; lia).
    rewrite (nth_indep _ e (f 0%nat)) by (rewrite map_length, seq_length; lia). rewrite map_nth, seq_nth by lia. reflexivity.
  - rewrite app_nth2 by (rewrite map_length, seq_length; lia). rewrite map_length, seq_length. apply nth_map_seq. lia.
Qed.
Lemma g_inc i j : (i < j)%nat -> g i < g j.
Proof. intros H. unfold g. apply lt_INR in H. Lra.nra. Qed.
Lemma order_known srt : sorts srt (map g (seq q p) ++ map g (seq 0 q)) ->
  srt (map g (seq q p) ++ map g (seq 0 q)) = map (rot p q) (seq 0 n).
Proof.
  intros [P S]. set (fr := map g (seq q p) ++ map g (seq 0 q)) in *.
  assert (Len : length fr = n). { unfold fr, n. rewrite app_length, !map_length, !seq_length. lia. }
  rewrite Len in *.
  assert (LS : length (srt fr) = n). { apply Permutation_length in P. now rewrite seq_length in P. }
  apply (sorted_unique (fun i => nth i fr 0)).
  - rewrite P. unfold n. rewrite rot_list. unfold n. replace (p + q)%nat with (q + p)%nat by lia.
    replace (q + p)%nat with (p + q)%nat by lia. rewrite seq_app. cbn [plus]. apply Permutation_app_comm.
  - intros i j H. rewrite LS in H. specialize (S i j H).
    destruct (Rle_lt_or_eq_dec _ _ S) as [L|E]; [assumption|exfalso].
    assert (ND : NoDup (srt fr)). { apply (Permutation_NoDup (Permutation_sym P)), seq_NoDup. }
    assert (I1 : (nth i (srt fr) 0 < n)%nat).
    { assert (In (nth i (srt fr) 0%nat) (seq 0 n)) by (apply (Permutation_in _ P), nth_In; lia). apply in_seq in H0. lia. }
    assert (I2 : (nth j (srt fr) 0 < n)%nat).
    { assert (In (nth j (srt fr) 0%nat) (seq 0 n)) by (apply (Permutation_in _ P), nth_In; lia). apply in_seq in H0. lia. }
    assert (N : nth i (srt fr) 0%nat <> nth j (srt fr) 0%nat).
    { intros X. apply (proj1 (NoDup_nth (srt fr) 0%nat) ND) in X; lia. }
    unfold fr in E at 2 4. rewrite !fft_order_nth in E by assumption.
    set (u := nth i (srt fr) 0%nat) in *. set (v := nth j (srt fr) 0%nat) in *. unfold n in *.
    match type of E with g ?A = g ?B => assert (NE : A <> B) by (destruct (Nat.ltb_spec u p); destruct (Nat.ltb_spec v p); lia);
      destruct (Nat.lt_trichotomy A B) as [X|[X|X]]; [apply g_inc in X; Lra.lra|contradiction|apply g_inc in X; Lra.lra] end.
  - intros i j H. rewrite map_length, seq_length in H. rewrite !nth_map_seq by lia.
    assert (R1 : forall k, (k < n)%nat -> (rot p q k < n)%nat) by (intros k Hk; unfold n, rot in *; destruct (Nat.ltb_spec k q); lia).
    assert (R2 : forall k, (k < n)%nat -> nth (rot p q k) fr 0 = g k).
    { intros k Hk. unfold fr. rewrite fft_order_nth by (now apply R1). f_equal. unfold n, rot in *.
      destruct (Nat.ltb_spec k q); [destruct (Nat.ltb_spec (p + k) p)|destruct (Nat.ltb_spec (k - q) p)]; lia. }
    rewrite !R2 by lia. apply g_inc. lia.
Qed.
Lemma reorder {B} (f : nat -> B) :
  map_result (fun i => get (map f (seq q p) ++ map f (seq 0 q)) i) (map (rot p q) (seq 0 n)) = Ok (map f (seq 0 n)).
Proof.
  set (l := map f (seq q p) ++ map f (seq 0 q)).
  assert (E : forall k, (k < n)%nat -> get l (rot p q k) = Ok (f k)).
  { intros k Hk. unfold get. 
    assert (R1 : (rot p q k < n)%nat) by (unfold n, rot in *; destruct (Nat.ltb_spec k q); lia).
    rewrite (nth_error_nth' l (f k)) by (unfold l; rewrite app_length, !map_length, !seq_length; unfold n in R1; lia).
    f_equal. unfold l. rewrite fft_order_nth by assumption. f_equal. unfold n, rot in *.
    destruct (Nat.ltb_spec k q); [destruct (Nat.ltb_spec (p + k) p)|destruct (Nat.ltb_spec (k - q) p)]; lia. }
  rewrite <- (map_result_pure f). 
  assert (G : forall ks, (forall k, In k ks -> (k < n)%nat) ->
     map_result (fun i => get l i) (map (rot p q) ks) = map_result (fun x => Ok (f x)) ks).
  { induction ks as [|k ks IH]; intros H; [reflexivity|]. cbn [map map_result]. rewrite E by (apply H; now left).
    rewrite IH by (intros; apply H; now right). reflexivity. }
  apply G. intros k Hk. apply in_seq in Hk. lia.
Qed.

(* negative values first in an increasing sequence *)
Lemma sign_split (v e : R) : 0 < e -> forall m s, exists k, (k <= m)%nat /\ map (fun j => rneg (v + INR j * e)) (seq s m) = repeat true k ++ repeat false (m - k).
Proof.
  intros He. induction m as [|m IH]; intros s; [exists 0%nat; split; [lia|reflexivity]|].
  destruct (IH (S s)) as (k & Hk & E). cbn [seq map]. rewrite E.
  unfold rneg at 1. destruct (Rlt_dec (v + INR s * e) 0) as [L|L].
  - exists (S k). split; [lia|]. reflexivity.
  - exists 0%nat. split; [lia|].
    assert (k = 0%nat) as ->; [|rewrite Nat.sub_0_r; reflexivity].
    destruct k as [|k]; [reflexivity|exfalso]. destruct m as [|m]; [lia|]. assert (E0 : rneg (v + INR (S s) * e) = true) by exact (f_equal (fun l => hd false l) E).
    unfold rneg in E0. destruct (Rlt_dec (v + INR (S s) * e) 0) as [L'|_]; [|discriminate].
    rewrite S_INR in L'. Lra.lra.
Qed.
Lemma select_front {B} (l : list B) k : (k <= length l)%nat ->
  select l (repeat true k ++ repeat false (length l - k)) = firstn k l.
Proof.
  revert k. induction l as [|b l IH]; intros k H; [destruct k; reflexivity|].
  destruct k as [|k]; cbn [length repeat app].
  - rewrite Nat.sub_0_r. cbn [repeat select]. specialize (IH 0%nat ltac:(lia)). cbn [repeat app] in IH. rewrite Nat.sub_0_r in IH. exact IH.
  - cbn [Nat.sub select firstn]. f_equal. apply IH. cbn in H. lia.
Qed.
Lemma select_back {B} (l : list B) k : (k <= length l)%nat ->
  select l (map negb (repeat true k ++ repeat false (length l - k))) = skipn k l.
Proof.
  revert k. induction l as [|b l IH]; intros k H; [destruct k; reflexivity|].
  destruct k as [|k]; cbn [length repeat app].
  - rewrite Nat.sub_0_r. cbn [repeat map negb select skipn]. f_equal. specialize (IH 0%nat ltac:(lia)). cbn [repeat app] in IH. rewrite Nat.sub_0_r in IH. exact IH.
  - cbn [Nat.sub map negb select skipn]. apply IH. cbn in H. lia.
Qed.

Lemma interbin_order srt : sorts srt (map g (seq q p) ++ map g (seq 0 q)) ->
  exists fs l k, interbin_fft srt (map g (seq q p) ++ map g (seq 0 q)) (map a (seq q p) ++ map a (seq 0 q))
      = Ok (skipn k fs ++ firstn k fs, skipn k l ++ firstn k l) /\ halfway n g a fs l /\ (k <= 2 * n - 1)%nat /\ (forall i, (i < k)%nat -> nth i fs 0 < 0) /\ (forall i, (k <= i < 2 * n - 1)%nat -> 0 <= nth i fs 0).
Proof.
  intros S. assert (Hn : (0 < n)%nat) by (unfold n; lia).
  assert (GL : get_last (map g (seq q p) ++ map g (seq 0 q)) = Ok (g (q - 1)%nat)).
  { unfold get_last. rewrite rev_app_distr. pose proof (last_grid g q Hq) as L. unfold get_last in L.
    destruct (rev (map g (seq 0 q))); [discriminate|exact L]. }
  unfold interbin_fft. rewrite GL. cbn [bind].
  assert (EN : rneg (g (q - 1)%nat) = true). { unfold rneg. destruct (Rlt_dec (g (q - 1)%nat) 0); [reflexivity|contradiction]. }
  rewrite EN, order_known by assumption. rewrite !reorder. cbn [bind].
  rewrite first_grid, last_grid by assumption. cbn [bind]. rewrite !map_length, !seq_length.
  unfold g at 1 2. rewrite linspace_half by assumption. cbn [bind]. rewrite Nat.eqb_refl. cbn [negb].
  set (fs := grid f0 (d / 2) (2 * n - 1)). set (l := interleave (map a (seq 0 n))).
  destruct (sign_split f0 (d / 2) ltac:(Lra.lra) (2 * n - 1) 0) as (k & Hk & E).
  assert (E' : map rneg fs = repeat true k ++ repeat false (2 * n - 1 - k)). { unfold fs, grid. rewrite map_map. exact E. }
  assert (L1 : length fs = (2 * n - 1)%nat) by (unfold fs, grid; now rewrite map_length, seq_length).
  assert (L2 : length l = (2 * n - 1)%nat) by (unfold l; now rewrite interleave_len, map_length, seq_length).
  rewrite E'. exists fs, l, k. split; [|split; [|split; [|split]]].
  - pose proof (select_front fs k) as A1. pose proof (select_back fs k) as A2. rewrite L1 in A1, A2.
    pose proof (select_front l k) as A3. pose proof (select_back l k) as A4. rewrite L2 in A3, A4.
    rewrite A1, A2, A3, A4 by assumption. reflexivity.
  - unfold fs, l, g. now apply halfway_main.
  - assumption.
  - intros i Hi. assert (X : nth i (map rneg fs) false = true).
    { rewrite E', app_nth1 by (rewrite repeat_length; lia). rewrite (nth_indep _ false true) by (rewrite repeat_length; lia). apply nth_repeat. }
    change false with (rneg 0) in X at 1 || idtac.
    rewrite (nth_indep _ false (rneg 0)) in X by (rewrite map_length; lia). rewrite map_nth in X. unfold rneg in X.
    destruct (Rlt_dec (nth i fs 0) 0); [assumption|discriminate].
  - intros i Hi. assert (X : nth i (map rneg fs) true = false).
    { rewrite E', app_nth2 by (rewrite repeat_length; lia). rewrite repeat_length. rewrite (nth_indep _ true false) by (rewrite repeat_length; lia). apply nth_repeat. }
    rewrite (nth_indep _ true (rneg 0)) in X by (rewrite map_length; lia). rewrite map_nth in X. unfold rneg in X.
    destruct (Rlt_dec (nth i fs 0) 0); [discriminate|Lra.lra].
Qed.
End FftOrder.
