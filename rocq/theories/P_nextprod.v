(* P_nextprod.v: nextprod finds the least product of the given factors that is not below x *)
From Verif Require Import Np Lib M_utils M_nextprod S_nextprod.
Open Scope Z_scope.

Fixpoint zprod (n : nat) (f : nat -> Z) : Z := match n with O => 1 | S n => zprod n f * f n end.
Definition upd {A} (f : nat -> A) (i : nat) (y : A) : nat -> A := fun j => if Nat.eqb j i then y else f j.

Lemma zprod_pos n f : (forall i, (i < n)%nat -> 1 <= f i) -> 1 <= zprod n f.
Proof. induction n as [|n IH]; intros H; cbn; [lia|]. specialize (IH ltac:(intros; apply H; lia)). specialize (H n ltac:(lia)). nia. Qed.
Lemma zprod_le n f g : (forall i, (i < n)%nat -> 1 <= f i <= g i) -> zprod n f <= zprod n g.
Proof.
  induction n as [|n IH]; intros H; cbn; [lia|].
  assert (1 <= zprod n f) by (apply zprod_pos; intros; apply H; lia).
  specialize (IH ltac:(intros; apply H; lia)). specialize (H n ltac:(lia)). nia.
Qed.
Lemma zprod_ext n f g : (forall i, (i < n)%nat -> f i = g i) -> zprod n f = zprod n g.
Proof. induction n as [|n IH]; intros H; cbn; [reflexivity|]. rewrite IH, H by (intros; try apply H; lia). reflexivity. Qed.
Lemma zprod_upd n f i y : (i < n)%nat -> zprod n (upd f i y) * f i = zprod n f * y.
Proof.
  induction n as [|n IH]; intros H; [lia|]. cbn. unfold upd at 2. destruct (Nat.eqb_spec n i) as [->|N].
  - rewrite (zprod_ext i (upd f i y) f) by (intros j Hj; unfold upd; destruct (Nat.eqb_spec j i); [lia|reflexivity]). ring.
  - specialize (IH ltac:(lia)). transitivity (zprod n (upd f i y) * f i * f n); [ring|]. rewrite IH. ring.
Qed.
Lemma zprod_one n i f : (i < n)%nat -> (forall j, (j < n)%nat -> j <> i -> f j = 1) -> zprod n f = f i.
Proof.
  induction n as [|n IH]; intros H E; [lia|]. cbn. destruct (Nat.eq_dec n i) as [->|N].
  - assert (Z1 : zprod i f = 1). { rewrite (zprod_ext i f (fun _ => 1)) by (intros; apply E; lia). clear. induction i; cbn; lia. }
    lia.
  - rewrite IH by (intros; try apply E; lia). rewrite (E n) by lia. lia.
Qed.
Lemma zprod_ge n i f : (i < n)%nat -> (forall j, (j < n)%nat -> 1 <= f j) -> f i <= zprod n f.
Proof.
  induction n as [|n IH]; intros H E; [lia|]. cbn.
  assert (1 <= zprod n f) by (apply zprod_pos; intros; apply E; lia). assert (En := E n ltac:(lia)).
  destruct (Nat.eq_dec n i) as [->|N]; [nia|]. specialize (IH ltac:(lia) ltac:(intros; apply E; lia)). nia.
Qed.

Lemma pow_pos a n : 1 < a -> 1 <= a ^ Z.of_nat n.
Proof. intros. assert (0 < a ^ Z.of_nat n) by (apply Z.pow_pos_nonneg; lia). lia. Qed.
Lemma pow_S a n : a ^ Z.of_nat (S n) = a * a ^ Z.of_nat n.
Proof. rewrite Nat2Z.inj_succ, Z.pow_succ_r by lia. reflexivity. Qed.
Lemma pow_ge a n : 1 < a -> Z.of_nat n + 1 <= a ^ Z.of_nat n.
Proof. intros H. induction n as [|n IH]; [cbn; lia|]. rewrite pow_S. nia. Qed.
Lemma pow_mono a n m : 1 < a -> (n <= m)%nat -> a ^ Z.of_nat n <= a ^ Z.of_nat m.
Proof. intros. apply Z.pow_le_mono_r; lia. Qed.
Lemma pow_lt_inv a n m : 1 < a -> a ^ Z.of_nat n < a ^ Z.of_nat m -> (n < m)%nat.
Proof. intros H L. destruct (Nat.lt_ge_cases n m); [auto|]. pose proof (pow_mono a m n H ltac:(lia)). lia. Qed.

(* ---- nextpow ---- *)
Lemma nextpow_from_ok a x : 1 < a -> forall fuel j, x <= Z.of_nat j + Z.of_nat fuel ->
  (forall m, (m < j)%nat -> a ^ Z.of_nat m < x) ->
  exists n, nextpow_from fuel a x (a ^ Z.of_nat j) = a ^ Z.of_nat n /\ x <= a ^ Z.of_nat n /\ forall m, (m < n)%nat -> a ^ Z.of_nat m < x.
Proof.
  intros Ha. induction fuel as [|fuel IH]; intros j Hj Hm; cbn [nextpow_from].
  - exists j. pose proof (pow_ge a j Ha). repeat split; auto; lia.
  - destruct (Z.leb_spec x (a ^ Z.of_nat j)); [exists j; repeat split; auto|].
    destruct (IH (S j)) as (n & E & Hn); [lia| |].
    + intros m Hm'. destruct (Nat.eq_dec m j) as [->|]; [lia|]. apply Hm. lia.
    + exists n. rewrite pow_S, Z.mul_comm in E. auto.
Qed.
Lemma nextpow_ok a x : 1 < a -> 0 < x ->
  exists n, nextpow a x = Ok (a ^ Z.of_nat n) /\ x <= a ^ Z.of_nat n /\ forall m, (m < n)%nat -> a ^ Z.of_nat m < x.
Proof.
  intros Ha Hx. unfold nextpow. destruct (Z.ltb_spec 0 x); [|lia]. destruct (Z.ltb_spec 1 a); [|lia]. cbn [andb].
  destruct (nextpow_from_ok a x Ha (Z.to_nat x) 0 ltac:(lia) ltac:(intros; lia)) as (n & E & H1).
  exists n. cbn [Z.of_nat Z.pow] in E. rewrite E. auto.
Qed.

(* ---- lists as functions ---- *)
Lemma get_seq {A} (f : nat -> A) k i : (i < k)%nat -> get (map f (seq 0 k)) i = Ok (f i).
Proof.
  intros H. unfold get. rewrite nth_error_map, (nth_error_nth' _ 0%nat) by (now rewrite seq_length).
  rewrite seq_nth by exact H. reflexivity.
Qed.
Lemma get_last_seq {A} (f : nat -> A) k : (0 < k)%nat -> get_last (map f (seq 0 k)) = Ok (f (k - 1)%nat).
Proof.
  intros H. unfold get_last. destruct k as [|k]; [lia|]. rewrite seq_S, map_app, rev_app_distr. cbn. f_equal. f_equal. lia.
Qed.
Lemma set_nth_seq (f : nat -> Z) k i y : (i < k)%nat -> set_nth (map f (seq 0 k)) i y = map (upd f i y) (seq 0 k).
Proof.
  intros H. unfold set_nth. replace k with (i + S (k - S i))%nat by lia.
  rewrite seq_app, map_app. rewrite firstn_app, map_length, seq_length, Nat.sub_diag, firstn_O, app_nil_r, firstn_all2 by (rewrite map_length, seq_length; lia).
  rewrite skipn_app, map_length, seq_length. rewrite skipn_all2 by (rewrite map_length, seq_length; lia).
  replace (S i - i)%nat with 1%nat by lia. cbn [seq map skipn app]. rewrite map_app. cbn [seq map]. f_equal; [|f_equal].
  - apply map_ext_in. intros j Hj. apply in_seq in Hj. unfold upd. destruct (Nat.eqb_spec j i); [lia|reflexivity].
  - unfold upd. now rewrite Nat.add_0_l, Nat.eqb_refl.
  - apply map_ext_in. intros j Hj. apply in_seq in Hj. unfold upd. destruct (Nat.eqb_spec j i); [lia|reflexivity].
Qed.

Section Loop.
Variables (k : nat) (a : nat -> Z) (x : Z) (E : nat -> nat).
Hypothesis Hk : (0 < k)%nat.
Hypothesis Ha : forall i, (i < k)%nat -> 1 < a i.
Hypothesis Hx : 1 < x.
Let mx (i : nat) : Z := a i ^ Z.of_nat (E i).
Hypothesis HE : forall i, (i < k)%nat -> x <= mx i /\ forall m, (m < E i)%nat -> a i ^ Z.of_nat m < x.
Let al := map a (seq 0 k).
Let mxl := map mx (seq 0 k).
Let V (e : nat -> nat) (i : nat) : Z := a i ^ Z.of_nat (e i).
Let vl (e : nat -> nat) := map (V e) (seq 0 k).
Let P (e : nat -> nat) : Z := zprod k (V e).

Lemma V_pos e i : (i < k)%nat -> 1 <= V e i.
Proof. intros H. apply pow_pos, Ha, H. Qed.
Lemma P_mono e e' : (forall i, (i < k)%nat -> (e i <= e' i)%nat) -> P e <= P e'.
Proof. intros H. apply zprod_le. intros i Hi. split; [now apply V_pos|]. apply pow_mono; auto. Qed.
Lemma P_upd e i y : (i < k)%nat -> P (upd e i y) * V e i = P e * a i ^ Z.of_nat y.
Proof.
  intros H. unfold P. rewrite <- (zprod_upd k (V e) i) by exact H. f_equal. apply zprod_ext. intros j _. unfold V, upd.
  destruct (Nat.eqb_spec j i) as [->|]; reflexivity.
Qed.
Lemma V_le_P e i : (i < k)%nat -> V e i <= P e.
Proof. intros H. apply zprod_ge; [exact H|]. intros. now apply V_pos. Qed.

Definition lexlt (e' e : nat -> nat) : Prop := exists i, (i < k)%nat /\ (e' i < e i)%nat /\ forall j, (i < j < k)%nat -> e' j = e j.

Definition next_e (e : nat -> nat) (i : nat) : nat -> nat := upd (upd e i 0%nat) (S i) (S (e (S i))).

Lemma vl_upd e i y z : (i < k)%nat -> z = a i ^ Z.of_nat y -> set_nth (vl e) i z = vl (upd e i y).
Proof.
  intros H ->. unfold vl. rewrite set_nth_seq by exact H. apply map_ext. intros j. unfold upd, V, upd.
  destruct (Nat.eqb_spec j i) as [->|]; reflexivity.
Qed.

Lemma carry_ok e i fuel : (0 < fuel)%nat -> (S i < k)%nat -> V e (S i) < mx (S i) ->
  carry_loop fuel al mxl (vl e) (P e) i = Ok (vl (next_e e i), P (next_e e i), S i).
Proof.
  intros Hf Hi Hv. destruct fuel as [|fuel]; [lia|]. cbn [carry_loop].
  unfold vl at 1. rewrite get_seq by lia. cbn [bind].
  rewrite (vl_upd e i 0 1) by (try reflexivity; lia).
  unfold al at 1. rewrite get_seq by lia. cbn [bind]. unfold vl at 1. rewrite get_seq by lia. cbn [bind].
  unfold mxl at 1. rewrite get_seq by lia. cbn [bind].
  assert (Eu : V (upd e i 0%nat) (S i) = V e (S i)).
  { unfold V, upd. destruct (Nat.eqb_spec (S i) i); [lia|reflexivity]. }
  rewrite Eu.
  assert (Ep : P e / V e i = P (upd e i 0%nat)).
  { assert (H := P_upd e i 0 ltac:(lia)). cbn [Z.of_nat Z.pow] in H. pose proof (V_pos e i ltac:(lia)).
    symmetry. apply Z.div_unique_exact; lia. }
  assert (Em : V e (S i) * a (S i) = a (S i) ^ Z.of_nat (S (e (S i)))) by (rewrite pow_S; unfold V; ring).
  assert (Lm : V e (S i) * a (S i) <= mx (S i)).
  { rewrite Em. unfold mx, V in *. apply pow_lt_inv in Hv; [|auto]. apply pow_mono; auto; lia. }
  destruct (Z.ltb_spec (mx (S i)) (V e (S i) * a (S i))); [lia|]. cbn [andb].
  rewrite (vl_upd _ (S i) (S (e (S i)))) by (try exact Em; lia). fold (next_e e i). rewrite Ep.
  assert (Eq : P (upd e i 0%nat) * a (S i) = P (next_e e i)).
  { unfold next_e. assert (H1 := P_upd (upd e i 0%nat) (S i) (S (e (S i))) Hi). rewrite Eu in H1.
    pose proof (V_pos e (S i) Hi). rewrite <- Em in H1. nia. }
  now rewrite Eq.
Qed.

Lemma raise_ok a0 : 1 < a0 -> forall fuel v0 p, 1 <= p -> x <= p + Z.of_nat fuel ->
  exists d, raise_loop fuel a0 x v0 p = Ok (v0 * a0 ^ Z.of_nat d, p * a0 ^ Z.of_nat d) /\ x <= p * a0 ^ Z.of_nat d /\
  forall d', (d' < d)%nat -> p * a0 ^ Z.of_nat d' < x.
Proof.
  intros H0. induction fuel as [|fuel IH]; intros v0 p Hp Hf; cbn [raise_loop]; destruct (Z.ltb_spec p x).
  - lia.
  - exists 0%nat. cbn [Z.of_nat Z.pow]. rewrite !Z.mul_1_r. repeat split; auto. intros; lia.
  - destruct (IH (v0 * a0) (p * a0) ltac:(nia) ltac:(nia)) as (d & E1 & E2 & E3). exists (S d). rewrite E1.
    rewrite pow_S. repeat split; [f_equal; f_equal; ring|lia|].
    intros [|d'] Hd; [cbn [Z.of_nat Z.pow]; lia|]. rewrite pow_S. specialize (E3 d' ltac:(lia)). lia.
  - exists 0%nat. cbn [Z.of_nat Z.pow]. rewrite !Z.mul_1_r. repeat split; auto. intros; lia.
Qed.

Definition inv (e : nat -> nat) (best : Z) (i : nat) : Prop :=
  (i < k)%nat /\ (forall j, (j < i)%nat -> e j = 0%nat) /\
  (forall e', lexlt e' e -> x <= P e' -> best <= P e') /\
  (x <= best /\ exists e0, best = P e0) /\
  (forall j, (i < j < k)%nat -> V e j < mx j) /\
  (P e < x -> i = 0%nat) /\
  (forall j, (j < k)%nat -> V e j <= mx j).

(* numbering of the exponents *)
Fixpoint num (W n : nat) (e : nat -> nat) : nat := match n with O => 0%nat | S n => (num W n e + e n * W ^ n)%nat end.
Lemma num_lt W n e : (forall j, (j < n)%nat -> (e j < W)%nat) -> (num W n e < W ^ n)%nat.
Proof.
  induction n as [|n IH]; intros H; cbn; [lia|]. specialize (IH ltac:(intros; apply H; lia)). specialize (H n ltac:(lia)). nia.
Qed.
Lemma num_lex W n e' e i : (forall j, (j < n)%nat -> (e' j < W)%nat) -> (i < n)%nat -> (e' i < e i)%nat ->
  (forall j, (i < j < n)%nat -> e' j = e j) -> (num W n e' < num W n e)%nat.
Proof.
  induction n as [|n IH]; intros H Hi L Q; [lia|]. cbn. destruct (Nat.eq_dec i n) as [->|N].
  - pose proof (num_lt W n e' ltac:(intros; apply H; lia)). nia.
  - specialize (IH ltac:(intros; apply H; lia) ltac:(lia) L ltac:(intros; apply Q; lia)). rewrite (Q n) by lia. lia.
Qed.

Lemma lex_next e i : (S i < k)%nat -> lexlt e (next_e e i).
Proof.
  intros H. exists (S i). split; [exact H|]. unfold next_e, upd. split.
  - rewrite Nat.eqb_refl. lia.
  - intros j Hj. destruct (Nat.eqb_spec j (S i)); [lia|]. destruct (Nat.eqb_spec j i); [lia|reflexivity].
Qed.

Lemma inv_carry e best i : inv e best i -> x <= P e -> V e (k - 1) < mx (k - 1) ->
  (S i < k)%nat /\ V e (S i) < mx (S i) /\
  inv (next_e e i) (if P e <? best then P e else best) (if P (next_e e i) <? x then 0%nat else S i).
Proof.
  intros (I1 & I2 & I3 & I4 & I5 & I6 & I7) Hp Hv.
  assert (Hi : (S i < k)%nat).
  { destruct (Nat.eq_dec (S i) k) as [C|]; [|lia]. exfalso.
    assert (Ep : P e = V e i).
    { apply zprod_one; [lia|]. intros j Hj N. unfold V. rewrite I2 by lia. reflexivity. }
    replace (k - 1)%nat with i in Hv by lia. destruct (HE i ltac:(lia)) as [_ Hm].
    assert (E i <= e i)%nat. { destruct (Nat.lt_ge_cases (e i) (E i)) as [C2|]; [|lia]. specialize (Hm _ C2). unfold V in Ep. lia. }
    pose proof (pow_mono (a i) (E i) (e i) (Ha i ltac:(lia)) H). unfold V, mx in Hv. lia. }
  assert (Hv' : V e (S i) < mx (S i)) by (apply I5; lia).
  assert (Vn : forall j, (j < k)%nat -> V (next_e e i) j <= mx j).
  { intros j Hj. unfold V, next_e, upd. destruct (Nat.eqb_spec j (S i)) as [->|].
    - unfold V, mx in *. apply pow_lt_inv in Hv'; [|auto]. apply pow_mono; auto.
    - destruct (Nat.eqb_spec j i) as [->|]; [cbn [Z.of_nat Z.pow]; apply pow_pos, Ha; lia|]. apply I7. exact Hj. }
  split; [exact Hi|]. split; [exact Hv'|]. unfold inv. set (e2 := next_e e i) in *. split.
  { destruct (P e2 <? x); lia. }
  assert (Ez : forall j, (j <= i)%nat -> e2 j = 0%nat).
  { intros j Hj. unfold e2, next_e, upd. destruct (Nat.eqb_spec j (S i)); [lia|]. destruct (Nat.eqb_spec j i); [reflexivity|]. apply I2. lia. }
  assert (Es : e2 (S i) = S (e (S i))) by (unfold e2, next_e, upd; now rewrite Nat.eqb_refl).
  assert (Eh : forall j, (S i < j)%nat -> e2 j = e j).
  { intros j Hj. unfold e2, next_e, upd. destruct (Nat.eqb_spec j (S i)); [lia|]. destruct (Nat.eqb_spec j i); [lia|reflexivity]. }
  split; [|split; [|split; [|split; [|split]]]].
  - destruct (Z.ltb_spec (P e2) x); [intros; lia|]. intros j Hj. apply Ez. lia.
  - intros e' (j & Hj & L & Q) Hx'.
    assert (Old : lexlt e' e -> (if P e <? best then P e else best) <= P e').
    { intros Lx. specialize (I3 e' Lx Hx'). destruct (Z.ltb_spec (P e) best); lia. }
    assert (New : P e <= P e' -> (if P e <? best then P e else best) <= P e') by (destruct (Z.ltb_spec (P e) best); lia).
    destruct (Nat.lt_trichotomy j (S i)) as [C|[->|C]].
    + rewrite Ez in L by lia. lia.
    + rewrite Es in L.
      assert (Q' : forall m, (S i < m < k)%nat -> e' m = e m) by (intros m Hm; rewrite <- (Eh m) by lia; apply Q; lia).
      destruct (Nat.eq_dec (e' (S i)) (e (S i))) as [Eq|Nq].
      * assert (Q'' : forall m, (i < m < k)%nat -> e' m = e m).
        { intros m Hm. destruct (Nat.eq_dec m (S i)) as [->|]; [exact Eq|]. apply Q'. lia. }
        destruct (Nat.lt_ge_cases (e' i) (e i)) as [C2|C2].
        -- apply Old. exists i. auto.
        -- apply New, P_mono. intros m Hm. destruct (Nat.lt_trichotomy m i) as [G|[->|G]]; [rewrite I2 by lia; lia|lia|].
           rewrite Q'' by lia. lia.
      * apply Old. exists (S i). repeat split; [exact Hi|lia|exact Q'].
    + apply Old. exists j. rewrite Eh in L by lia. repeat split; [exact Hj|exact L|].
      intros m Hm. rewrite <- (Eh m) by lia. apply Q. lia.
  - destruct I4 as [B1 B2]. destruct (P e <? best); [split; [exact Hp|now exists e]|auto].
  - destruct (Z.ltb_spec (P e2) x) as [C|C]; intros j Hj.
    + pose proof (V_le_P e2 j ltac:(lia)). destruct (HE j ltac:(lia)). lia.
    + replace (V e2 j) with (V e j) by (unfold V; rewrite Eh by lia; reflexivity). apply I5. lia.
  - intros C. destruct (Z.ltb_spec (P e2) x); [reflexivity|lia].
  - exact Vn.
Qed.

Lemma inv_raise e best i d : inv e best i -> P e < x -> (0 < d)%nat ->
  x <= P e * a 0%nat ^ Z.of_nat d -> (forall d', (d' < d)%nat -> P e * a 0%nat ^ Z.of_nat d' < x) ->
  i = 0%nat /\ P (upd e 0 (e 0%nat + d)%nat) = P e * a 0%nat ^ Z.of_nat d /\ lexlt e (upd e 0 (e 0%nat + d)%nat) /\
  inv (upd e 0 (e 0%nat + d)%nat) best i.
Proof.
  intros (I1 & I2 & I3 & I4 & I5 & I6 & I7) Hp Hd Hx1 Hx2. rewrite (I6 Hp) in *.
  assert (Eu : forall y, P (upd e 0 (e 0%nat + y)%nat) = P e * a 0%nat ^ Z.of_nat y).
  { intros y. assert (H := P_upd e 0 (e 0%nat + y) Hk). rewrite Nat2Z.inj_add, Z.pow_add_r in H by lia.
    pose proof (V_pos e 0 Hk). fold (V e 0%nat) in H. nia. }
  set (e2 := upd e 0 (e 0%nat + d)%nat) in *.
  assert (E0 : e2 0%nat = (e 0%nat + d)%nat) by reflexivity.
  assert (Eh : forall j, (0 < j)%nat -> e2 j = e j).
  { intros j Hj. unfold e2, upd. destruct (Nat.eqb_spec j 0); [lia|reflexivity]. }
  split; [reflexivity|]. split; [apply Eu|]. split.
  { exists 0%nat. rewrite E0. repeat split; [exact Hk|lia|]. intros j Hj. symmetry. apply Eh. lia. }
  unfold inv. split; [exact Hk|]. split; [intros; lia|]. split; [|split; [exact I4|split; [|split]]].
  - intros e' (j & Hj & L & Q) Hx'. destruct j as [|j].
    + destruct (Nat.lt_ge_cases (e' 0%nat) (e 0%nat)) as [C|C].
      * apply I3; [|exact Hx']. exists 0%nat. repeat split; auto. intros m Hm. rewrite <- (Eh m) by lia. apply Q. lia.
      * exfalso.
        assert (Ee : P e' = P (upd e 0 (e 0%nat + (e' 0%nat - e 0%nat))%nat)).
        { apply zprod_ext. intros m Hm. unfold V, upd. destruct (Nat.eqb_spec m 0) as [->|].
          - f_equal. lia.
          - rewrite Q by lia. rewrite Eh by lia. reflexivity. }
        rewrite Eu in Ee. specialize (Hx2 (e' 0%nat - e 0%nat)%nat ltac:(lia)). lia.
    + apply I3; [|exact Hx']. exists (S j). rewrite Eh in L by lia. repeat split; auto.
      intros m Hm. rewrite <- (Eh m) by lia. apply Q. lia.
  - intros j Hj. replace (V e2 j) with (V e j) by (unfold V; rewrite Eh by lia; reflexivity). apply I5. lia.
  - reflexivity.
  - intros j Hj. destruct j as [|j]; [|replace (V e2 (S j)) with (V e (S j)) by (unfold V; rewrite Eh by lia; reflexivity); now apply I7].
    unfold V. rewrite E0. unfold mx.
    assert (S1 : a 0%nat ^ Z.of_nat (e 0%nat + (d - 1)) < a 0%nat ^ Z.of_nat (E 0%nat)).
    { destruct (HE 0%nat Hk) as [H1 _]. unfold mx in H1.
      rewrite Nat2Z.inj_add, Z.pow_add_r by lia. specialize (Hx2 (d - 1)%nat ltac:(lia)).
      pose proof (V_le_P e 0 Hk). unfold V in H. pose proof (pow_pos (a 0%nat) (d - 1) (Ha 0%nat Hk)). nia. }
    apply pow_lt_inv in S1; [|auto]. apply pow_mono; auto; lia.
Qed.

Definition bound : nat := S (fold_right Nat.max 0%nat (map E (seq 0 k))).
Lemma bound_ok e best i : inv e best i -> forall j, (j < k)%nat -> (e j < bound)%nat.
Proof.
  intros (_ & _ & _ & _ & _ & _ & I7) j Hj. specialize (I7 j Hj). unfold V, mx in I7.
  assert (e j <= E j)%nat. { destruct (Nat.le_gt_cases (e j) (E j)); [auto|]. exfalso.
    assert (a j ^ Z.of_nat (E j) < a j ^ Z.of_nat (e j)) by (apply Z.pow_lt_mono_r; [auto|lia|lia]). lia. }
  assert (M : forall l n, In n l -> (n <= fold_right Nat.max 0%nat l)%nat).
  { induction l as [|b l IH]; intros n Hn; [destruct Hn|]. destruct Hn as [->|Hn]; cbn; [lia|]. specialize (IH n Hn). lia. }
  specialize (M (map E (seq 0 k)) (E j) ltac:(apply in_map, in_seq; lia)). unfold bound. lia.
Qed.

Lemma loop_ok : forall fuel e best i, inv e best i -> (bound ^ k <= num bound k e + fuel)%nat ->
  exists r, nextprod_loop fuel al mxl x (vl e) (P e) best i = Ok r /\ x <= r /\ (exists e0, r = P e0) /\
  forall e', x <= P e' -> r <= P e'.
Proof.
  induction fuel as [|fuel IH]; intros e best i I Hf.
  { pose proof (num_lt bound k e (bound_ok e best i I)). lia. }
  cbn [nextprod_loop]. unfold vl at 1, mxl at 1. rewrite !get_last_seq by exact Hk. cbn [bind].
  destruct (Z.ltb_spec (V e (k - 1)) (mx (k - 1))) as [C|C].
  - destruct (Z.leb_spec x (P e)) as [Hp|Hp].
    + destruct (inv_carry e best i I Hp C) as (Hi & Hv & I').
      unfold al at 1. rewrite map_length, seq_length, carry_ok by (auto; lia). cbn [bind].
      apply IH; [exact I'|].
      destruct (lex_next e i Hi) as (j & Hj & L & Q).
      pose proof (num_lex bound k e (next_e e i) j (bound_ok _ _ _ I) Hj L Q). lia.
    + unfold al at 1. rewrite get_seq by lia. cbn [bind]. unfold vl at 1. rewrite get_seq by lia. cbn [bind].
      destruct (raise_ok (a 0%nat) (Ha 0%nat Hk) (Z.to_nat x) (V e 0%nat) (P e)) as (d & E1 & E2 & E3).
      { apply zprod_pos. intros. now apply V_pos. }
      { assert (1 <= P e) by (apply zprod_pos; intros; now apply V_pos). lia. }
      rewrite E1. cbn [bind fst snd].
      assert (Hd : (0 < d)%nat). { destruct d; [cbn [Z.of_nat Z.pow] in E2; lia|lia]. }
      destruct (inv_raise e best i d I Hp Hd E2 E3) as (-> & Ep & (j & Hj & L & Q) & I').
      rewrite (vl_upd e 0 (e 0%nat + d)) by (auto; rewrite Nat2Z.inj_add, Z.pow_add_r by lia; reflexivity).
      rewrite <- Ep. apply IH; [exact I'|].
      pose proof (num_lex bound k e _ j (bound_ok _ _ _ I) Hj L Q). lia.
  - destruct I as (I1 & I2 & I3 & (B1 & B2) & I5 & I6 & I7). eexists. split; [reflexivity|].
    assert (M : x <= mx (k - 1)) by (apply HE; lia).
    split; [destruct (mx (k - 1) <? best); lia|]. split.
    + destruct (mx (k - 1) <? best); [|exact B2].
      exists (upd (fun _ => 0%nat) (k - 1) (E (k - 1)%nat)). unfold P. rewrite (zprod_one k (k - 1)).
      * unfold V, upd. now rewrite Nat.eqb_refl.
      * lia.
      * intros j Hj N. unfold V, upd. destruct (Nat.eqb_spec j (k - 1)); [contradiction|reflexivity].
    + intros e' He'. destruct (Nat.lt_ge_cases (e' (k - 1)%nat) (e (k - 1)%nat)) as [L|L].
      * specialize (I3 e' ltac:(exists (k - 1)%nat; repeat split; [lia|exact L|intros; lia]) He').
        destruct (Z.ltb_spec (mx (k - 1)) best); lia.
      * pose proof (V_le_P e' (k - 1) ltac:(lia)).
        assert (V e (k - 1) <= V e' (k - 1)) by (apply pow_mono; auto; apply Ha; lia).
        destruct (Z.ltb_spec (mx (k - 1)) best); lia.
Qed.

Lemma loop_start : exists fuel0, forall fuel, (fuel0 <= fuel)%nat ->
  exists r, nextprod_loop fuel al mxl x (set_nth (repeat 1 k) 0 (mx 0)) (mx 0) (mx 0) 0 = Ok r /\ x <= r /\ (exists e0, r = P e0) /\
  forall e', x <= P e' -> r <= P e'.
Proof.
  exists (bound ^ k)%nat. intros fuel Hf.
  set (e := upd (fun _ => 0%nat) 0 (E 0%nat)).
  assert (Ev : set_nth (repeat 1 k) 0 (mx 0) = vl e).
  { assert (R : repeat 1 k = vl (fun _ => 0%nat)).
    { unfold vl. clear. generalize 0%nat at 2 as s. induction k as [|k' IH]; intros s; cbn; [reflexivity|]. now rewrite <- IH. }
    rewrite R. apply vl_upd; [exact Hk|reflexivity]. }
  assert (Ep : P e = mx 0).
  { unfold P. rewrite (zprod_one k 0 (V e) Hk); [reflexivity|]. intros j _ N. unfold V, e, upd. destruct (Nat.eqb_spec j 0); [contradiction|reflexivity]. }
  rewrite Ev. pose proof (loop_ok fuel e (mx 0%nat) 0%nat) as Lo. rewrite Ep in Lo. apply Lo; [|lia]. clear Lo.
  unfold inv. split; [exact Hk|]. split; [intros; lia|].
  split; [|split; [|split; [|split]]].
  - intros e' (j & Hj & L & Q) Hx'. exfalso. unfold e, upd in L. destruct (Nat.eqb_spec j 0) as [->|]; [|lia].
    destruct (HE 0%nat Hk) as [_ Hm]. specialize (Hm _ L).
    assert (P e' = V e' 0%nat).
    { apply zprod_one; [exact Hk|]. intros m Hm' N. unfold V. rewrite Q by lia. unfold e, upd. destruct (Nat.eqb_spec m 0); [contradiction|reflexivity]. }
    unfold V in H. lia.
  - split; [apply HE, Hk|]. exists e. now rewrite Ep.
  - intros j Hj. unfold V, e, upd. destruct (Nat.eqb_spec j 0); [lia|]. cbn [Z.of_nat Z.pow]. destruct (HE j ltac:(lia)). lia.
  - intros; lia.
  - intros j Hj. unfold V, e, upd. destruct (Nat.eqb_spec j 0) as [->|]; [unfold mx; lia|]. cbn [Z.of_nat Z.pow]. destruct (HE j Hj). lia.
Qed.
End Loop.

Lemma product_zprod l p : product_of l p <-> exists e, p = zprod (length l) (fun i => nth i l 0 ^ Z.of_nat (e i)).
Proof.
  split.
  - induction 1 as [|f p Hf Hp (e & ->)].
    + exists (fun _ => 0%nat). clear. rewrite (zprod_ext _ _ (fun _ => 1)) by reflexivity. induction (length l); cbn; lia.
    + destruct (In_nth l f 0 Hf) as (i & Hi & Ei).
      exists (upd e i (S (e i))).
      rewrite (zprod_ext _ (fun j => nth j l 0 ^ Z.of_nat (upd e i (S (e i)) j)) (upd (fun j => nth j l 0 ^ Z.of_nat (e j)) i (f * nth i l 0 ^ Z.of_nat (e i)))).
      2: { intros j _. unfold upd. destruct (Nat.eqb_spec j i) as [->|]; [|reflexivity]. rewrite pow_S. congruence. }
      destruct (Z.eq_dec (nth i l 0 ^ Z.of_nat (e i)) 0) as [Z0|N].
      * (* a zero factor makes both sides zero *)
        assert (ZZ : forall n g, (i < n)%nat -> g i = 0 -> zprod n g = 0).
        { induction n as [|n IH]; intros g Hn G; [lia|]. cbn. destruct (Nat.eq_dec n i) as [->|]; [rewrite G; lia|]. rewrite IH by (auto; lia). lia. }
        rewrite (ZZ _ _ Hi Z0). rewrite (ZZ _ (upd _ _ _) Hi); [lia|]. unfold upd. rewrite Nat.eqb_refl, Z0. lia.
      * assert (H := zprod_upd (length l) (fun j => nth j l 0 ^ Z.of_nat (e j)) i (f * nth i l 0 ^ Z.of_nat (e i)) Hi).
        cbv beta in H. apply Z.mul_reg_r with (1 := N). rewrite H. ring.
  - intros (e & ->). assert (M : forall n p, product_of l p -> (n <= length l)%nat -> product_of l (p * zprod n (fun i => nth i l 0 ^ Z.of_nat (e i)))).
    { induction n as [|n IH]; intros p Hp Hn; cbn [zprod]; [now rewrite Z.mul_1_r|].
      rewrite Z.mul_assoc, Z.mul_comm. specialize (IH p Hp ltac:(lia)). revert IH. generalize (p * zprod n (fun i => nth i l 0 ^ Z.of_nat (e i))) as q.
      intros q Hq. induction (e n) as [|m IHm]; [cbn [Z.of_nat Z.pow]; now rewrite Z.mul_1_l|].
      rewrite pow_S, <- Z.mul_assoc. apply po_mul; [apply nth_In; lia|exact IHm]. }
    specialize (M (length l) 1 (po_one l) (le_n _)). now rewrite Z.mul_1_l in M.
Qed.

Lemma list_seq (l : list Z) : l = map (fun i => nth i l 0) (seq 0 (length l)).
Proof.
  apply nth_ext with (d := 0) (d' := nth 0 l 0); [now rewrite map_length, seq_length|].
  intros i Hi. rewrite (map_nth (fun i => nth i l 0)), seq_nth by exact Hi. reflexivity.
Qed.

Lemma nextpows l x : 0 < x -> (forall f, In f l -> 1 < f) ->
  exists E : nat -> nat, map_result (fun ai => nextpow ai x) l = Ok (map (fun i => nth i l 0 ^ Z.of_nat (E i)) (seq 0 (length l))) /\
  forall i, (i < length l)%nat -> x <= nth i l 0 ^ Z.of_nat (E i) /\ forall m, (m < E i)%nat -> nth i l 0 ^ Z.of_nat m < x.
Proof.
  intros Hx. induction l as [|f l IH]; intros Hl.
  - exists (fun _ => 0%nat). split; [reflexivity|]. cbn. intros; lia.
  - destruct (IH (fun g Hg => Hl g (or_intror Hg))) as (E & E1 & E2).
    destruct (nextpow_ok f x (Hl f (or_introl eq_refl)) Hx) as (n & N1 & N2).
    exists (fun i => match i with O => n | S i => E i end). cbn [map_result]. rewrite N1. cbn [bind]. rewrite E1. cbn [bind]. split.
    + f_equal. cbn [length seq map nth]. f_equal. rewrite <- seq_shift, map_map. reflexivity.
    + intros [|i] Hi; cbn [nth]; [exact N2|]. apply E2. cbn in Hi. lia.
Qed.

Lemma nextprod_ok a x : a <> [] -> (forall f, In f a -> 1 < f) -> 0 < x ->
  exists fuel0, forall fuel, (fuel0 <= fuel)%nat -> exists r, nextprod fuel a x = Ok r /\ least (fun p => product_of a p /\ x <= p) r.
Proof.
  intros Hn Ha Hx.
  assert (Hk : (0 < length a)%nat) by (destruct a; cbn; [congruence|lia]).
  destruct (nextpows a x Hx Ha) as (E & E1 & E2).
  assert (Hai : forall i, (i < length a)%nat -> 1 < nth i a 0) by (intros i Hi; apply Ha, nth_In, Hi).
  destruct (Z.eq_dec x 1) as [->|N1].
  - exists 0%nat. intros fuel _. exists 1. split.
    + unfold nextprod. rewrite E1. cbn [bind]. rewrite get_seq by exact Hk. cbn [bind].
      assert (Z0 : forall i, (i < length a)%nat -> E i = 0%nat).
      { intros i Hi. destruct (E2 i Hi) as [_ M]. destruct (E i) as [|n] eqn:Ei; [reflexivity|]. specialize (M 0%nat ltac:(lia)). cbn in M. lia. }
      assert (R : map (fun i => nth i a 0 ^ Z.of_nat (E i)) (seq 0 (length a)) = map (fun _ => 1) (seq 0 (length a))).
      { apply map_ext_in. intros i Hi. apply in_seq in Hi. rewrite Z0 by lia. reflexivity. }
      rewrite R, Z0 by exact Hk. cbn [Z.of_nat Z.pow].
      assert (R2 : repeat 1 (length a) = map (fun _ => 1) (seq 0 (length a))).
      { clear. generalize 0%nat as s. induction (length a) as [|n IH]; intros s; cbn; [reflexivity|]. now rewrite <- IH. }
      rewrite R2, set_nth_seq by exact Hk.
      destruct fuel; cbn [nextprod_loop]; rewrite !get_last_seq by exact Hk; cbn [bind]; unfold upd; destruct (Nat.eqb (length a - 1) 0); reflexivity.
    + split; [split; [constructor|lia]|]. intros p [_ H]. exact H.
  - destruct (loop_start (length a) (fun i => nth i a 0) x E Hk Hai ltac:(lia) E2) as (fuel0 & HF).
    exists fuel0. intros fuel Hf. destruct (HF fuel Hf) as (r & R1 & R2 & (e0 & R3) & R4). exists r. split.
    + unfold nextprod. rewrite E1. cbn [bind]. rewrite get_seq by exact Hk. cbn [bind]. rewrite (list_seq a) at 1. exact R1.
    + split; [split; [apply product_zprod; exists e0; exact R3|exact R2]|].
      intros p [Hp Hxp]. apply product_zprod in Hp. destruct Hp as [e ->]. apply R4. exact Hxp.
Qed.
