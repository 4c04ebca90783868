(* P_zn.v: proofs about the pulsation statistics *)
From Verif Require Import Np Lib Cplx M_fourier S_fourier P_dft P_lag M_zn S_zn.
From Coq Require Import Lra.
Open Scope R_scope.

(* ---- the cached table ---- *)
Lemma nth_concat_repeat {A} (l : list A) d : forall m i, (i < m * length l)%nat ->
  nth i (concat (repeat l m)) d = nth (i mod length l) l d.
Proof.
  induction m as [|m IH]; intros i H; [lia|]. cbn [repeat concat].
  assert (L : length l <> 0%nat) by (intro E; rewrite E in H; lia).
  destruct (lt_dec i (length l)) as [C|C].
  - rewrite app_nth1 by exact C. now rewrite Nat.mod_small.
  - rewrite app_nth2 by lia. rewrite IH by nia. f_equal.
    replace i with ((i - length l) + 1 * length l)%nat at 2 by lia. now rewrite Nat.mod_add.
Qed.
Lemma concat_repeat_len {A} (l : list A) m : length (concat (repeat l m)) = (m * length l)%nat.
Proof. induction m as [|m IH]; [reflexivity|]. cbn [repeat concat]. rewrite app_length, IH. lia. Qed.

Lemma filter_seq_lt N : forall L s, (N <= L)%nat -> filter (fun i => Nat.ltb i (s + N)) (seq s L) = seq s N.
Proof.
  intros L s H. replace L with (N + (L - N))%nat by lia. rewrite seq_app, filter_app.
  assert (A : forall m t, (t + m <= s + N)%nat -> filter (fun i => Nat.ltb i (s + N)) (seq t m) = seq t m).
  { induction m as [|m IH]; intros t Ht; [reflexivity|]. cbn [seq filter]. replace (t <? s + N)%nat with true by (symmetry; apply Nat.ltb_lt; lia).
    f_equal. apply IH. lia. }
  assert (B : forall m t, (s + N <= t)%nat -> filter (fun i => Nat.ltb i (s + N)) (seq t m) = []).
  { induction m as [|m IH]; intros t Ht; [reflexivity|]. cbn [seq filter]. replace (t <? s + N)%nat with false by (symmetry; apply Nat.ltb_ge; lia).
    apply IH. lia. }
  rewrite A, B by lia. apply app_nil_r.
Qed.

Lemma strided_table (T : list R) m N k : (0 < N)%nat -> (0 < k <= m)%nat -> length T = (m * N)%nat ->
  strided T (N * k) k = map (fun j => nth (j * k) T 0) (seq 0 N).
Proof.
  intros HN Hk HL. unfold strided. f_equal. rewrite HL.
  rewrite <- (filter_seq_lt N (m * N) 0) by nia. apply filter_ext. intros i.
  replace (Nat.min (N * k) (m * N)) with (N * k)%nat by nia. cbn [plus].
  destruct (Nat.ltb_spec i N); [apply Nat.ltb_lt|apply Nat.ltb_ge]; nia.
Qed.

Lemma combine_rs (g : nat -> R) : forall prof s, 
  rlsum (map (fun p => fst p * snd p) (combine (map g (seq s (length prof))) prof)) = rs (length prof) (fun j => g (s + j)%nat * val prof j).
Proof.
  induction prof as [|a prof IH]; intros s; [reflexivity|].
  cbn [length seq map combine rlsum fold_right]. rewrite rs_first. fold (rlsum (map (fun p => fst p * snd p) (combine (map g (seq (S s) (length prof))) prof))).
  rewrite IH. cbn [fst snd]. f_equal; [unfold val; cbn; rewrite Nat.add_0_r; reflexivity|].
  apply rs_ext. intros i _. unfold val. cbn [nth]. f_equal. f_equal. lia.
Qed.

(* ---- the modulus does not see a common phase ---- *)
Definition unit_at (a : R) : cx := (cos a, sin a).
Lemma unit_add a b : unit_at (a + b) = cmul (unit_at a) (unit_at b).
Proof. unfold unit_at, cmul. cbn. rewrite cos_plus, sin_plus. f_equal; ring. Qed.
Lemma unit_norm a : cnorm2 (unit_at a) = 1.
Proof. unfold unit_at, cnorm2. cbn. assert (E := sin2_cos2 a). unfold Rsqr in E. lra. Qed.

Lemma weighted_sum N (p ang : nat -> R) :
  rs N (fun j => p j * cos (ang j)) ^ 2 + rs N (fun j => p j * sin (ang j)) ^ 2 =
  cnorm2 (cs N (fun j => cmul (rtoc (p j)) (unit_at (ang j)))).
Proof.
  unfold cnorm2. rewrite re_cs, im_cs. rewrite <- !Rsqr_pow2. unfold Rsqr. f_equal; f_equal;
  apply rs_ext; intros j _; unfold cmul, rtoc, unit_at; cbn; ring.
Qed.

Lemma shifted_sum N (p ang : nat -> R) c (h : nat -> cx) :
  (forall j, (j < N)%nat -> unit_at (ang j) = cmul (unit_at c) (h j)) ->
  cnorm2 (cs N (fun j => cmul (rtoc (p j)) (unit_at (ang j)))) = cnorm2 (cs N (fun j => cmul (rtoc (p j)) (h j))).
Proof.
  intros H. rewrite (cs_ext N _ (fun j => cmul (unit_at c) (cmul (rtoc (p j)) (h j)))).
  2:{ intros j Hj. rewrite H by exact Hj. ring. }
  rewrite cs_mul_l, cnorm2_mul, unit_norm. ring.
Qed.

Lemma cis_unit n m : cis n m = unit_at (2 * PI * IZR m / INR n).
Proof. reflexivity. Qed.

Lemma power_conj p k : cnorm2 (cs (length p) (fun j => cmul (rtoc (val p j)) (cis (length p) (Z.of_nat (j * k))))) = power_at p k.
Proof.
  rewrite power_at_norm, <- (cnorm2_conj (dft p k)), dft_cs, conj_cs. f_equal. apply cs_ext. intros j _.
  rewrite conj_mul, cis_conj. f_equal; [unfold cconj, rtoc; cbn; f_equal; ring|]. f_equal. rewrite Nat.mul_comm. lia.
Qed.

Lemma points_power p k : p <> [] -> harmonic_power (profile_points p) k = power_at p k.
Proof.
  intros Hp. assert (HN : (0 < length p)%nat) by (destruct p; [congruence|cbn; lia]).
  assert (HR : INR (length p) <> 0) by (apply not_0_INR; lia).
  unfold harmonic_power, profile_points. rewrite !map_map. cbn [fst snd].
  change (rlsum (map (fun x => val p x * cos (2 * PI * INR k * ((INR x + 1 / 2) / INR (length p)))) (seq 0 (length p))))
    with (rs (length p) (fun x => val p x * cos (2 * PI * INR k * ((INR x + 1 / 2) / INR (length p))))).
  change (rlsum (map (fun x => val p x * sin (2 * PI * INR k * ((INR x + 1 / 2) / INR (length p)))) (seq 0 (length p))))
    with (rs (length p) (fun x => val p x * sin (2 * PI * INR k * ((INR x + 1 / 2) / INR (length p))))).
  rewrite (weighted_sum (length p) (val p) (fun x => 2 * PI * INR k * ((INR x + 1 / 2) / INR (length p)))).
  rewrite (shifted_sum (length p) (val p) _ (PI * INR k / INR (length p)) (fun j => cis (length p) (Z.of_nat (j * k)))).
  - apply power_conj.
  - intros j _. rewrite cis_unit, <- unit_add. f_equal. rewrite <- INR_IZR_INZ, mult_INR. field. exact HR.
Qed.

Lemma table_power p m k sn cn : p <> [] -> (0 < k <= m)%nat ->
  cached_harmonics sin (length p) m = Ok sn -> cached_harmonics cos (length p) m = Ok cn ->
  exists c s, array_mul (strided cn (length p * k) k) p = Ok c /\ array_mul (strided sn (length p * k) k) p = Ok s /\
    rlsum c ^ 2 + rlsum s ^ 2 = power_at p k.
Proof.
  intros Hp Hk Es Ec. assert (HN : (0 < length p)%nat) by (destruct p; [congruence|cbn; lia]).
  assert (HR : INR (length p) <> 0) by (apply not_0_INR; lia).
  set (N := length p) in *.
  assert (T : forall f tb, cached_harmonics f N m = Ok tb ->
     strided tb (N * k) k = map (fun j => f (PI * 2 * (1 / INR N / 2 + INR ((j * k) mod N) * (1 / INR N)))) (seq 0 N)).
  { intros f tb E. unfold cached_harmonics in E. replace (N =? 0)%nat with false in E by (symmetry; apply Nat.eqb_neq; lia).
    apply (f_equal (fun r => match r with Ok a => a | Err _ => [] end)) in E. subst tb. 
    set (l := map f (map _ (seq 0 N))). assert (Ll : length l = N) by (unfold l; now rewrite !map_length, seq_length).
    rewrite (strided_table _ m N k); [|lia|lia|rewrite concat_repeat_len, Ll; reflexivity].
    apply map_ext_in. intros j Hj. apply in_seq in Hj. rewrite nth_concat_repeat by (rewrite Ll; nia). rewrite Ll.
    unfold l. rewrite map_map. 
    set (g := fun x => f (PI * 2 * (1 / INR N / 2 + INR x * (1 / INR N)))).
    assert (M : (j * k mod N < N)%nat) by (apply Nat.mod_upper_bound; lia).
    rewrite nth_indep with (d' := g 0%nat) by (rewrite map_length, seq_length; exact M).
    rewrite map_nth, seq_nth by exact M. reflexivity. }
  rewrite (T cos cn Ec), (T sin sn Es).
  unfold array_mul. rewrite !map_length, !seq_length. fold N. rewrite Nat.eqb_refl.
  eexists. eexists. split; [reflexivity|]. split; [reflexivity|].
  unfold N at 2. unfold N at 5. rewrite (combine_rs (fun j => cos _) p 0), (combine_rs (fun j => sin _) p 0). fold N. cbn [plus].
  transitivity (rs N (fun j => val p j * cos (PI * 2 * (1 / INR N / 2 + INR ((j * k) mod N) * (1 / INR N)))) ^ 2 +
                rs N (fun j => val p j * sin (PI * 2 * (1 / INR N / 2 + INR ((j * k) mod N) * (1 / INR N)))) ^ 2).
  { f_equal; f_equal; apply rs_ext; intros; ring. }
  rewrite (weighted_sum N (val p) (fun j => PI * 2 * (1 / INR N / 2 + INR ((j * k) mod N) * (1 / INR N)))).
  rewrite (shifted_sum N (val p) _ (PI / INR N) (fun j => cis N (Z.of_nat (j * k)))).
  - apply power_conj.
  - intros j _. rewrite (cis_mod N (Z.of_nat (j * k)) (Z.of_nat ((j * k) mod N))) by
      (lia || (rewrite Nat2Z.inj_mod, Z.mod_mod by lia; reflexivity)).
    rewrite cis_unit, <- unit_add. f_equal. rewrite <- INR_IZR_INZ. field. exact HR.
Qed.

Lemma sums_spec p m sn cn : p <> [] ->
  cached_harmonics sin (length p) m = Ok sn -> cached_harmonics cos (length p) m = Ok cn ->
  forall n a acc, (a + n <= m)%nat -> acc = rlsum (map (power_at p) (seq 1 a)) ->
  z_n_sums p (seq (S a) n) sn cn acc = Ok (map (fun q => rlsum (map (power_at p) (seq 1 q))) (seq (S a) n)).
Proof.
  intros Hp Es Ec. induction n as [|n IH]; intros a acc Ha E; [reflexivity|].
  cbn [seq z_n_sums].
  destruct (table_power p m (S a) sn cn Hp ltac:(lia) Es Ec) as (c & s & E1 & E2 & E3). rewrite E1, E2. cbn [bind].
  assert (E' : acc + (rlsum c ^ 2 + rlsum s ^ 2) = rlsum (map (power_at p) (seq 1 (S a)))).
  { rewrite E3, E. rewrite seq_S, map_app, rlsum_app. cbn. ring. }
  rewrite (IH (S a) _ ltac:(lia) E'). cbn [bind map]. now rewrite E'.
Qed.

Lemma tables_ok (p : list R) m : p <> [] -> exists sn cn, cached_harmonics sin (length p) m = Ok sn /\ cached_harmonics cos (length p) m = Ok cn.
Proof. intros Hp. unfold cached_harmonics. destruct p; [congruence|]. cbn. eexists. eexists. split; reflexivity. Qed.

Lemma weight_points p : weight (profile_points p) = rlsum p.
Proof. unfold weight, profile_points. rewrite map_map. cbn [snd]. rewrite (rlsum_rs p). reflexivity. Qed.

Lemma Z2_points p n : p <> [] -> Z2 (profile_points p) n = 2 / rlsum p * rlsum (map (power_at p) (seq 1 n)).
Proof.
  intros Hp. unfold Z2. rewrite weight_points. f_equal. f_equal. apply map_ext. intros k. now apply points_power.
Qed.

Lemma binned_all p nmax : p <> [] -> rlsum p <> 0 ->
  z_n_binned_events_all p nmax = Ok (seq 1 nmax, map (fun n => Z2 (profile_points p) n) (seq 1 nmax)).
Proof.
  intros Hp Ht. destruct (tables_ok p nmax Hp) as (sn & cn & Es & Ec). unfold z_n_binned_events_all. rewrite Es, Ec. cbn [bind].
  destruct (Req_EM_T (rlsum p) 0) as [E|_]; [contradiction|].
  rewrite (sums_spec p nmax sn cn Hp Es Ec nmax 0 0 ltac:(lia) eq_refl). cbn [bind]. f_equal. f_equal.
  rewrite map_map. apply map_ext. intros n. rewrite Z2_points by exact Hp. field. exact Ht.
Qed.

Lemma last_of_seq f n : (0 < n)%nat -> last_of (map f (seq 1 n)) = Ok (f n).
Proof.
  intros H. destruct n as [|n]; [lia|]. rewrite seq_S, map_app. unfold last_of. rewrite rev_app_distr. reflexivity.
Qed.

Lemma binned_value p n : p <> [] -> rlsum p <> 0 -> (0 < n)%nat ->
  z_n p n Binned None = Ok (Z2 (profile_points p) n) /\
  Z2 (profile_points p) n = 2 / rlsum p * rlsum (map (power_at p) (seq 1 n)).
Proof.
  intros Hp Ht Hn. split; [|now apply Z2_points].
  unfold z_n. destruct (length p =? 0)%nat eqn:E; [destruct p; [congruence|discriminate]|].
  unfold z_n_binned_events. rewrite binned_all by assumption. cbn [bind snd]. now apply last_of_seq.
Qed.

(* ---- events ---- *)
Lemma events_sums ph : forall n a acc, acc = rlsum (map (harmonic_power (event_points ph)) (seq 1 a)) ->
  z_n_events_sums (map (fun p => p * 2 * PI) ph) (seq (S a) n) acc =
  map (fun q => rlsum (map (harmonic_power (event_points ph)) (seq 1 q))) (seq (S a) n).
Proof.
  induction n as [|n IH]; intros a acc E; [reflexivity|]. cbn [seq z_n_events_sums map].
  assert (E' : acc + (rlsum (map (fun p => cos (INR (S a) * p)) (map (fun p => p * 2 * PI) ph)) ^ 2 +
                      rlsum (map (fun p => sin (INR (S a) * p)) (map (fun p => p * 2 * PI) ph)) ^ 2) =
               rlsum (map (harmonic_power (event_points ph)) (seq 1 (S a)))).
  { rewrite E. rewrite (seq_S a 1), map_app, rlsum_app. cbn [map rlsum fold_right plus]. rewrite Rplus_0_r. f_equal.
    unfold harmonic_power, event_points. rewrite !map_map. cbn [fst snd].
    f_equal; f_equal; apply rlsum_map; intros x _; rewrite Rmult_1_l; f_equal; ring. }
  cbv zeta. rewrite E'. f_equal. now apply IH.
Qed.

Lemma weight_events ph : weight (event_points ph) = INR (length ph).
Proof.
  unfold weight, event_points. rewrite map_map. cbn [snd]. induction ph as [|a ph IH]; [reflexivity|].
  cbn [map rlsum fold_right length]. unfold rlsum in IH. rewrite IH, S_INR. ring.
Qed.

Lemma events_all ph nmax : ph <> [] ->
  z_n_events_all ph nmax = Ok (seq 1 nmax, map (fun n => Z2 (event_points ph) n) (seq 1 nmax)).
Proof.
  intros Hp. unfold z_n_events_all. destruct (length ph =? 0)%nat eqn:E; [destruct ph; [congruence|discriminate]|].
  rewrite (events_sums ph nmax 0 0 eq_refl). f_equal. f_equal. rewrite map_map. apply map_ext. intros n. unfold Z2.
  now rewrite weight_events.
Qed.

Lemma events_value ph n : ph <> [] -> (0 < n)%nat -> z_n ph n Events None = Ok (Z2 (event_points ph) n).
Proof.
  intros Hp Hn. unfold z_n. destruct (length ph =? 0)%nat eqn:E; [destruct ph; [congruence|discriminate]|].
  unfold z_n_events. rewrite events_all by assumption. cbn [bind snd]. now apply last_of_seq.
Qed.

(* ---- events at the centres of the bins ---- *)
Lemma rlsum_concat {A} (f : A -> list R) l : rlsum (concat (map f l)) = rlsum (map (fun a => rlsum (f a)) l).
Proof. induction l as [|a l IH]; [reflexivity|]. cbn [map concat]. rewrite rlsum_app, IH. reflexivity. Qed.
Lemma rlsum_repeat x n : rlsum (repeat x n) = INR n * x.
Proof. induction n as [|n IH]; [cbn; ring|]. cbn [repeat rlsum fold_right]. unfold rlsum in IH. rewrite IH, S_INR. ring. Qed.
Lemma map_repeat' {A B} (f : A -> B) x n : map f (repeat x n) = repeat (f x) n.
Proof. induction n as [|n IH]; [reflexivity|]. cbn. now rewrite IH. Qed.

Lemma centres_sum (g : R -> R) counts :
  rlsum (map g (events_at_centres counts)) =
  rlsum (map (fun p => snd p * g (fst p)) (profile_points (map INR counts))).
Proof.
  unfold events_at_centres, profile_points. rewrite concat_map, !map_map, rlsum_concat, map_length.
  apply rlsum_map. intros j Hj. rewrite map_repeat', rlsum_repeat. cbn [fst snd]. f_equal. unfold val.
  apply in_seq in Hj. rewrite nth_indep with (d' := INR 0) by (rewrite map_length; lia). now rewrite map_nth.
Qed.

Lemma centres_Z2 counts n : Z2 (event_points (events_at_centres counts)) n = Z2 (profile_points (map INR counts)) n.
Proof.
  assert (W : weight (event_points (events_at_centres counts)) = weight (profile_points (map INR counts))).
  { unfold weight, event_points. rewrite map_map. cbn [snd]. rewrite (centres_sum (fun _ => 1)). 
    apply rlsum_map. intros a _. ring. }
  unfold Z2. rewrite W. f_equal. apply rlsum_map. intros k _. unfold harmonic_power, event_points. rewrite !map_map. cbn [fst snd].
  f_equal; f_equal.
  - rewrite <- (centres_sum (fun x => cos (2 * PI * INR k * x))). apply rlsum_map. intros; ring.
  - rewrite <- (centres_sum (fun x => sin (2 * PI * INR k * x))). apply rlsum_map. intros; ring.
Qed.

Lemma binned_is_events counts n : (0 < n)%nat -> rlsum (map INR counts) <> 0 ->
  z_n (map INR counts) n Binned None = z_n (events_at_centres counts) n Events None.
Proof.
  intros Hn Ht. assert (Hp : map INR counts <> []) by (intro E; rewrite E in Ht; cbn in Ht; lra).
  assert (He : events_at_centres counts <> []).
  { intro E. assert (X := centres_sum (fun _ => 1) counts). rewrite E in X. cbn [map rlsum fold_right] in X.
    rewrite <- weight_points in Ht. unfold weight in Ht. apply Ht. etransitivity; [|symmetry; exact X]. apply rlsum_map. intros; ring. }
  rewrite (proj1 (binned_value _ n Hp Ht Hn)), events_value by assumption. now rewrite centres_Z2.
Qed.

(* ---- rotations ---- *)
Lemma power_delay d x y k : x <> [] -> delayed d x y -> power_at y k = power_at x k.
Proof. intros Hx D. rewrite !power_at_norm, (dft_delay d x y k Hx D), cnorm2_mul, cis_norm. ring. Qed.
Lemma sum_delay d x y : x <> [] -> delayed d x y -> rlsum y * rlsum y = rlsum x * rlsum x.
Proof. intros Hx D. rewrite <- !power_0. now apply (power_delay d). Qed.
Lemma delay_sum d x y : x <> [] -> delayed d x y -> rlsum y = rlsum x.
Proof.
  intros Hx D. assert (E := dft_delay d x y 0 Hx D). rewrite Nat.mul_0_l in E. cbn [Z.of_nat Z.opp] in E. rewrite cis_0 in E.
  apply (f_equal re) in E. rewrite !dft_0 in E. cbn in E. lra.
Qed.

Lemma rotation d x y n : delayed d x y -> z_n y n Binned None = z_n x n Binned None.
Proof.
  intros D. destruct x as [|a x'] eqn:Ex.
  { destruct D as [L _]. destruct y; [reflexivity|discriminate]. }
  rewrite <- Ex in *. assert (Hx : x <> []) by congruence. 
  assert (Hy : y <> []) by (destruct D as [L _]; intros ->; rewrite Ex in L; discriminate).
  assert (Es := delay_sum d x y Hx D).
  unfold z_n. destruct D as [L V]. rewrite L. destruct (length x =? 0)%nat; [reflexivity|].
  unfold z_n_binned_events. destruct (Req_EM_T (rlsum x) 0) as [E0|N0].
  - unfold z_n_binned_events_all. rewrite L, Es. destruct (tables_ok x n Hx) as (sn & cn & E1 & E2). rewrite E1, E2. cbn [bind].
    destruct (Req_EM_T (rlsum x) 0); [reflexivity|contradiction].
  - rewrite !binned_all by congruence. cbn [bind snd]. f_equal. apply map_ext. intros q. rewrite !Z2_points by assumption.
    rewrite Es. f_equal. apply rlsum_map. intros k _. apply (power_delay d); [assumption|now split].
Qed.

Lemma unit_period a (m : Z) : unit_at (a + 2 * PI * IZR m) = unit_at a.
Proof.
  rewrite unit_add. replace (unit_at (2 * PI * IZR m)) with c1; [ring|].
  assert (E := cis_period 1 m ltac:(lia)). rewrite cis_unit in E. rewrite <- E. f_equal. change (Z.of_nat 1) with 1%Z.
  rewrite Z.mul_1_r. change (INR 1) with 1. field.
Qed.

Lemma shift_power c ph ps k : Forall2 (same_phase c) ph ps ->
  harmonic_power (event_points ps) k = harmonic_power (event_points ph) k.
Proof.
  intros F. unfold harmonic_power, event_points. rewrite !map_map. cbn [fst snd].
  assert (G : forall xs, (rlsum (map (fun x => 1 * cos (2 * PI * INR k * x)) xs), rlsum (map (fun x => 1 * sin (2 * PI * INR k * x)) xs)) =
     clsum (map (fun x => unit_at (2 * PI * INR k * x)) xs)).
  { induction xs as [|x xs IH]; [reflexivity|]. cbn [map clsum rlsum fold_right]. unfold clsum, rlsum in IH. rewrite <- IH.
    unfold cadd, unit_at. cbn. f_equal; ring. }
  assert (H : clsum (map (fun x => unit_at (2 * PI * INR k * x)) ps) =
     cmul (unit_at (2 * PI * INR k * c)) (clsum (map (fun x => unit_at (2 * PI * INR k * x)) ph))).
  { induction F as [|x y xs ys [m ->] F IH]; [cbn; unfold cmul, c0; cbn; f_equal; ring|].
    cbn [map clsum fold_right]. unfold clsum in IH. rewrite IH.
    replace (unit_at (2 * PI * INR k * (x + c + IZR m))) with (cmul (unit_at (2 * PI * INR k * c)) (unit_at (2 * PI * INR k * x))).
    - ring.
    - rewrite <- unit_add. rewrite <- (unit_period _ (Z.of_nat k * m)). f_equal. rewrite mult_IZR, <- INR_IZR_INZ. ring. }
  rewrite <- !G in H.
  assert (E : forall a b : R, a ^ 2 + b ^ 2 = cnorm2 (a, b)) by (intros; unfold cnorm2; cbn; ring).
  rewrite !E, H, cnorm2_mul, unit_norm. ring.
Qed.

Lemma events_shift c ph ps n : Forall2 (same_phase c) ph ps -> z_n ps n Events None = z_n ph n Events None.
Proof.
  intros F. assert (L : length ph = length ps) by (clear -F; induction F; cbn; congruence).
  unfold z_n. rewrite <- L. destruct (length ph =? 0)%nat eqn:E; [reflexivity|]. apply Nat.eqb_neq in E.
  unfold z_n_events. rewrite !events_all by (intros ->; cbn in *; lia). cbn [bind snd]. f_equal. apply map_ext. intros q.
  unfold Z2. rewrite !weight_events, <- L. f_equal. apply rlsum_map. intros k _. now apply (shift_power c).
Qed.

(* ---- bounds ---- *)
Lemma harmonic_nonneg pts k : 0 <= harmonic_power pts k.
Proof. unfold harmonic_power. assert (H := pow2_ge_0). apply Rplus_le_le_0_compat; apply H. Qed.

Lemma harmonic_le pts k : (forall p, In p pts -> 0 <= snd p) -> harmonic_power pts k <= weight pts ^ 2 /\ 0 <= weight pts.
Proof.
  intros H. unfold harmonic_power, weight.
  induction pts as [|[x w] pts IH]; [cbn; lra|].
  assert (Hw : 0 <= w) by (apply (H (x, w)); now left).
  specialize (IH (fun p Hp => H p (or_intror Hp))). cbn [map rlsum fold_right fst snd].
  change (fold_right Rplus 0) with rlsum.
  set (C := rlsum (map (fun p => snd p * cos (2 * PI * INR k * fst p)) pts)) in *.
  set (Sn := rlsum (map (fun p => snd p * sin (2 * PI * INR k * fst p)) pts)) in *.
  set (W := rlsum (map snd pts)) in *. set (a := 2 * PI * INR k * x).
  destruct IH as [B BW]. split; [|lra].
  assert (U := sin2_cos2 a). unfold Rsqr in U.
  assert (P : C * cos a + Sn * sin a <= W).
  { destruct (Rle_dec (C * cos a + Sn * sin a) W) as [D|D]; [exact D|]. exfalso.
    assert (X : W * W < (C * cos a + Sn * sin a) * (C * cos a + Sn * sin a)) by nra.
    assert (Y : (C * cos a + Sn * sin a) * (C * cos a + Sn * sin a) + (C * sin a - Sn * cos a) * (C * sin a - Sn * cos a)
               = (C * C + Sn * Sn) * (sin a * sin a + cos a * cos a)) by ring.
    rewrite U in Y. assert (Z := Rle_0_sqr (C * sin a - Sn * cos a)). unfold Rsqr in Z. nra. }
  assert (E : (w * cos a + C) ^ 2 + (w * sin a + Sn) ^ 2 =
     w * w * (sin a * sin a + cos a * cos a) + 2 * w * (C * cos a + Sn * sin a) + (C ^ 2 + Sn ^ 2)) by ring.
  rewrite E, U. nra.
Qed.

Lemma sum_nonneg_le (f : nat -> R) b : (forall k, 0 <= f k <= b) -> forall n s, 0 <= rlsum (map f (seq s n)) <= INR n * b.
Proof.
  intros H. induction n as [|n IH]; intros s; [cbn; lra|]. cbn [seq map rlsum fold_right]. specialize (IH (S s)). unfold rlsum in IH.
  specialize (H s). rewrite S_INR. lra.
Qed.

Lemma Z2_bounds pts n : (forall p, In p pts -> 0 <= snd p) -> 0 < weight pts ->
  0 <= Z2 pts n <= 2 * INR n * weight pts /\ Z2 pts n <= Z2 pts (S n).
Proof.
  intros H W. assert (I : 0 < / weight pts) by (apply Rinv_0_lt_compat; exact W). unfold Z2, Rdiv.
  destruct (sum_nonneg_le (harmonic_power pts) (weight pts ^ 2) (fun k => conj (harmonic_nonneg pts k) (proj1 (harmonic_le pts k H))) n 1) as [A B].
  set (s := rlsum (map (harmonic_power pts) (seq 1 n))) in *.
  assert (G : INR n * weight pts ^ 2 * / weight pts = INR n * weight pts) by (field; lra).
  split; [split; nra|]. rewrite seq_S, map_app, rlsum_app. fold s. cbn [map rlsum fold_right]. assert (P := harmonic_nonneg pts (1 + n)). nra.
Qed.

(* ---- gauss ---- *)
Lemma gauss_binned p n : p <> [] -> 0 < rlsum p -> (0 < n)%nat ->
  z_n p n Gauss (Some (sqrt (rlsum p / INR (length p)))) = z_n p n Binned None.
Proof.
  intros Hp Ht Hn. rewrite (proj1 (binned_value p n Hp ltac:(lra) Hn)). unfold z_n.
  destruct (length p =? 0)%nat eqn:E; [destruct p; [congruence|discriminate]|]. apply Nat.eqb_neq in E.
  assert (HR : 0 < INR (length p)) by (apply lt_0_INR; lia).
  unfold z_n_gauss, z_n_gauss_all. destruct (tables_ok p n Hp) as (sn & cn & Es & Ec). rewrite Es, Ec. cbn [bind].
  rewrite (sums_spec p n sn cn Hp Es Ec n 0 0 ltac:(lia) eq_refl). cbn [bind snd]. rewrite map_map, last_of_seq by exact Hn. f_equal.
  rewrite Z2_points by exact Hp. rewrite <- Rsqr_pow2, Rsqr_sqrt.
  - field. lra.
  - apply Rlt_le, Rdiv_lt_0_compat; assumption.
Qed.

(* ---- epoch folding ---- *)
Lemma rlsum_seq1 (f : nat -> R) n : rlsum (map f (seq 1 n)) = rs n (fun k => f (S k)).
Proof. unfold rs. rewrite <- seq_shift, map_map. reflexivity. Qed.

Lemma ef_value p : p <> [] -> 0 < rlsum p ->
  ef_profile_stat p = INR (length p) * INR (length p) * variance p / rlsum p.
Proof.
  intros Hp Ht. assert (HR : 0 < INR (length p)) by (apply lt_0_INR; destruct p; [congruence|cbn; lia]).
  unfold ef_profile_stat, variance, avg. rewrite map_id.
  rewrite <- Rsqr_pow2, Rsqr_sqrt by (apply Rlt_le, Rdiv_lt_0_compat; assumption).
  set (m := rlsum p / INR (length p)).
  transitivity (rlsum (map (fun v => (v - m) * (v - m)) p) * / m).
  - rewrite <- (rlsum_map_scal (fun v => (v - m) * (v - m))). apply rlsum_map. intros; unfold Rdiv; ring.
  - unfold m. field. split; lra.
Qed.

Lemma ef_is_zn p : p <> [] -> 0 < rlsum p -> (1 < length p)%nat ->
  Nat.even (length p) = false ->
  z_n p ((length p - 1) / 2) Binned None = Ok (ef_profile_stat p).
Proof.
  intros Hp Ht L Ho. assert (Hn : (0 < (length p - 1) / 2)%nat).
  { apply Nat.div_str_pos. destruct (length p) as [|[|[|q]]]; cbn in *; try lia; discriminate. }
  destruct (binned_value p _ Hp ltac:(lra) Hn) as [E E']. rewrite E, E'. f_equal.
  rewrite ef_value by assumption. assert (P := parseval_pos p Hp). rewrite Ho in P. unfold n_pos in P. rewrite <- P, rlsum_seq1. field. lra.
Qed.

Lemma ef_bounds_zn p n : p <> [] -> 0 < rlsum p -> (0 < n <= (length p - 1) / 2)%nat ->
  exists z, z_n p n Binned None = Ok z /\ z <= ef_profile_stat p.
Proof.
  intros Hp Ht Hn. destruct (binned_value p n Hp ltac:(lra) ltac:(lia)) as [E E']. rewrite E, E'. eexists. split; [reflexivity|].
  rewrite ef_value by assumption. assert (P := parseval_pos p Hp). rewrite <- P. rewrite rlsum_seq1. unfold n_pos.
  replace ((length p - 1) / 2)%nat with (n + ((length p - 1) / 2 - n))%nat by lia. rewrite rs_add.
  assert (A : forall k, 0 <= power_at p k) by (intros; rewrite power_at_norm; apply cnorm2_nonneg).
  assert (B : 0 <= rs ((length p - 1) / 2 - n) (fun i => power_at p (S (n + i)))) by (apply rs_nonneg; intros; apply A).
  set (r1 := rs n _) in *. set (r2 := rs _ _) in *.
  assert (C : 0 <= if Nat.even (length p) then power_at p (length p / 2) else 0) by (destruct Nat.even; [apply A|lra]).
  unfold Rdiv. assert (I : 0 < / rlsum p) by (apply Rinv_0_lt_compat; exact Ht). nra.
Qed.

(* ---- flat profiles ---- *)
Lemma flat_power c N k : (0 < N)%nat -> power_at (repeat c N) k = if Nat.eqb (k mod N) 0 then (c * INR N) ^ 2 else 0.
Proof.
  intros HN. rewrite <- power_conj. rewrite repeat_length.
  rewrite (cs_ext N _ (fun j => cmul (rtoc c) (cis N (Z.of_nat j * Z.of_nat k)))).
  2:{ intros j Hj. unfold val. replace (nth j (repeat c N) 0) with c.
      - f_equal. f_equal. lia.
      - symmetry. rewrite (nth_indep _ _ c) by (rewrite repeat_length; exact Hj). apply nth_repeat. }
  rewrite cs_mul_l, cnorm2_mul. destruct (Nat.eqb_spec (k mod N) 0) as [E|E].
  - rewrite (cs_ext N _ (fun _ => c1)).
    + replace (cs N (fun _ => c1)) with (rtoc (INR N)); [unfold cnorm2, rtoc; cbn; ring|].
      apply cx_eq; [rewrite re_cs, rs_const; cbn; ring|rewrite im_cs, rs_const; cbn; ring].
    + intros j _. rewrite <- (cis_0 N). apply cis_mod; [exact HN|].
      apply Nat.mod_divides in E; [|lia]. destruct E as [q ->]. rewrite Z.mod_0_l by lia.
      rewrite Nat2Z.inj_mul. replace (Z.of_nat j * (Z.of_nat N * Z.of_nat q))%Z with ((Z.of_nat q * Z.of_nat j) * Z.of_nat N)%Z by ring.
      apply Z.mod_mul. lia.
  - rewrite cis_geom; [unfold cnorm2, c0; cbn; ring|exact HN|]. rewrite <- Nat2Z.inj_mod. lia.
Qed.

Lemma rlsum_repeat_nonzero c N : (0 < N)%nat -> c <> 0 -> rlsum (repeat c N) <> 0.
Proof. intros HN Hc. rewrite rlsum_repeat. apply Rmult_integral_contrapositive_currified; [apply not_0_INR; lia|exact Hc]. Qed.

Lemma flat_zero c N n : (0 < n < N)%nat -> z_n (repeat c N) n Binned None = Ok 0.
Proof.
  intros H. assert (Hp : repeat c N <> []) by (intro E; apply (f_equal (@length R)) in E; rewrite repeat_length in E; cbn in E; lia).
  destruct (Req_EM_T c 0) as [->|Hc].
  - unfold z_n. rewrite repeat_length. replace (N =? 0)%nat with false by (symmetry; apply Nat.eqb_neq; lia).
    unfold z_n_binned_events, z_n_binned_events_all. destruct (tables_ok (repeat 0 N) n Hp) as (sn & cn & -> & ->). cbn [bind].
    rewrite rlsum_repeat. destruct (Req_EM_T (INR N * 0) 0) as [_|C]; [|exfalso; apply C; ring]. cbn [bind snd].
    unfold last_of. destruct n as [|n]; [lia|]. change (S n) with (1 + n)%nat. rewrite Nat.add_comm, repeat_app, rev_app_distr. reflexivity.
  - rewrite (proj1 (binned_value _ n Hp (rlsum_repeat_nonzero c N ltac:(lia) Hc) ltac:(lia))).
    rewrite Z2_points by exact Hp. f_equal. rewrite (rlsum_map _ (fun _ => 0)).
    + replace (rlsum (map (fun _ : nat => 0) (seq 1 n))) with 0; [ring|].
      generalize (seq 1 n). induction l as [|a l IH]; [reflexivity|]. cbn [map rlsum fold_right]. unfold rlsum in IH. lra.
    + intros k Hk. apply in_seq in Hk. rewrite flat_power by lia. rewrite Nat.mod_small by lia.
      destruct (Nat.eqb_spec k 0); [lia|reflexivity].
Qed.

Lemma flat_alias c N : (0 < N)%nat -> 0 < c -> z_n (repeat c N) N Binned None = Ok (2 * (c * INR N)).
Proof.
  intros HN Hc. assert (Hp : repeat c N <> []) by (intro E; apply (f_equal (@length R)) in E; rewrite repeat_length in E; cbn in E; lia).
  assert (HR : INR N <> 0) by (apply not_0_INR; lia).
  rewrite (proj1 (binned_value _ N Hp (rlsum_repeat_nonzero c N ltac:(lia) ltac:(lra)) HN)).
  rewrite Z2_points by exact Hp. f_equal. rewrite rlsum_repeat, rlsum_seq1.
  rewrite (rs_delta N (N - 1)).
  - replace (S (N - 1)) with N by lia. rewrite flat_power by exact HN. rewrite Nat.mod_same by lia. cbn [Nat.eqb]. field. split; lra.
  - lia.
  - intros i Hi Hn. rewrite flat_power by exact HN. rewrite Nat.mod_small by lia. reflexivity.
Qed.

(* ---- H test ---- *)
Lemma argmax_from_spec : forall x best bv i, 
  (argmax_from best bv i x = best /\ (forall j, (j < length x)%nat -> nth j x 0 <= bv)) \/
  (exists j, (j < length x)%nat /\ argmax_from best bv i x = (i + j)%nat /\ bv < nth j x 0 /\
     (forall q, (q < length x)%nat -> nth q x 0 <= nth j x 0) /\ (forall q, (q < j)%nat -> nth q x 0 < nth j x 0)).
Proof.
  induction x as [|a x IH]; intros best bv i.
  { left. split; [reflexivity|]. cbn. lia. }
  cbn [argmax_from]. destruct (Rlt_dec bv a) as [C|C].
  - destruct (IH i a (S i)) as [(E & H)|(j & Hj & E & Hb & H1 & H2)].
    + right. exists 0%nat. cbn [length nth]. repeat split; [lia|rewrite E; lia|exact C| |lia].
      intros [|q] Hq; cbn; [lra|]. apply H. lia.
    + right. exists (S j). cbn [length nth]. repeat split; [lia|rewrite E; lia|lra| |].
      * intros [|q] Hq; cbn; [lra|]. apply H1. lia.
      * intros [|q] Hq; cbn; [lra|]. apply H2. lia.
  - destruct (IH best bv (S i)) as [(E & H)|(j & Hj & E & Hb & H1 & H2)].
    + left. split; [exact E|]. intros [|j] Hj; cbn in *; [lra|]. apply H. lia.
    + right. exists (S j). cbn [length nth]. repeat split; [lia|rewrite E; lia|exact Hb| |].
      * intros [|q] Hq; cbn; [lra|]. apply H1. lia.
      * intros [|q] Hq; cbn; [lra|]. apply H2. lia.
Qed.

Lemma argmax_spec x : x <> [] -> exists i, argmax x = Ok i /\ (i < length x)%nat /\
  (forall q, (q < length x)%nat -> nth q x 0 <= nth i x 0) /\ (forall q, (q < i)%nat -> nth q x 0 < nth i x 0).
Proof.
  destruct x as [|a x]; [congruence|]. intros _. unfold argmax. eexists. split; [reflexivity|].
  destruct (argmax_from_spec x 0 a 1) as [(E & H)|(j & Hj & E & Hb & H1 & H2)]; rewrite E.
  - cbn [length nth]. repeat split; [lia| |lia]. intros [|q] Hq; cbn; [lra|]. apply H. lia.
  - cbn [length]. change (1 + j)%nat with (S j). cbn [nth]. repeat split; [lia| |].
    + intros [|q] Hq; cbn; [lra|]. apply H1. lia.
    + intros [|q] Hq; cbn; [lra|]. apply H2. lia.
Qed.

Lemma combine_map_seq {B} (f : nat -> B) l : combine l (map f l) = map (fun k => (k, f k)) l.
Proof. induction l as [|a l IH]; [reflexivity|]. cbn. now rewrite IH. Qed.

Lemma htest_of data nmax dtype err (z : nat -> R) : (0 < nmax)%nat ->
  (match dtype with
   | Binned => z_n_binned_events_all data nmax
   | Events => z_n_events_all data nmax
   | Gauss => match err with None => Err ValueError | Some e => z_n_gauss_all data e nmax end
   | OtherData => Err ValueError
   end) = Ok (seq 1 nmax, map z (seq 1 nmax)) ->
  exists M, htest data nmax dtype err = Ok (M, H_of (z M) M) /\ (1 <= M <= nmax)%nat /\
    (forall k, (1 <= k <= nmax)%nat -> H_of (z k) k <= H_of (z M) M) /\
    (forall k, (1 <= k < M)%nat -> H_of (z k) k < H_of (z M) M).
Proof.
  intros Hn E. unfold htest. rewrite E. cbn [bind fst snd]. rewrite combine_map_seq, map_map. cbn [fst snd].
  set (Hs := map (fun k => z k - 4 * INR k + 4) (seq 1 nmax)).
  assert (L : length Hs = nmax) by (unfold Hs; now rewrite map_length, seq_length).
  assert (V : forall i, (i < nmax)%nat -> nth i Hs 0 = H_of (z (S i)) (S i)).
  { intros i Hi. unfold Hs. set (g := fun k => z k - 4 * INR k + 4).
    rewrite (nth_indep _ _ (g 0%nat)) by (rewrite map_length, seq_length; exact Hi). rewrite map_nth, seq_nth by exact Hi. reflexivity. }
  destruct (argmax_spec Hs) as (i & -> & Hi & A & B); [intro C; rewrite C in L; cbn in L; lia|]. rewrite L in *.
  exists (S i). cbn [bind]. rewrite (V i Hi), seq_nth by exact Hi. split; [reflexivity|]. split; [lia|]. split.
  - intros k Hk. rewrite <- (V i Hi). destruct k as [|k]; [lia|]. rewrite <- (V k) by lia. apply A. lia.
  - intros k Hk. rewrite <- (V i Hi). destruct k as [|k]; [lia|]. rewrite <- (V k) by lia. apply B. lia.
Qed.

Lemma htest_binned p nmax : p <> [] -> rlsum p <> 0 -> (0 < nmax)%nat ->
  exists M, htest p nmax Binned None = Ok (M, H_of (Z2 (profile_points p) M) M) /\ (1 <= M <= nmax)%nat /\
    (forall k, (1 <= k <= nmax)%nat -> H_of (Z2 (profile_points p) k) k <= H_of (Z2 (profile_points p) M) M) /\
    (forall k, (1 <= k < M)%nat -> H_of (Z2 (profile_points p) k) k < H_of (Z2 (profile_points p) M) M).
Proof. intros Hp Ht Hn. apply htest_of; [exact Hn|]. now apply binned_all. Qed.
Lemma htest_events ph nmax : ph <> [] -> (0 < nmax)%nat ->
  exists M, htest ph nmax Events None = Ok (M, H_of (Z2 (event_points ph) M) M) /\ (1 <= M <= nmax)%nat /\
    (forall k, (1 <= k <= nmax)%nat -> H_of (Z2 (event_points ph) k) k <= H_of (Z2 (event_points ph) M) M) /\
    (forall k, (1 <= k < M)%nat -> H_of (Z2 (event_points ph) k) k < H_of (Z2 (event_points ph) M) M).
Proof. intros Hp Hn. apply htest_of; [exact Hn|]. now apply events_all. Qed.

(* a flat 16-bin profile scores as a strong pulsation with the default 20 harmonics *)
Lemma htest_flat_refuted : exists c N nmax H M, 0 < c /\ (0 < N)%nat /\ (0 < nmax)%nat /\
  htest (repeat c N) nmax Binned None = Ok (M, H) /\ 1000 < H.
Proof.
  assert (Hp : repeat 100 16 <> []) by (cbn; congruence).
  assert (HT : rlsum (repeat 100 16) <> 0) by (apply rlsum_repeat_nonzero; [lia|lra]).
  destruct (htest_binned (repeat 100 16) 20 Hp HT ltac:(lia)) as (M & E & B & H1 & H2).
  exists 100, 16%nat, 20%nat. eexists. exists M. split; [lra|]. split; [lia|]. split; [lia|]. split; [exact E|].
  specialize (H1 16%nat ltac:(lia)).
  assert (F := flat_alias 100 16 ltac:(lia) ltac:(lra)). rewrite (proj1 (binned_value _ 16 Hp HT ltac:(lia))) in F.
  apply (f_equal (fun r => match r with Ok a => a | Err _ => 0 end)) in F. unfold H_of in *. rewrite F in H1.
  assert (I : INR 16 = 16) by (rewrite INR_IZR_INZ; reflexivity). rewrite I in H1. lra.
Qed.
Lemma htest_flat c N nmax : 0 < c -> (0 < nmax < N)%nat -> htest (repeat c N) nmax Binned None = Ok (1%nat, 0).
Proof.
  intros Hc Hn. assert (Hp : repeat c N <> []) by (intro E; apply (f_equal (@length R)) in E; rewrite repeat_length in E; cbn in E; lia).
  assert (HT := rlsum_repeat_nonzero c N ltac:(lia) ltac:(lra)).
  destruct (htest_binned (repeat c N) nmax Hp HT ltac:(lia)) as (M & E & B & H1 & H2). rewrite E.
  assert (V : forall k, (1 <= k <= nmax)%nat -> Z2 (profile_points (repeat c N)) k = 0).
  { intros k Hk. assert (F := flat_zero c N k ltac:(lia)). rewrite (proj1 (binned_value _ k Hp HT ltac:(lia))) in F.
    apply (f_equal (fun r => match r with Ok a => a | Err _ => 0 end)) in F. exact F. }
  specialize (H1 1%nat ltac:(lia)). rewrite !V in H1 by lia. unfold H_of in H1.
  assert (M1 : M = 1%nat).
  { destruct (Nat.eq_dec M 1) as [C|C]; [exact C|]. exfalso. assert (2 <= INR M) by (change 2 with (INR 2); apply le_INR; lia). cbn in H1. lra. }
  subst M. rewrite V by lia. unfold H_of. f_equal. f_equal. cbn. lra.
Qed.
