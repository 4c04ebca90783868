(* P_qpo.v: proofs about spectroscopy.py. *)
From Verif Require Import Np M_utils Cplx M_fourier M_corr M_exvar M_qpo S_fourier S_corr S_qpo P_norm P_dft P_lag P_pcolor2 P_corr P_timmer P_fftfit4.
From Coq Require Import Reals List Arith ZArith Bool Lia Lra.
Import ListNotations.
Open Scope R_scope.

(* ---- binary search ---- *)
Lemma half_bound m : (0 < m)%nat -> (m / 2 < m)%nat.
Proof. intros H. apply Nat.div_lt; lia. Qed.
Lemma bsearch_ok a x : forall fuel lo hi p, (hi - lo <= fuel)%nat -> (lo <= p <= hi)%nat ->
  (forall j, (lo <= j < p)%nat -> nth j a 0 < x) -> (forall j, (p <= j < hi)%nat -> ~ nth j a 0 < x) -> bsearch fuel a x lo hi = p.
Proof.
  induction fuel as [|fuel IH]; intros lo hi p F P A B; cbn [bsearch]; [lia|].
  destruct (Nat.ltb_spec lo hi) as [L|L]; [|lia]. pose proof (half_bound (hi - lo) ltac:(lia)) as H. set (mid := (lo + (hi - lo) / 2)%nat) in *.
  assert (M : (lo <= mid < hi)%nat) by lia.
  destruct (Rlt_dec (nth mid a 0) x) as [C|C].
  - apply IH; [lia| |intros j Hj; apply A; lia|exact B]. split; [|lia]. destruct (le_lt_dec p mid) as [D|D]; [|lia]. elim (B mid); [lia|exact C].
  - apply IH; [lia| |exact A|intros j Hj; apply B; lia]. split; [lia|]. destruct (le_lt_dec p mid) as [D|D]; [exact D|]. elim C. apply A. lia.
Qed.

(* ---- frequencies ---- *)
Lemma ffreq_len n d : (0 < n)%nat -> length (fftfreq n d) = n.
Proof. intros H. now rewrite fftfreq_map, map_length, seq_length. Qed.
Lemma ffreq_nth n d k : (k < n)%nat -> nth k (fftfreq n d) 0 = bin_freq n d k.
Proof. intros H. rewrite fftfreq_map by lia. rewrite (nth_map_lt2 _ _ _ O) by (rewrite seq_length; lia). now rewrite seq_nth by lia. Qed.
Lemma freq_neg n d k : 0 < d -> (k < n)%nat -> (n <= 2 * k)%nat -> bin_freq n d k < 0.
Proof.
  intros D K H. unfold bin_freq. replace (Nat.ltb (2 * k) n) with false by (symmetry; apply Nat.ltb_ge; lia).
  assert (INR k < INR n) by (apply lt_INR; lia). assert (0 < INR n) by (apply lt_0_INR; lia). assert (0 < / (INR n * d)) by (apply Rinv_0_lt_compat; nra). unfold Rdiv. nra.
Qed.
Lemma freq_pos n d k : (2 * k < n)%nat -> bin_freq n d k = INR k / (INR n * d).
Proof. intros H. unfold bin_freq. replace (Nat.ltb (2 * k) n) with true by (symmetry; apply Nat.ltb_lt; lia). f_equal. ring. Qed.
Lemma nearest_even n d x : (0 < n)%nat -> Nat.even n = true -> 0 < d -> 0 < x -> nearest_index (fftfreq n d) x = Ok (n - 1)%nat.
Proof.
  intros N E D X. unfold nearest_index. rewrite ffreq_len by exact N. replace (Nat.eqb n 0) with false by (symmetry; apply Nat.eqb_neq; lia).
  apply Nat.even_spec in E. destruct E as [h E].
  replace (bsearch n (fftfreq n d) x 0 n) with n; [now rewrite Nat.eqb_refl|]. symmetry.
  destruct n as [|m]; [lia|]. cbn [bsearch]. change (Nat.ltb 0 (S m)) with true. cbv iota. rewrite Nat.sub_0_r. cbn [plus].
  replace (S m / 2)%nat with h by (rewrite E, Nat.mul_comm, Nat.div_mul; lia).
  destruct (Rlt_dec (nth h (fftfreq (S m) d) 0) x) as [C|C].
  2:{ elim C. rewrite ffreq_nth by lia. apply (Rlt_trans _ 0); [apply freq_neg; [exact D|lia..]|exact X]. }
  apply bsearch_ok; [lia..| |intros j Hj; lia]. intros j Hj. rewrite ffreq_nth by lia. apply (Rlt_trans _ 0); [apply freq_neg; [exact D|lia..]|exact X].
Qed.
Lemma nearest_odd n d x k h : n = (2 * h + 1)%nat -> 0 < d -> 0 < x <= INR h / (INR n * d) -> (k <= h)%nat -> close_bin n d x k ->
  nearest_index (fftfreq n d) x = Ok k.
Proof.
  intros N D X K C. assert (Np : 0 < INR n) by (apply lt_0_INR; lia). assert (U : 0 < INR n * d) by nra. set (u := INR n * d) in *.
  assert (V : forall j, (j <= h)%nat -> nth j (fftfreq n d) 0 = INR j / u) by (intros j Hj; rewrite ffreq_nth by lia; apply freq_pos; lia).
  assert (I : 0 < / u) by (apply Rinv_0_lt_compat; exact U).
  unfold close_bin in C. fold u in C. replace (1 / (2 * u)) with (/ u / 2) in C by (field; lra).
  assert (St : forall j, INR (S j) / u = INR j / u + / u) by (intros j; rewrite S_INR; field; lra).
  assert (Mo : forall i j, (i <= j)%nat -> INR i / u <= INR j / u).
  { intros i j L. unfold Rdiv. apply Rmult_le_compat_r; [lra|]. now apply le_INR. }
  assert (Se : forall p, (p <= h)%nat -> (forall j, (j < p)%nat -> INR j / u < x) -> x <= INR p / u -> bsearch n (fftfreq n d) x 0 n = p).
  { intros p P A B. rewrite N at 1. rewrite Nat.add_1_r. cbn [bsearch]. replace (Nat.ltb 0 n) with true by (symmetry; apply Nat.ltb_lt; lia). cbv iota. rewrite Nat.sub_0_r. cbn [plus].
    replace (n / 2)%nat with h by (rewrite N; apply (Nat.div_unique _ 2 h 1); lia).
    destruct (Rlt_dec (nth h (fftfreq n d) 0) x) as [F|_]; [rewrite V in F by lia; lra|].
    apply bsearch_ok; [lia|lia| |].
    - intros j Hj. rewrite V by lia. apply A. lia.
    - intros j Hj. rewrite V by lia. pose proof (Mo p j ltac:(lia)). lra. }
  unfold nearest_index. rewrite ffreq_len by lia. replace (Nat.eqb n 0) with false by (symmetry; apply Nat.eqb_neq; lia).
  apply Rabs_def2 in C. destruct C as [C1 C2].
  destruct (Rle_lt_dec x (INR k / u)) as [L|L].
  - assert (k <> 0)%nat. { intros ->. cbn [INR] in L. unfold Rdiv in L. lra. }
    destruct k as [|k]; [lia|]. rewrite (Se (S k)); [|lia| |exact L].
    2:{ intros j Hj. pose proof (Mo j k ltac:(lia)). rewrite St in *. lra. }
    replace (Nat.eqb (S k) n) with false by (symmetry; apply Nat.eqb_neq; lia). rewrite !V by lia.
    destruct (Rlt_dec (Rabs (x - INR k / u)) (Rabs (x - INR (S k) / u))) as [F|_]; [|reflexivity].
    rewrite St in *. rewrite Rabs_right in F by lra. rewrite Rabs_left1 in F by lra. lra.
  - assert (k < h)%nat. { destruct (Nat.eq_dec k h) as [->|]; [lra|lia]. }
    rewrite (Se (S k)); [|lia| |rewrite St; lra].
    2:{ intros j Hj. pose proof (Mo j k ltac:(lia)). lra. }
    replace (Nat.eqb (S k) n) with false by (symmetry; apply Nat.eqb_neq; lia). rewrite !V by lia.
    destruct (Rlt_dec (Rabs (x - INR k / u)) (Rabs (x - INR (S k) / u))) as [F|F]; [reflexivity|].
    elim F. rewrite St. rewrite Rabs_right by lra. rewrite Rabs_left1 by lra. lra.
Qed.

(* ---- the phase difference ---- *)
Lemma mod_pi_ok a : 0 <= mod_pi a < PI /\ congruent PI (mod_pi a) a.
Proof.
  unfold mod_pi. pose proof PI_RGT_0 as P. destruct (archimed (a / PI)) as [A B]. rewrite minus_IZR. set (z := IZR (up (a / PI))) in *.
  assert (E : a / PI * PI = a) by (field; lra). split; [split; nra|]. exists (1 - up (a / PI))%Z. rewrite minus_IZR. fold z. ring.
Qed.
Lemma congruent_unique p a b x : 0 < p -> 0 <= a < p -> 0 <= b < p -> congruent p a x -> congruent p b x -> a = b.
Proof.
  intros P A B [j E] [k F]. assert (G : a - b = p * IZR (j - k)) by (rewrite minus_IZR; lra).
  assert (J : (j - k = 0)%Z).
  { destruct (Z.eq_dec (j - k) 0) as [|N]; [assumption|]. exfalso. assert (j - k <= -1 \/ 1 <= j - k)%Z as [H|H] by lia; apply IZR_le in H; nra. }
  rewrite J in G. lra.
Qed.
Lemma parameters_at counts dt x0 x1 i0 i1 : counts <> [] ->
  nearest_index (fftfreq (length counts) dt) x0 = Ok i0 -> nearest_index (fftfreq (length counts) dt) x1 = Ok i1 -> (i0 < length counts)%nat -> (i1 < length counts)%nat ->
  let x := map (fun c => c / dt) counts in
  exists psi, get_parameters counts dt x0 x1 = Ok (avg (fun y => y) x, angle (dft x i0), angle (dft x i1), psi) /\ phase_difference (angle (dft x i0)) (angle (dft x i1)) psi.
Proof.
  intros N A B LA LB x. exists (mod_pi (angle (dft x i1) / 2 - angle (dft x i0))). split; [|apply mod_pi_ok].
  unfold get_parameters. destruct counts as [|c0' cs']; [congruence|]. set (l := c0' :: cs') in *. fold x.
  assert (L : length x = length l) by (unfold x; apply map_length).
  rewrite fft_len, map_length, L, A, B. cbn [bind]. rewrite !fft_dft by lia. unfold avg. rewrite map_id, L. reflexivity.
Qed.
Lemma cos_turns x k : cos (x + 2 * PI * IZR k) = cos x /\ sin (x + 2 * PI * IZR k) = sin x.
Proof.
  destruct (Z_le_gt_dec 0 k) as [H|H].
  - rewrite <- (Z2Nat.id k) by exact H. rewrite <- INR_IZR_INZ. replace (2 * PI * INR (Z.to_nat k)) with (2 * INR (Z.to_nat k) * PI) by ring. split; [apply cos_period|apply sin_period].
  - set (y := x + 2 * PI * IZR k). assert (E : x = y + 2 * INR (Z.to_nat (- k)) * PI).
    { rewrite INR_IZR_INZ, Z2Nat.id by lia. rewrite opp_IZR. unfold y. ring. }
    rewrite E. split; symmetry; [apply cos_period|apply sin_period].
Qed.
Lemma angle_congruent r th : 0 < r -> congruent (2 * PI) (angle (r * cos th, r * sin th)) th.
Proof.
  intros R. pose proof PI_RGT_0 as P. set (k := (up ((th - PI) / (2 * PI)))). destruct (archimed ((th - PI) / (2 * PI))) as [A B]. fold k in A, B.
  set (q := (th - PI) / (2 * PI)) in *. assert (E : th = PI + 2 * PI * q) by (unfold q; field; lra).
  destruct (Rlt_dec (IZR k - q) 1) as [C|C].
  - assert (E' : cos th = cos (th + 2 * PI * IZR (- k)) /\ sin th = sin (th + 2 * PI * IZR (- k))) by (destruct (cos_turns th (- k)); auto).
    destruct E' as [-> ->]. rewrite angle_polar; [exists (- k)%Z; reflexivity|exact R|]. rewrite opp_IZR. split; nra.
  - assert (Q : IZR k = q + 1) by lra.
    assert (E' : cos th = cos (th + 2 * PI * IZR (1 - k)) /\ sin th = sin (th + 2 * PI * IZR (1 - k))) by (destruct (cos_turns th (1 - k)); auto).
    destruct E' as [-> ->]. rewrite angle_polar; [exists (1 - k)%Z; reflexivity|exact R|]. rewrite minus_IZR. split; nra.
Qed.
Lemma angle_times z n m : z <> c0 -> congruent (2 * PI) (angle (cmul z (cis n m))) (angle z + 2 * PI * IZR m / INR n).
Proof.
  intros Z. destruct z as [x y]. destruct (angle_exact x y) as (r & R & X & Y).
  { destruct (Req_dec x 0) as [->|]; [|now left]. right. intros ->. now apply Z. }
  set (t := angle (x, y)) in *. replace (cmul (x, y) (cis n m)) with (r * cos (t + 2 * PI * IZR m / INR n), r * sin (t + 2 * PI * IZR m / INR n)).
  - now apply angle_congruent.
  - rewrite cos_plus, sin_plus. apply cx_eq; cbn [cmul cis re im fst snd]; rewrite X, Y; ring.
Qed.
Lemma congruent_trans p a b c : congruent p a b -> congruent p b c -> congruent p a c.
Proof. intros [j E] [k F]. exists (j + k)%Z. rewrite plus_IZR, E, F. ring. Qed.
Lemma congruent_sym p a b : congruent p a b -> congruent p b a.
Proof. intros [j E]. exists (- j)%Z. rewrite opp_IZR, E. ring. Qed.
(* the phase difference depends on the phases modulo 2 pi only, and not on a shift of the origin *)
Lemma difference_shift phi1 phi2 psi phi1' phi2' psi' s : phase_difference phi1 phi2 psi -> phase_difference phi1' phi2' psi' ->
  congruent (2 * PI) phi1' (phi1 + s) -> congruent (2 * PI) phi2' (phi2 + 2 * s) -> psi' = psi.
Proof.
  intros [A B] [C D] [j E] [k F]. apply (congruent_unique PI psi' psi (phi2 / 2 - phi1)); [apply PI_RGT_0|exact C|exact A| |exact B].
  apply (congruent_trans _ _ (phi2' / 2 - phi1')); [exact D|]. exists (k - 2 * j)%Z. rewrite minus_IZR, mult_IZR, E, F. field.
Qed.

(* ---- sine waves ---- *)
Lemma tone_cis n k j phi : (0 < n)%nat -> rtoc (cos (2 * PI * INR (k * j) / INR n + phi)) =
  cadd (cmul (cis n (Z.of_nat j * Z.of_nat k)) (cos phi / 2, sin phi / 2)) (cmul (cis n (Z.of_nat j * - Z.of_nat k)) (cos phi / 2, - (sin phi / 2))).
Proof.
  intros N. replace (Z.of_nat j * - Z.of_nat k)%Z with (- (Z.of_nat j * Z.of_nat k))%Z by lia. rewrite <- cis_conj.
  unfold cis. replace (IZR (Z.of_nat j * Z.of_nat k)) with (INR (k * j)) by (rewrite INR_IZR_INZ; f_equal; lia).
  rewrite cos_plus. apply cx_eq; cbn [cadd cmul cconj rtoc re im fst snd]; field.
Qed.
Definition tone_at (n k : nat) (phi : R) (q : nat) : cx := cs n (fun j => cmul (rtoc (cos (2 * PI * INR (k * j) / INR n + phi))) (cis n (- Z.of_nat (q * j)))).
Lemma tone_dft n k phi q : (0 < k)%nat -> (2 * k < n)%nat -> (2 * q < n)%nat ->
  tone_at n k phi q = if Nat.eqb q k then (INR n / 2 * cos phi, INR n / 2 * sin phi) else c0.
Proof.
  intros K1 K2 Q. unfold tone_at.
  rewrite (cs_ext n _ (fun j => cadd (cmul (cis n (Z.of_nat j * (Z.of_nat k - Z.of_nat q))) (cos phi / 2, sin phi / 2)) (cmul (cis n (Z.of_nat j * (- Z.of_nat k - Z.of_nat q))) (cos phi / 2, - (sin phi / 2))))).
  - rewrite cs_plus, !cs_mul, !cis_sum by lia.
    destruct (Z.eqb_spec ((- Z.of_nat k - Z.of_nat q) mod Z.of_nat n) 0) as [B|B].
    { apply Z.mod_divide in B; [|lia]. destruct B as [r B]. apply small_multiple in B; lia. }
    destruct (Z.eqb_spec ((Z.of_nat k - Z.of_nat q) mod Z.of_nat n) 0) as [A|A]; destruct (Nat.eqb_spec q k) as [E|E].
    + apply cx_eq; cbn; field.
    + apply Z.mod_divide in A; [|lia]. destruct A as [r A]. apply small_multiple in A; lia.
    + elim A. replace (Z.of_nat k - Z.of_nat q)%Z with 0%Z by lia. reflexivity.
    + apply cx_eq; cbn; ring.
  - intros j Hj. rewrite tone_cis by lia.
    replace (Z.of_nat j * (Z.of_nat k - Z.of_nat q))%Z with (Z.of_nat j * Z.of_nat k + - Z.of_nat (q * j))%Z by lia.
    replace (Z.of_nat j * (- Z.of_nat k - Z.of_nat q))%Z with (Z.of_nat j * - Z.of_nat k + - Z.of_nat (q * j))%Z by lia.
    rewrite !cis_add. ring.
Qed.
Lemma two_len n dt c a1 a2 p1 p2 k1 k2 : length (two_tones n dt c a1 a2 p1 p2 k1 k2) = n.
Proof. unfold two_tones. now rewrite map_length, seq_length. Qed.
Lemma two_val n dt c a1 a2 p1 p2 k1 k2 j : dt <> 0 -> (j < n)%nat -> val (rates dt (two_tones n dt c a1 a2 p1 p2 k1 k2)) j =
  c + a1 * cos (2 * PI * INR (k1 * j) / INR n + p1) + a2 * cos (2 * PI * INR (k2 * j) / INR n + p2).
Proof.
  intros D H. unfold val, rates, two_tones. rewrite map_map. rewrite (nth_map_lt2 _ _ _ O) by (rewrite seq_length; exact H). rewrite seq_nth by exact H. cbn [plus]. field. exact D.
Qed.
Lemma two_dft n dt c a1 a2 p1 p2 k1 k2 q : dt <> 0 -> (0 < k1)%nat -> (2 * k1 < n)%nat -> (0 < k2)%nat -> (2 * k2 < n)%nat -> (0 < q)%nat -> (2 * q < n)%nat ->
  dft (rates dt (two_tones n dt c a1 a2 p1 p2 k1 k2)) q = cadd (cmul (rtoc a1) (tone_at n k1 p1 q)) (cmul (rtoc a2) (tone_at n k2 p2 q)).
Proof.
  intros D K1 K1' K2 K2' Q Q'. rewrite dft_cs. unfold rates at 1 3. rewrite map_length, two_len.
  rewrite (cs_ext n _ (fun j => cadd (cmul (rtoc c) (cis n (Z.of_nat j * - Z.of_nat q))) (cadd
     (cmul (rtoc a1) (cmul (rtoc (cos (2 * PI * INR (k1 * j) / INR n + p1))) (cis n (- Z.of_nat (q * j)))))
     (cmul (rtoc a2) (cmul (rtoc (cos (2 * PI * INR (k2 * j) / INR n + p2))) (cis n (- Z.of_nat (q * j)))))))).
  - rewrite !cs_plus, !cs_mul_l. rewrite cis_sum by lia. destruct (Z.eqb_spec ((- Z.of_nat q) mod Z.of_nat n) 0) as [A|A].
    + apply Z.mod_divide in A; [|lia]. destruct A as [r A]. apply small_multiple in A; lia.
    + unfold tone_at. set (u := cs n _). set (v := cs n _). ring_simplify. apply cx_eq; cbn; ring.
  - intros j Hj. change (map (fun c1 => c1 / dt) (two_tones n dt c a1 a2 p1 p2 k1 k2)) with (rates dt (two_tones n dt c a1 a2 p1 p2 k1 k2)). rewrite two_val by assumption.
    replace (Z.of_nat j * - Z.of_nat q)%Z with (- Z.of_nat (q * j))%Z by lia. apply cx_eq; cbn; ring.
Qed.
Lemma cs_parts n f : cs n f = (rs n (fun j => re (f j)), rs n (fun j => im (f j))).
Proof. induction n as [|n IH]; [reflexivity|]. rewrite cs_S, IH, !rs_S. reflexivity. Qed.
Lemma tone_sum n k phi : (0 < n)%nat -> (k mod n <> 0)%nat -> rs n (fun j => cos (2 * PI * INR (k * j) / INR n + phi)) = 0.
Proof.
  intros N K. assert (E : cs n (fun j => rtoc (cos (2 * PI * INR (k * j) / INR n + phi))) = c0).
  { rewrite (cs_ext n _ (fun j => cadd (cmul (cis n (Z.of_nat j * Z.of_nat k)) (cos phi / 2, sin phi / 2)) (cmul (cis n (Z.of_nat j * - Z.of_nat k)) (cos phi / 2, - (sin phi / 2))))) by (intros; now apply tone_cis).
    rewrite cs_plus, !cs_mul, !cis_sum by lia.
    destruct (Z.eqb_spec (Z.of_nat k mod Z.of_nat n) 0) as [A|A]; [elim K; rewrite <- Nat2Z.inj_mod in A; lia|].
    destruct (Z.eqb_spec ((- Z.of_nat k) mod Z.of_nat n) 0) as [B|B]; [|apply cx_eq; cbn; ring].
    elim A. apply Z.mod_divide; [lia|]. apply Z.mod_divide in B; [|lia]. destruct B as [q B]. exists (- q)%Z. lia. }
  rewrite cs_parts in E. apply (f_equal re) in E. exact E.
Qed.
Lemma two_mean n dt c a1 a2 p1 p2 k1 k2 : dt <> 0 -> (0 < k1)%nat -> (2 * k1 < n)%nat -> (0 < k2)%nat -> (2 * k2 < n)%nat ->
  avg (fun y => y) (rates dt (two_tones n dt c a1 a2 p1 p2 k1 k2)) = c.
Proof.
  intros D K1 K1' K2 K2'. unfold avg. rewrite map_id, rlsum_rs. unfold rates at 1 3. rewrite map_length, two_len.
  rewrite (rs_ext n _ (fun j => c + a1 * cos (2 * PI * INR (k1 * j) / INR n + p1) + a2 * cos (2 * PI * INR (k2 * j) / INR n + p2))).
  2:{ intros j Hj. now apply (two_val n dt c a1 a2 p1 p2 k1 k2 j D Hj). }
  rewrite !rs_plus, rs_const, !rs_scal_l, !tone_sum by (try lia; rewrite Nat.mod_small; lia). field. apply not_0_INR. lia.
Qed.

(* ---- parameters ---- *)
Lemma params_odd counts dt x0 x1 k1 k2 h : length counts = (2 * h + 1)%nat -> 0 < dt -> (k1 <= h)%nat -> (k2 <= h)%nat ->
  0 < x0 <= INR h / (INR (length counts) * dt) -> 0 < x1 <= INR h / (INR (length counts) * dt) ->
  close_bin (length counts) dt x0 k1 -> close_bin (length counts) dt x1 k2 ->
  let x := rates dt counts in
  exists psi, get_parameters counts dt x0 x1 = Ok (avg (fun y => y) x, angle (dft x k1), angle (dft x k2), psi) /\ phase_difference (angle (dft x k1)) (angle (dft x k2)) psi.
Proof.
  intros L D K1 K2 X0 X1 C0 C1. apply parameters_at.
  - intros ->. cbn in L. lia.
  - now apply (nearest_odd _ _ _ _ h).
  - now apply (nearest_odd _ _ _ _ h).
  - lia.
  - lia.
Qed.
Lemma params_tones n dt c a1 a2 p1 p2 k1 k2 h x0 x1 : n = (2 * h + 1)%nat -> 0 < dt -> (0 < k1 <= h)%nat -> (0 < k2 <= h)%nat -> k1 <> k2 -> 0 < a1 -> 0 < a2 ->
  - PI < p1 <= PI -> - PI < p2 <= PI -> 0 < x0 <= INR h / (INR n * dt) -> 0 < x1 <= INR h / (INR n * dt) -> close_bin n dt x0 k1 -> close_bin n dt x1 k2 ->
  exists psi, get_parameters (two_tones n dt c a1 a2 p1 p2 k1 k2) dt x0 x1 = Ok (c, p1, p2, psi) /\ phase_difference p1 p2 psi.
Proof.
  intros N D K1 K2 K A1 A2 P1 P2 X0 X1 C0 C1. assert (Dn : dt <> 0) by lra.
  destruct (params_odd (two_tones n dt c a1 a2 p1 p2 k1 k2) dt x0 x1 k1 k2 h) as (psi & E & F); try (rewrite two_len); try assumption; try lia.
  rewrite two_mean in E by (try assumption; lia).
  assert (NP : 0 < INR n) by (apply lt_0_INR; lia).
  assert (E1 : angle (dft (rates dt (two_tones n dt c a1 a2 p1 p2 k1 k2)) k1) = p1).
  { rewrite two_dft by (try assumption; lia). rewrite !tone_dft by lia. rewrite Nat.eqb_refl. replace (Nat.eqb k1 k2) with false by (symmetry; now apply Nat.eqb_neq).
    replace (cadd _ _) with (a1 * (INR n / 2) * cos p1, a1 * (INR n / 2) * sin p1) by (apply cx_eq; cbn; ring). apply angle_polar; [|exact P1]. apply Rmult_lt_0_compat; lra. }
  assert (E2 : angle (dft (rates dt (two_tones n dt c a1 a2 p1 p2 k1 k2)) k2) = p2).
  { rewrite two_dft by (try assumption; lia). rewrite !tone_dft by lia. rewrite Nat.eqb_refl. replace (Nat.eqb k2 k1) with false by (symmetry; apply Nat.eqb_neq; lia).
    replace (cadd _ _) with (a2 * (INR n / 2) * cos p2, a2 * (INR n / 2) * sin p2) by (apply cx_eq; cbn; ring). apply angle_polar; [|exact P2]. apply Rmult_lt_0_compat; lra. }
  rewrite E1, E2 in *. exists psi. split; assumption.
Qed.
Lemma rates_delayed dt d x y : delayed d x y -> delayed d (rates dt x) (rates dt y).
Proof.
  intros [L V]. unfold rates. split; [now rewrite !map_length|]. rewrite map_length. intros j Hj. specialize (V j Hj). unfold val in *.
  rewrite !(nth_map_lt2 _ _ _ 0); [now rewrite V|exact Hj|]. rewrite L. apply Nat.mod_upper_bound. lia.
Qed.
Lemma params_delay counts counts' d dt x0 x1 k h m p1 p2 psi m' p1' p2' psi' : length counts = (2 * h + 1)%nat -> 0 < dt -> (0 < k)%nat -> (2 * k <= h)%nat ->
  0 < x0 <= INR h / (INR (length counts) * dt) -> 0 < x1 <= INR h / (INR (length counts) * dt) ->
  close_bin (length counts) dt x0 k -> close_bin (length counts) dt x1 (2 * k) -> delayed d counts counts' ->
  dft (rates dt counts) k <> c0 -> dft (rates dt counts) (2 * k) <> c0 ->
  get_parameters counts dt x0 x1 = Ok (m, p1, p2, psi) -> get_parameters counts' dt x0 x1 = Ok (m', p1', p2', psi') -> psi' = psi.
Proof.
  intros L D K K' X0 X1 C0 C1 De N1 N2 G G'. pose proof De as De'. destruct De' as [L' _].
  destruct (params_odd counts dt x0 x1 k (2 * k) h) as (q & E & F); try assumption; try lia.
  destruct (params_odd counts' dt x0 x1 k (2 * k) h) as (q' & E' & F'); try (rewrite L'; assumption); try assumption; try lia.
  rewrite E in G. rewrite E' in G'. injection G as _ _ _ <-. injection G' as _ _ _ <-.
  assert (Hx : rates dt counts <> []). { unfold rates. destruct counts; [cbn in L; lia|discriminate]. }
  pose proof (fun j => dft_delay d (rates dt counts) (rates dt counts') j Hx (rates_delayed dt d _ _ De)) as Y.
  apply (difference_shift _ _ q _ _ q' (2 * PI * IZR (- Z.of_nat (k * d)) / INR (length (rates dt counts))) F F').
  - rewrite Y. now apply angle_times.
  - rewrite Y. replace (2 * (2 * PI * IZR (- Z.of_nat (k * d)) / INR (length (rates dt counts)))) with (2 * PI * IZR (- Z.of_nat (2 * k * d)) / INR (length (rates dt counts))).
    + now apply angle_times.
    + replace (- Z.of_nat (2 * k * d))%Z with (2 * - Z.of_nat (k * d))%Z by lia. rewrite mult_IZR. unfold Rdiv. ring.
Qed.
Lemma params_even counts dt x0 x1 : counts <> [] -> Nat.even (length counts) = true -> 0 < dt -> 0 < x0 -> 0 < x1 ->
  let x := rates dt counts in let a := angle (dft x (length counts - 1)) in
  exists psi, get_parameters counts dt x0 x1 = Ok (avg (fun y => y) x, a, a, psi).
Proof.
  intros N E D X0 X1 x a. assert (L : (0 < length counts)%nat) by (destruct counts; [congruence|cbn; lia]).
  destruct (parameters_at counts dt x0 x1 (length counts - 1) (length counts - 1) N) as (psi & A & _); try (now apply nearest_even); try lia. exists psi. exact A.
Qed.
Lemma params_even_lost n dt c a1 a2 p1 p2 k1 k2 x0 x1 : Nat.even n = true -> 0 < dt -> (1 < k1)%nat -> (2 * k1 < n)%nat -> (1 < k2)%nat -> (2 * k2 < n)%nat -> 0 < x0 -> 0 < x1 ->
  exists psi, get_parameters (two_tones n dt c a1 a2 p1 p2 k1 k2) dt x0 x1 = Ok (c, 0, 0, psi).
Proof.
  intros E D K1 K1' K2 K2' X0 X1. destruct (params_even (two_tones n dt c a1 a2 p1 p2 k1 k2) dt x0 x1) as [psi A]; try rewrite two_len; try assumption.
  { intros F. apply (f_equal (@length R)) in F. rewrite two_len in F. cbn in F. lia. }
  exists psi. rewrite A, two_mean, two_len by (try lra; lia).
  replace (dft (rates dt (two_tones n dt c a1 a2 p1 p2 k1 k2)) (n - 1)) with c0.
  - replace (angle c0) with 0; [reflexivity|]. unfold angle. cbn [re im c0 fst snd]. destruct (Rlt_dec 0 0); [lra|]. reflexivity.
  - assert (L : length (rates dt (two_tones n dt c a1 a2 p1 p2 k1 k2)) = n) by (unfold rates; rewrite map_length; apply two_len).
    pose proof (dft_neg (rates dt (two_tones n dt c a1 a2 p1 p2 k1 k2)) 1) as Ng. rewrite L in Ng. rewrite Ng by lia.
    rewrite two_dft by (try lra; lia). rewrite !tone_dft by lia. replace (Nat.eqb 1 k1) with false by (symmetry; apply Nat.eqb_neq; lia). replace (Nat.eqb 1 k2) with false by (symmetry; apply Nat.eqb_neq; lia).
    apply cx_eq; cbn; ring.
Qed.

(* ---- waveform ---- *)
Lemma waveform_reversed n dt c a1 a2 p1 p2 k j : dt <> 0 -> c <> 0 -> (j < n)%nat ->
  val (rates dt (two_tones n dt c a1 a2 p1 p2 k (2 * k))) j = waveform (- (2 * PI * INR (k * j) / INR n)) c (a1 / (sqrt 2 * c)) (a2 / (sqrt 2 * c)) p1 p2.
Proof.
  intros D C H. rewrite two_val by assumption. unfold waveform. set (t := 2 * PI * INR (k * j) / INR n).
  replace (2 * PI * INR (2 * k * j) / INR n) with (2 * t).
  2:{ unfold t. replace (2 * k * j)%nat with (2 * (k * j))%nat by lia. rewrite (mult_INR 2 (k * j)). change (INR 2) with 2. unfold Rdiv. ring. }
  replace (cos (- t - p1)) with (cos (t + p1)) by (rewrite <- cos_neg; f_equal; ring).
  replace (cos (2 * - t - p2)) with (cos (2 * t + p2)) by (rewrite <- cos_neg; f_equal; ring).
  assert (0 < sqrt 2) by (apply sqrt_lt_R0; lra). field. split; lra.
Qed.
Lemma grid_cos n k phi : (0 < n)%nat -> (k mod n <> 0)%nat -> rs n (fun j => cos (INR k * phase_grid n j + phi)) = 0.
Proof.
  intros N K. rewrite <- (tone_sum n k phi N K). apply rs_ext. intros j _. f_equal. f_equal. unfold phase_grid. rewrite mult_INR. unfold Rdiv. ring.
Qed.
Lemma waveform_mean n mu s1 s2 p1 p2 : (3 <= n)%nat -> rs n (fun j => waveform (phase_grid n j) mu s1 s2 p1 p2) / INR n = mu.
Proof.
  intros N. rewrite (rs_ext n _ (fun j => mu + (mu * sqrt 2 * s1 * cos (INR 1 * phase_grid n j + - p1) + mu * sqrt 2 * s2 * cos (INR 2 * phase_grid n j + - p2)))).
  - rewrite !rs_plus, rs_const, !rs_scal_l, !grid_cos by (try lia; rewrite Nat.mod_small; lia). field. apply not_0_INR. lia.
  - intros j _. unfold waveform. replace (INR 1 * phase_grid n j + - p1) with (phase_grid n j - p1) by (cbn [INR]; ring). replace (INR 2 * phase_grid n j + - p2) with (2 * phase_grid n j - p2) by (cbn [INR]; ring). ring.
Qed.
Lemma cos_cos a b : cos a * cos b = (cos (a + b) + cos (a - b)) / 2.
Proof. rewrite cos_plus, cos_minus. field. Qed.
Lemma waveform_rms n mu s1 s2 p1 p2 : (5 <= n)%nat ->
  rs n (fun j => (waveform (phase_grid n j) mu s1 s2 p1 p2 - mu) ^ 2) / INR n = mu ^ 2 * (s1 ^ 2 + s2 ^ 2).
Proof.
  intros N. assert (NP : INR n <> 0) by (apply not_0_INR; lia).
  rewrite (rs_ext n _ (fun j => mu ^ 2 * (s1 ^ 2 + s2 ^ 2) + (mu ^ 2 * s1 ^ 2 * cos (INR 2 * phase_grid n j + - (2 * p1)) + (mu ^ 2 * s2 ^ 2 * cos (INR 4 * phase_grid n j + - (2 * p2)) +
     (2 * mu ^ 2 * s1 * s2 * cos (INR 3 * phase_grid n j + - (p1 + p2)) + 2 * mu ^ 2 * s1 * s2 * cos (INR 1 * phase_grid n j + (p1 - p2))))))).
  - rewrite !rs_plus, rs_const, !rs_scal_l, !grid_cos by (try lia; rewrite Nat.mod_small; lia). field. exact NP.
  - intros j _. unfold waveform. set (t := phase_grid n j). set (u := t - p1). set (v := 2 * t - p2).
    replace (INR 2 * t + - (2 * p1)) with (u + u) by (unfold u; cbn [INR]; ring). replace (INR 4 * t + - (2 * p2)) with (v + v) by (unfold v; cbn [INR]; ring).
    replace (INR 3 * t + - (p1 + p2)) with (v + u) by (unfold u, v; cbn [INR]; ring). replace (INR 1 * t + (p1 - p2)) with (v - u) by (unfold u, v; cbn [INR]; ring).
    pose proof (cos_cos u u) as A. pose proof (cos_cos v v) as B. pose proof (cos_cos v u) as C. replace (u - u) with 0 in A by ring. replace (v - v) with 0 in B by ring. rewrite cos_0 in A, B.
    assert (S2 : sqrt 2 * sqrt 2 = 2) by (apply sqrt_sqrt; lra).
    replace ((mu * (1 + sqrt 2 * (s1 * cos u + s2 * cos v)) - mu) ^ 2) with (mu ^ 2 * (sqrt 2 * sqrt 2) * (s1 ^ 2 * (cos u * cos u) + s2 ^ 2 * (cos v * cos v) + 2 * s1 * s2 * (cos v * cos u))) by ring.
    rewrite S2, A, B, C. field.
Qed.
