(* P_fftfit4.v: fftfit with the default template, a sinusoid. *)
From Verif Require Import Np Lib Cplx S_fourier S_fftfit M_fourier M_zn M_corr M_exvar M_fftfit P_dft P_zn P_lag P_pcolor2 P_timmer P_timmer2 P_exvar P_fftfit P_fftfit2 P_fftfit3.
From Coq Require Import Reals List Arith ZArith Lia Lra.
Import ListNotations.
Open Scope R_scope.

Lemma dt_len n : length (default_template n) = n.
Proof. unfold default_template. now rewrite map_length, seq_length. Qed.
Lemma dt_val n j : (j < n)%nat -> val (default_template n) j = re (cis n (Z.of_nat j)).
Proof.
  intros H. unfold val, default_template. rewrite (nth_map_lt2 _ _ _ 0%nat) by (rewrite seq_length; exact H). rewrite seq_nth by exact H.
  unfold cis. cbn [re fst plus]. rewrite <- INR_IZR_INZ. f_equal. field. apply not_0_INR. lia.
Qed.
Lemma cis_sum n a : (0 < n)%nat -> cs n (fun j => cis n (Z.of_nat j * a)) = if Z.eqb (a mod Z.of_nat n) 0 then rtoc (INR n) else c0.
Proof.
  intros Hn. destruct (Z.eqb_spec (a mod Z.of_nat n) 0) as [E|E]; [|now apply cis_geom].
  rewrite (cs_ext n _ (fun _ => Cplx.c1)).
  - clear. induction n as [|n IH]; [reflexivity|]. rewrite cs_S, IH, S_INR. apply cx_eq; cbn; ring.
  - intros j _. apply Z.mod_divide in E; [|lia]. destruct E as [q ->]. rewrite Z.mul_assoc. now apply cis_period.
Qed.
Lemma small_multiple (x q n : Z) : (0 < n)%Z -> (- n < x < n)%Z -> x = (q * n)%Z -> x = 0%Z.
Proof.
  intros Hn Hx E. destruct (Z.eq_dec q 0) as [->|Q]; [lia|].
  assert (q <= -1 \/ 1 <= q)%Z as [H|H] by lia; [assert (q * n <= -1 * n)%Z by (apply Z.mul_le_mono_nonneg_r; lia)|assert (1 * n <= q * n)%Z by (apply Z.mul_le_mono_nonneg_r; lia)]; lia.
Qed.
Lemma dt_dft n k : (2 < n)%nat -> (k < n)%nat ->
  dft (default_template n) k = if orb (Nat.eqb k 1) (Nat.eqb k (n - 1)) then rtoc (INR n / 2) else c0.
Proof.
  intros Hn Hk. rewrite dft_cs, dt_len.
  rewrite (cs_ext n _ (fun j => cadd (cmul (cis n (Z.of_nat j * (1 - Z.of_nat k))) (rtoc (/ 2))) (cmul (cis n (Z.of_nat j * (- 1 - Z.of_nat k))) (rtoc (/ 2))))).
  - rewrite cs_plus, !cs_mul, !cis_sum by lia.
    destruct (Z.eqb_spec ((1 - Z.of_nat k) mod Z.of_nat n) 0) as [A|A].
    + apply Z.mod_divide in A; [|lia]. destruct A as [q A]. apply small_multiple in A; [|lia..]. assert (k = 1)%nat by lia. subst k.
      destruct (Z.eqb_spec ((- 1 - Z.of_nat 1) mod Z.of_nat n) 0) as [B|B].
      * apply Z.mod_divide in B; [|lia]. destruct B as [r B]. apply small_multiple in B; lia.
      * cbn [Nat.eqb orb]. apply cx_eq; cbn; lra.
    + destruct (Z.eqb_spec ((- 1 - Z.of_nat k) mod Z.of_nat n) 0) as [B|B].
      * apply Z.mod_divide in B; [|lia]. destruct B as [r B]. assert (B' : (Z.of_nat n - 1 - Z.of_nat k)%Z = ((r + 1) * Z.of_nat n)%Z) by lia. apply small_multiple in B'; [|lia..]. assert (k = n - 1)%nat by lia. subst k.
        rewrite Nat.eqb_refl, orb_true_r. apply cx_eq; cbn; lra.
      * destruct (Nat.eqb_spec k 1) as [->|K1]; [elim A; reflexivity|].
        destruct (Nat.eqb_spec k (n - 1)) as [->|K2]; [|apply cx_eq; cbn; ring]. elim B. apply Z.mod_divide; [lia|]. exists (- 1)%Z. lia.
  - intros j Hj. rewrite dt_val by exact Hj.
    replace (Z.of_nat j * (1 - Z.of_nat k))%Z with (Z.of_nat j + - Z.of_nat (k * j))%Z by lia.
    replace (Z.of_nat j * (- 1 - Z.of_nat k))%Z with (- Z.of_nat j + - Z.of_nat (k * j))%Z by lia.
    rewrite !cis_add, <- (cis_conj n (Z.of_nat j)). apply cx_eq; unfold cmul, cadd, rtoc, cconj; cbn [re im fst snd]; field.
Qed.
Lemma abs_scal z a : 0 <= a -> cabs (cscal z a) = a * cabs z.
Proof.
  intros H. unfold cabs. replace (cnorm2 (cscal z a)) with (a * a * cnorm2 z) by (unfold cnorm2, cscal; cbn; ring).
  rewrite sqrt_mult_alt by nra. rewrite sqrt_square by exact H. reflexivity.
Qed.
Lemma abs_cis z n m : (0 < n)%nat -> cabs (cmul z (cis n m)) = cabs z.
Proof. intros H. unfold cabs. f_equal. rewrite cnorm2_mul. rewrite cis_norm. ring. Qed.
Section Sinusoid.
Variables (n m : nat) (a c : R) (p : list R).
Hypothesis Hn : (2 < n)%nat.
Hypothesis Ha : 0 < a.
Hypothesis C : copy_of m a c (default_template n) p.
Let t := default_template n.
Lemma sin_strength k : (k < n)%nat -> strength p t k = if orb (Nat.eqb k 1) (Nat.eqb k (n - 1)) then a * (INR n / 2) * (INR n / 2) else 0.
Proof.
  intros Hk. unfold strength. destruct (Nat.eqb_spec k 0) as [->|K0].
  { change (Nat.eqb 0 1) with false. destruct (Nat.eqb_spec 0 (n - 1)); [lia|reflexivity]. }
  rewrite (copy_dft m a c t p k C) by (unfold t; rewrite dt_len; lia). rewrite abs_scal by lra. rewrite abs_cis by (unfold t; rewrite dt_len; lia).
  unfold t. rewrite dt_dft by assumption. destruct (orb _ _).
  - assert (E : cabs (rtoc (INR n / 2)) = INR n / 2).
    { unfold cabs, cnorm2, rtoc. cbn [re im fst snd]. rewrite Rmult_0_l, Rplus_0_r. apply sqrt_square. pose proof (pos_INR n). lra. }
    rewrite E. reflexivity.
  - unfold cabs, cnorm2. cbn. rewrite Rmult_0_l, Rplus_0_l, sqrt_0. ring.
Qed.
Lemma seq_ends : seq 0 n = [0; 1]%nat ++ seq 2 (n - 3) ++ [(n - 1)%nat].
Proof.
  replace n with (2 + (n - 3) + 1)%nat at 1 by lia. rewrite !seq_app. cbn [seq app]. do 2 f_equal. f_equal. f_equal. lia.
Qed.
Lemma sin_strong : strong p t = 2%nat.
Proof.
  assert (L : length p = n) by (rewrite (copy_len _ _ _ _ _ C); apply dt_len).
  assert (N : 3 <= INR n) by (apply (le_INR 3) in Hn; rewrite (INR_IZR_INZ 3) in Hn; exact Hn).
  unfold strong. rewrite L. set (mu := rs n (strength p t) / INR n).
  assert (M : mu = a * INR n / 2).
  { unfold mu, rs. rewrite (map_ext_in _ (fun k => if orb (Nat.eqb k 1) (Nat.eqb k (n - 1)) then a * (INR n / 2) * (INR n / 2) else 0)).
    2:{ intros k Hk. apply in_seq in Hk. apply sin_strength. lia. }
    rewrite seq_ends, !map_app, !rlsum_app. rewrite (rlsum_zero _ (seq 2 (n - 3))).
    2:{ intros k Hk. apply in_seq in Hk. destruct (Nat.eqb_spec k 1); [lia|]. destruct (Nat.eqb_spec k (n - 1)); [lia|]. reflexivity. }
    cbn [map]. rewrite (Nat.eqb_refl (n - 1)), orb_true_r. change (Nat.eqb 0 1) with false. change (Nat.eqb 1 1) with true. destruct (Nat.eqb_spec 0 (n - 1)); [lia|]. cbn [orb].
    unfold rlsum. cbn [fold_right]. field. lra. }
  rewrite seq_ends. rewrite !filter_app, !app_length.
  assert (T : forall k, (k < n)%nat -> (if Rle_dec mu (strength p t k) then true else false) = orb (Nat.eqb k 1) (Nat.eqb k (n - 1))).
  { intros k Hk. rewrite sin_strength by exact Hk. rewrite M. assert (AN : 0 < a * INR n) by (apply Rmult_lt_0_compat; lra). destruct (orb _ _); destruct (Rle_dec _ _) as [X|X]; try reflexivity; exfalso; [apply X; replace (a * (INR n / 2) * (INR n / 2)) with (a * INR n * (INR n / 4)) by field; nra|lra]. }
  assert (F : forall l, (forall k, In k l -> (k < n)%nat) -> filter (fun k => if Rle_dec mu (strength p t k) then true else false) l = filter (fun k => orb (Nat.eqb k 1) (Nat.eqb k (n - 1))) l).
  { induction l as [|k l IH]; intros B; [reflexivity|]. cbn [filter]. rewrite T by (apply B; now left). rewrite IH by (intros; apply B; now right). reflexivity. }
  rewrite !F; [|intros k [<-|[]]; lia|intros k Hk; apply in_seq in Hk; lia|intros k [<-|[<-|[]]]; lia].
  assert (Z : filter (fun k => orb (Nat.eqb k 1) (Nat.eqb k (n - 1))) (seq 2 (n - 3)) = []).
  { assert (G : forall l, (forall k, In k l -> (1 < k < n - 1)%nat) -> filter (fun k => orb (Nat.eqb k 1) (Nat.eqb k (n - 1))) l = []).
    { induction l as [|k l IH]; intros B; [reflexivity|]. cbn [filter]. pose proof (B k (or_introl eq_refl)).
      destruct (Nat.eqb_spec k 1); [lia|]. destruct (Nat.eqb_spec k (n - 1)); [lia|]. apply IH. intros; apply B; now right. }
    apply G. intros k Hk. apply in_seq in Hk. lia. }
  rewrite Z. cbn [filter]. rewrite (Nat.eqb_refl (n - 1)), orb_true_r. change (Nat.eqb 0 1) with false. change (Nat.eqb 1 1) with true. destruct (Nat.eqb_spec 0 (n - 1)); [lia|]. cbn [orb]. reflexivity.
Qed.
Lemma sin_tpower : tpower t 1 = INR n * INR n / 4.
Proof.
  unfold tpower, hsum. cbn [seq map]. unfold t. rewrite dt_dft by lia. cbn [Nat.eqb orb]. unfold rlsum, cnorm2, rtoc. cbn. field.
Qed.
Lemma sin_dft1 : dft t 1 <> c0.
Proof.
  unfold t. rewrite dt_dft by lia. cbn [Nat.eqb orb]. intros E. injection E as E. assert (0 < INR n) by (apply lt_0_INR; lia). lra.
Qed.
End Sinusoid.

(* a sinusoid of m bins delay *)
Lemma sin_found fuel brentq n m a c p j0 : finds_roots brentq ->
  (forall f x y, x < y -> f x * f y < 0 -> exists z, brentq f x y = Ok z) ->
  copy_of m a c (default_template n) p -> 0 < a -> (32 <= n)%nat -> (j0 < 64)%nat -> (64 * m = j0 * n)%nat ->
  exists s es, taylor_fftfit (S (S (S fuel))) brentq p (default_template n) =
      Ok (Some a, Some (sqrt (2 * spread p / (INR n * INR n))), s, es) /\ wrapped (INR m / INR n) s.
Proof.
  intros HB HE C Ha L J0 E.
  assert (S2 : strong p (default_template n) = 2%nat) by (apply (sin_strong n m a c p); auto; lia).
  destruct (copy_found fuel brentq m a c (default_template n) p j0) as (b & eb & s & es & R & W & B);
    [assumption..|now rewrite dt_len|apply sin_dft1; lia|assumption|now rewrite dt_len|rewrite S2, dt_len; lia|].
  rewrite dt_len in W. assert (N : 32 <= INR n) by (apply (le_INR 32) in L; rewrite (INR_IZR_INZ 32) in L; exact L).
  assert (TP : tpower (default_template n) 1 = INR n * INR n / 4) by (apply sin_tpower; lia).
  rewrite S2 in B. change (2 - 1)%nat with 1%nat in B. rewrite TP in B. rewrite B in R by nra.
  assert (Pn : p <> []) by (intros ->; pose proof (copy_len _ _ _ _ _ C) as X; rewrite dt_len in X; cbn in X; lia).
  destruct (root_main _ _ _ _ _ _ _ _ HB Pn R) as (_ & _ & _ & _ & _ & _ & Z). rewrite S2 in Z. change (2 - 1)%nat with 1%nat in Z. rewrite TP in Z.
  destruct Z as (_ & Z & _); [nra|]. exists s, es. split; [|exact W]. rewrite R, Z. do 4 f_equal. f_equal. f_equal. field. lra.
Qed.
Lemma sin_toa fuel brentq n m a c p j0 period tstart add : finds_roots brentq ->
  (forall f x y, x < y -> f x * f y < 0 -> exists z, brentq f x y = Ok z) ->
  copy_of m a c (default_template n) p -> 0 < a -> (32 <= n)%nat -> (j0 < 64)%nat -> (64 * m = j0 * n)%nat -> 0 < period ->
  exists toa err, get_TOA (S (S (S fuel))) brentq p period tstart None add = Ok (toa, err) /\
    tstart <= toa < tstart + period /\ exists k, toa = tstart + (INR m / INR n + add + IZR k) * period.
Proof.
  intros HB HE C Ha L J0 E Hp. pose proof (copy_len _ _ _ _ _ C) as Lp. rewrite dt_len in Lp.
  assert (Pn : p <> []) by (intros ->; cbn in Lp; lia).
  destruct (sin_found fuel brentq n m a c p j0) as (s & es & R & W); [assumption..|].
  destruct (get_TOA (S (S (S fuel))) brentq p period tstart None add) as [[toa err]|e] eqn:G.
  - exists toa, err. split; [reflexivity|]. destruct (toa_spec _ _ _ _ _ _ _ _ Pn Hp G) as (b & eb & s' & es' & R' & I & (k & K) & _).
    cbn [fst snd] in *. rewrite Lp, R in R'. injection R' as <- <- <- <-. split; [exact I|]. destruct W as [_ (z & ->)]. exists (z + k)%Z. rewrite plus_IZR, K. ring.
  - exfalso. unfold get_TOA in G. rewrite fftfit_taylor in G by assumption. rewrite Lp, R in G. discriminate.
Qed.
(* rotating a profile changes the error of the amplitude *)
Definition rotated (n m : nat) : list R := map (fun i => val (default_template n) ((i + (n - m)) mod n)) (seq 0 n).
Lemma rotated_delayed n m : (0 < n)%nat -> (m < n)%nat -> delayed m (default_template n) (rotated n m).
Proof.
  intros Hn Hm. unfold delayed, rotated. rewrite dt_len, map_length, seq_length. split; [reflexivity|]. intros j Hj. unfold val at 1.
  assert (B : ((j + m) mod n < n)%nat) by (apply Nat.mod_upper_bound; lia).
  rewrite (nth_map_lt2 _ _ _ 0%nat) by (rewrite seq_length; exact B). rewrite seq_nth by exact B. cbn [plus]. f_equal.
  rewrite Nat.add_mod_idemp_l by lia. replace (j + m + (n - m))%nat with (j + 1 * n)%nat by lia. rewrite Nat.mod_add by lia. apply Nat.mod_small. exact Hj.
Qed.
Lemma spread_power p : p <> [] -> rlsum p = 0 -> spread p = rs (length p) (fun j => val p j * val p j) - val p 0 * val p 0.
Proof.
  intros Hp E. unfold spread. assert (A : avg (fun y => y) p = 0) by (unfold avg; rewrite map_id, E; unfold Rdiv; ring).
  rewrite A. assert (Hn : (0 < length p)%nat) by (destruct p; [congruence|cbn; lia]).
  replace (length p) with (S (length p - 1)) at 2 by lia. rewrite rs_first. unfold rs. rewrite <- seq_shift, map_map.
  rewrite (map_ext (fun j => (val p (S j) - 0) * (val p (S j) - 0)) (fun j => val p (S j) * val p (S j))) by (intros; ring). ring.
Qed.
Lemma rotated_spread n m : (2 < n)%nat -> (m < n)%nat -> spread (rotated n m) = INR n / 2 - val (rotated n m) 0 * val (rotated n m) 0.
Proof.
  intros Hn Hm. pose proof (rotated_delayed n m ltac:(lia) Hm) as D.
  assert (L : length (rotated n m) = n) by (unfold rotated; now rewrite map_length, seq_length).
  assert (Pn : rotated n m <> []) by (intros X; rewrite X in L; cbn in L; lia).
  assert (T : default_template n <> []) by (intros X; pose proof (dt_len n) as Y; rewrite X in Y; cbn in Y; lia).
  assert (N : 0 < INR n) by (apply lt_0_INR; lia).
  assert (F : forall k, (k < n)%nat -> cnorm2 (dft (rotated n m) k) = if orb (Nat.eqb k 1) (Nat.eqb k (n - 1)) then INR n / 2 * (INR n / 2) else 0).
  { intros k Hk. rewrite (dft_delay m _ _ k T D). rewrite cnorm2_mul, cis_norm. rewrite dt_dft by assumption.
    destruct (orb _ _); unfold cnorm2, rtoc; cbn; ring. }
  rewrite spread_power; [|exact Pn|].
  - f_equal. rewrite L. pose proof (parseval (rotated n m)) as P. rewrite L in P.
    assert (Q : rs n (fun k => cnorm2 (dft (rotated n m) k)) = INR n * INR n / 2).
    { unfold rs. rewrite (map_ext_in _ (fun k => if orb (Nat.eqb k 1) (Nat.eqb k (n - 1)) then INR n / 2 * (INR n / 2) else 0)) by (intros k Hk; apply in_seq in Hk; apply F; lia).
      rewrite (seq_ends n Hn), !map_app, !rlsum_app. rewrite (rlsum_zero _ (seq 2 (n - 3))).
      2:{ intros k Hk. apply in_seq in Hk. destruct (Nat.eqb_spec k 1); [lia|]. destruct (Nat.eqb_spec k (n - 1)); [lia|]. reflexivity. }
      cbn [map]. rewrite (Nat.eqb_refl (n - 1)), orb_true_r. change (Nat.eqb 0 1) with false. change (Nat.eqb 1 1) with true. destruct (Nat.eqb_spec 0 (n - 1)); [lia|]. cbn [orb].
      unfold rlsum. cbn [fold_right]. field. }
    rewrite (rs_ext n (fun k => cnorm2 (dft (rotated n m) k)) (fun k => power_at (rotated n m) k)) in Q by (intros; reflexivity). rewrite P in Q. apply (Rmult_eq_reg_l (INR n)); [|lra]. lra.
  - pose proof (F 0%nat ltac:(lia)) as Z. change (Nat.eqb 0 1) with false in Z. destruct (Nat.eqb_spec 0 (n - 1)); [lia|]. cbn [orb] in Z. rewrite dft_0 in Z.
    unfold cnorm2 in Z. cbn [re im fst snd rtoc] in Z. nra.
Qed.
Lemma rotated_0 n : (0 < n)%nat -> rotated n 0 = default_template n.
Proof.
  intros Hn. apply (nth_ext _ _ 0 0).
  - unfold rotated. now rewrite map_length, seq_length, dt_len.
  - intros j Hj. unfold rotated in *. rewrite map_length, seq_length in Hj. rewrite (nth_map_lt2 _ _ _ 0%nat) by (rewrite seq_length; exact Hj).
    rewrite seq_nth by exact Hj. unfold val. f_equal. cbn [plus]. rewrite Nat.sub_0_r. replace (j + n)%nat with (j + 1 * n)%nat by lia.
    rewrite Nat.mod_add by lia. apply Nat.mod_small. exact Hj.
Qed.
Lemma rotated_copy n m : (0 < n)%nat -> (m < n)%nat -> copy_of m 1 0 (default_template n) (rotated n m).
Proof.
  intros Hn Hm. exists (rotated n m). split; [now apply rotated_delayed|]. rewrite <- (map_id (rotated n m)) at 1. apply map_ext. intros. ring.
Qed.
Lemma origin_matters : exists t p p' m, delayed m p p' /\ forall fuel brentq, finds_roots brentq ->
  (forall f x y, x < y -> f x * f y < 0 -> exists z, brentq f x y = Ok z) ->
  exists b eb s es b' eb' s' es', taylor_fftfit (S (S (S fuel))) brentq p t = Ok (b, eb, s, es) /\
    taylor_fftfit (S (S (S fuel))) brentq p' t = Ok (b', eb', s', es') /\ eb <> eb'.
Proof.
  exists (default_template 32), (default_template 32), (rotated 32 8), 8%nat. split; [apply rotated_delayed; lia|].
  intros fuel brentq HB HE.
  destruct (sin_found fuel brentq 32 0 1 0 (rotated 32 0) 0) as (s & es & R & _); try (assumption || lia || lra); [apply rotated_copy; lia|].
  destruct (sin_found fuel brentq 32 8 1 0 (rotated 32 8) 16) as (s' & es' & R' & _); try (assumption || lia || lra); [apply rotated_copy; lia|].
  rewrite (rotated_0 32) in R by lia. do 8 eexists. split; [exact R|]. split; [exact R'|]. intros E. apply (f_equal (fun o => match o with Some v => v | None => 0 end)) in E. cbv beta iota in E.
  assert (S0 : spread (default_template 32) = 15).
  { rewrite <- (rotated_0 32) by lia. rewrite rotated_spread by lia. rewrite (rotated_0 32) by lia. rewrite dt_val by lia. unfold cis. cbn [re fst Z.of_nat].
    replace (2 * PI * 0 / INR 32) with 0 by (unfold Rdiv; ring). rewrite cos_0. rewrite (INR_IZR_INZ 32). cbn [Z.of_nat Pos.of_succ_nat Pos.succ]. lra. }
  assert (S8 : spread (rotated 32 8) = 16).
  { rewrite rotated_spread by lia. assert (V : val (rotated 32 8) 0 = 0).
    { unfold val, rotated. rewrite (nth_map_lt2 _ _ _ 0%nat) by (rewrite seq_length; lia). rewrite seq_nth by lia.
      change ((0 + 0 + (32 - 8)) mod 32)%nat with 24%nat. rewrite dt_val by lia. unfold cis. cbn [re fst].
      rewrite (INR_IZR_INZ 32). cbn [Z.of_nat Pos.of_succ_nat Pos.succ].
      replace (2 * PI * 24 / 32) with (3 * (PI / 2)) by field. apply cos_3PI2. }
    rewrite V. rewrite (INR_IZR_INZ 32). cbn [Z.of_nat Pos.of_succ_nat Pos.succ]. lra. }
  rewrite S0, S8 in E. rewrite (INR_IZR_INZ 32) in E. cbn [Z.of_nat Pos.of_succ_nat Pos.succ] in E. apply sqrt_inj in E; lra.
Qed.
