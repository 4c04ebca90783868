(* P_bispec3.v: errors, symmetries and counterexamples *)
From Verif Require Import Np Lib M_utils Cplx M_fourier M_corr M_window S_corr S_window S_bispec M_bispec P_segan P_corr P_lag P_window P_helpers P_bispec P_bispec2.
From Coq Require Import Lra Lia.
Open Scope R_scope.

Lemma bispectrum_run (counts : list R) maxlag : (match maxlag with None => True | Some l => (Z.abs l < Z.of_nat (length counts))%Z end) -> counts <> [] ->
  (lag_limit (length counts) maxlag < length counts)%nat.
Proof.
  intros H Hc. destruct maxlag as [l|]; cbn [lag_limit]; [lia|]. apply Nat.div_lt; [|lia]. destruct counts; [congruence|cbn; lia].
Qed.

(* ---- symmetries ---- *)
Lemma divisor_swap biased n a b : divisor biased n a b = divisor biased n b a.
Proof. unfold divisor. now rewrite partners_swap. Qed.
Lemma divisor_reflect biased n a b : divisor biased n a b = divisor biased n (- a) (b - a).
Proof. unfold divisor. now rewrite partners_reflect. Qed.
Lemma cumulant_symmetries counts dt maxlag biased b : let n := length counts in let L := lag_limit n maxlag in (L < n)%nat ->
  make_bispectrum counts dt maxlag None biased = Ok b -> exists c, table_is (bi_cum3 b) (2 * L + 1) c /\
  forall i j, (i < 2 * L + 1)%nat -> (j < 2 * L + 1)%nat -> c i j = c j i /\
  forall j', (j' < 2 * L + 1)%nat -> (Z.of_nat j' = Z.of_nat L + (Z.of_nat j - Z.of_nat i))%Z -> c i j = c (2 * L - i)%nat j'.
Proof.
  intros n L HL E. destruct (bispectrum_parts counts dt maxlag biased HL) as (b' & E' & _ & T & _). rewrite E in E'. injection E' as <-.
  eexists. split; [exact T|]. cbv beta. fold n. fold L. intros i j Hi Hj. split.
  - rewrite third_swap, divisor_swap. reflexivity.
  - intros j' Hj' Ej. rewrite (third_reflect counts (Z.of_nat i - Z.of_nat L)), (divisor_reflect biased n (Z.of_nat i - Z.of_nat L)).
    f_equal; f_equal; lia.
Qed.
Lemma bispec_symmetries counts dt maxlag biased b : let n := length counts in let L := lag_limit n maxlag in (L < n)%nat ->
  make_bispectrum counts dt maxlag None biased = Ok b -> exists B, table_is (bi_bispec b) (2 * L + 1) B /\
  forall i j, (i < 2 * L + 1)%nat -> (j < 2 * L + 1)%nat -> B i j = B j i /\ B (2 * L - i)%nat (2 * L - j)%nat = cconj (B i j).
Proof.
  intros n L HL E. destruct (bispectrum_parts counts dt maxlag biased HL) as (b' & E' & _ & _ & T & _). rewrite E in E'. injection E' as <-.
  eexists. split; [exact T|]. cbv beta. fold n. fold L. intros i j Hi Hj. split.
  - apply transform_swap. intros. now rewrite third_swap, divisor_swap.
  - rewrite <- transform_conj. f_equal; lia.
Qed.

(* ---- lags that are too large ---- *)
Lemma index_wrap (l : list R) z : (- Z.of_nat (length l) <= z < Z.of_nat (length l))%Z -> exists v, np_index l z = Ok v.
Proof.
  intros H. unfold np_index, get. destruct (Z.leb_spec 0 z).
  - rewrite (nth_error_nth' l 0) by lia. eauto.
  - destruct (Z.leb_spec (- Z.of_nat (length l)) z); [|lia]. rewrite (nth_error_nth' l 0) by lia. eauto.
Qed.
Lemma cumulant_too_large s L : (length s < L)%nat -> cumulant3 s L = Err (if Nat.leb L (2 * length s - 1) then ValueError else IndexError).
Proof.
  intros H. unfold cumulant3. set (n := length s) in *. cbv zeta. destruct (Nat.leb_spec L (2 * n - 1)) as [G|G].
  - destruct (map_result_ok (np_index s) (zrange (Z.of_nat n - Z.of_nat L - 1) (Z.of_nat n))) as [r ->].
    { intros z Hz. unfold zrange in Hz. apply in_map_iff in Hz. destruct Hz as (i & <- & Hi). apply in_seq in Hi. apply index_wrap. fold n. lia. }
    cbn [bind]. unfold zrange at 1. replace (Z.to_nat (Z.of_nat n - Z.of_nat L)) with 0%nat by lia. cbn [seq map map_result bind app].
    rewrite repeat_length. destruct (Nat.eqb_spec L n); [lia|reflexivity].
  - unfold zrange. destruct (Z.to_nat (Z.of_nat n - (Z.of_nat n - Z.of_nat L - 1))) as [|k] eqn:Ek; [lia|]. cbn [seq map map_result].
    replace (np_index s (Z.of_nat n - Z.of_nat L - 1 + Z.of_nat 0)) with (@Err R IndexError); [reflexivity|].
    unfold np_index. fold n. destruct (Z.leb_spec 0 (Z.of_nat n - Z.of_nat L - 1 + Z.of_nat 0)); [lia|].
    destruct (Z.leb_spec (- Z.of_nat n) (Z.of_nat n - Z.of_nat L - 1 + Z.of_nat 0)); [lia|reflexivity].
Qed.
Lemma bispectrum_too_large counts dt maxlag biased : let n := length counts in let L := lag_limit n maxlag in (n < L)%nat ->
  make_bispectrum counts dt maxlag None biased = Err (if Nat.leb L (2 * n - 1) then ValueError else IndexError).
Proof.
  intros n L HL. unfold make_bispectrum. fold (lag_limit (length counts) maxlag). fold n. fold L. cbv zeta. cbn [bind].
  change (map (fun c => c - rlsum counts / INR n) counts) with (signal_of counts).
  rewrite cumulant_too_large by (rewrite signal_len; exact HL). rewrite signal_len. reflexivity.
Qed.
Lemma unknown_window counts dt maxlag biased : make_bispectrum counts dt maxlag (Some WOther) biased = Err ValueError.
Proof. unfold make_bispectrum. cbv zeta. rewrite window_unknown. reflexivity. Qed.
Lemma zero_lag counts dt biased : counts <> [] -> exists b, make_bispectrum counts dt (Some 0%Z) None biased = Ok b /\ bi_freq b = [None].
Proof.
  intros H. destruct (bispectrum_parts counts dt (Some 0%Z) biased) as (b & E & _).
  - cbn. destruct counts; [congruence|cbn; lia].
  - exists b. split; [exact E|]. unfold make_bispectrum in E. cbv zeta in E. cbn [bind] in E.
    destruct (cumulant3 _ _); [|discriminate]. cbn [bind] in E. injection E as <-. reflexivity.
Qed.

(* two points, lags to 2: the corner is 1/2 although no two points are 2 bins apart *)
Lemma lag_wraps_refuted : exists counts b, length counts = 2%nat /\ make_bispectrum counts 1 (Some 2%Z) None true = Ok b /\
  partners 2 (-2) (-2) = 0%nat /\ exists row, nth_error (bi_cum3 b) 0 = Some row /\ nth_error row 0 = Some (1 / 2).
Proof.
  exists [1; 3]. eexists. split; [reflexivity|].
  assert (S : map (fun c => c - rlsum [1; 3] / INR 2) [1; 3] = [-1; 1]).
  { cbn. f_equal; [lra|]. f_equal. lra. }
  unfold make_bispectrum. cbv zeta. cbn [bind length]. rewrite S. change (Z.abs_nat 2) with 2%nat.
  unfold cumulant3. cbv zeta. cbn [length].
  replace (map_result (np_index [-1; 1]) (zrange (Z.of_nat 2 - Z.of_nat 2 - 1) (Z.of_nat 2))) with (Ok [1; -1; 1]) by reflexivity.
  replace (map_result (np_index (rev [-1; 1])) (zrange (Z.of_nat 2) (Z.of_nat 2))) with (@Ok (list R) []) by reflexivity.
  cbn [bind]. cbn [app length repeat Nat.eqb negb]. split; [reflexivity|]. split; [reflexivity|]. cbn [bi_cum3].
  eexists. split; [reflexivity|]. cbn [mat at2 nth map seq]. 
  unfold normalize_cumulant3. cbn. f_equal. lra.
Qed.

(* the frequency given to the last row is not that of the transform *)
Lemma frequency_refuted : exists counts dt b i f, make_bispectrum counts dt None None true = Ok b /\ 0 < dt /\ bi_maxlag b = 1%nat /\
  nth_error (bi_freq b) i = Some (Some f) /\ f <> (INR i - INR (bi_maxlag b)) / (INR (2 * bi_maxlag b + 1) * dt).
Proof.
  destruct (bispectrum_parts [1; 2; 4] 1 None true) as (b & E & P1 & _ & _ & _ & P2); [cbn; lia|].
  exists [1; 2; 4], 1, b, 2%nat. eexists. split; [exact E|]. split; [lra|]. rewrite P1. split; [reflexivity|].
  rewrite P2 by (cbn; lra || lia). split; [reflexivity|]. cbn. lra.
Qed.
(* the weights of a uniform window: not symmetric as the cumulant is *)
Lemma window_symmetry_refuted : exists L l v, create_window (Z.of_nat (2 * L + 1)) WUniform = Ok l /\ window_reals l = Some v /\
  exists W, table_is (bispec_window L v) (2 * L + 1) W /\ W (L + 1)%nat (L + 1)%nat = 0 /\ W (L - 1)%nat L = 1.
Proof.
  destruct (uniform_window 5) as (l & E & H); [lia|]. exists 2%nat, l, (map (fun _ => 1) (seq 0 5)).
  split; [exact E|]. split; [now apply window_reals_ok|]. eexists. split; [apply (window_table 2 (fun _ => 1))|]. cbn. change (Pos.to_nat 2 <=? 1)%nat with false. change (Pos.to_nat 1 <=? 1)%nat with true. split; ring.
Qed.
Lemma transform_zero L c : transform2 L c 0 0 = rtoc (rs (2 * L + 1) (fun i => rs (2 * L + 1) (fun j => c (Z.of_nat i - Z.of_nat L)%Z (Z.of_nat j - Z.of_nat L)%Z))).
Proof.
  unfold transform2. cbv zeta. set (N := (2 * L + 1)%nat).
  assert (Q : forall n f, cs n (fun i => rtoc (f i)) = rtoc (rs n f)).
  { intros n f. induction n as [|n IH]; [reflexivity|]. rewrite cs_S, rs_S, IH. apply cx_eq; cbn; ring. }
  rewrite <- Q. apply cs_ext. intros i _. rewrite <- Q. apply cs_ext. intros j _. cbn [Z.mul Z.add Z.opp]. rewrite cis_0.
  apply cx_eq; cbn; ring.
Qed.
(* a window that is 1 everywhere changes the bispectrum *)
Lemma uniform_refuted : exists counts b b0 r r0 z z0, make_bispectrum counts 1 None (Some WUniform) true = Ok b /\ make_bispectrum counts 1 None None true = Ok b0 /\
  nth_error (bi_bispec b) 1 = Some r /\ nth_error r 1 = Some z /\ nth_error (bi_bispec b0) 1 = Some r0 /\ nth_error r0 1 = Some z0 /\ z <> z0.
Proof.
  destruct (uniform_window 3) as (l & E & H); [lia|].
  destruct (windowed_parts [0; 0; 3] 1 None WUniform true l (fun _ => 1)) as (b & b0 & E1 & E2 & _ & _ & _ & _ & T); [cbn; lia|exact E|exact H|intros n Hn; reflexivity|].
  destruct (bispectrum_parts [0; 0; 3] 1 None true) as (b' & E3 & _ & _ & T0 & _); [cbn; lia|]. rewrite E2 in E3. injection E3 as <-.
  change (lag_limit (length [0; 0; 3]) None) with 1%nat in *. destruct T as [_ T]. destruct T0 as [_ T0].
  destruct (T 1%nat) as (r & R1 & _ & R2); [lia|]. destruct (T0 1%nat) as (r0 & R3 & _ & R4); [lia|].
  specialize (R2 1%nat). specialize (R4 1%nat). exists [0; 0; 3], b, b0, r, r0. eexists. eexists.
  split; [exact E1|]. split; [exact E2|]. split; [exact R1|]. split; [apply R2; lia|]. split; [exact R3|]. split; [apply R4; lia|].
  change (Z.of_nat 1 - Z.of_nat 1)%Z with 0%Z. rewrite !transform_zero. intros Q. apply (f_equal fst) in Q. revert Q.
  unfold divisor. change (length [0; 0; 3]) with 3%nat.
  assert (D : forall t, deviation [0; 0; 3] t = if Z.eqb t 0 then -1 else if Z.eqb t 1 then -1 else if Z.eqb t 2 then 2 else 0).
  { intros t. destruct (Z.eqb_spec t 0) as [->|N0]; [unfold deviation, average; change (Z.to_nat 0) with 0%nat; cbn; lra|].
    destruct (Z.eqb_spec t 1) as [->|N1]; [unfold deviation, average; change (Z.to_nat 1) with 1%nat; cbn; lra|].
    destruct (Z.eqb_spec t 2) as [->|N2]; [unfold deviation, average; change (Z.to_nat 2) with 2%nat; cbn; lra|]. apply deviation_out. cbn. lia. }
  unfold third_sum. change (length [0; 0; 3]) with 3%nat. unfold rs. cbn [seq map Nat.mul Nat.add rlsum fold_right]. rewrite !D. cbn. lra.
Qed.

(* ---- the two main statements ---- *)
Lemma cumulant_main counts dt maxlag biased : let n := length counts in let L := lag_limit n maxlag in (L < n)%nat ->
  exists b, make_bispectrum counts dt maxlag None biased = Ok b /\ bi_maxlag b = L /\
  table_is (bi_cum3 b) (2 * L + 1) (fun i j => third_sum counts (Z.of_nat i - Z.of_nat L) (Z.of_nat j - Z.of_nat L) /
     divisor biased n (Z.of_nat i - Z.of_nat L) (Z.of_nat j - Z.of_nat L)) /\
  bi_lags b = map (fun i => (INR i - INR L) * dt) (seq 0 (2 * L + 1)).
Proof.
  intros n L HL. destruct (bispectrum_parts counts dt maxlag biased HL) as (b & E & P1 & P2 & _ & P3 & _). exists b. auto.
Qed.
Lemma transform_main counts dt maxlag biased b : let n := length counts in let L := lag_limit n maxlag in (L < n)%nat ->
  make_bispectrum counts dt maxlag None biased = Ok b ->
  table_is (bi_bispec b) (2 * L + 1) (fun i j => transform2 L (fun t1 t2 => third_sum counts t1 t2 / divisor biased n t1 t2)
     (Z.of_nat i - Z.of_nat L) (Z.of_nat j - Z.of_nat L)) /\
  (dt <> 0 -> (0 < L)%nat -> bi_freq b = map (fun i => Some ((INR i - INR L) / (2 * INR L * dt))) (seq 0 (2 * L + 1))).
Proof.
  intros n L HL E. destruct (bispectrum_parts counts dt maxlag biased HL) as (b' & E' & _ & _ & P1 & _ & P2). rewrite E in E'. injection E' as <-. auto.
Qed.
Lemma windowed_main counts dt maxlag w biased : let n := length counts in let L := lag_limit n maxlag in (0 < L < n)%nat -> w <> WOther ->
  exists b b0 l v, make_bispectrum counts dt maxlag (Some w) biased = Ok b /\ make_bispectrum counts dt maxlag None biased = Ok b0 /\
  create_window (Z.of_nat (2 * L + 1)) w = Ok l /\ window_is l (2 * L + 1) v /\
  bi_maxlag b = bi_maxlag b0 /\ bi_cum3 b = bi_cum3 b0 /\ bi_lags b = bi_lags b0 /\ bi_freq b = bi_freq b0 /\
  table_is (bi_bispec b) (2 * L + 1) (fun i j => transform2 L (fun t1 t2 => third_sum counts t1 t2 / divisor biased n t1 t2 *
     ((if Z.ltb (Z.abs (t1 + t2)) (Z.of_nat L) then v (Z.to_nat (Z.of_nat L + (t1 + t2))) else 0) *
       v (Z.to_nat (Z.of_nat L + t2)) * v (Z.to_nat (Z.of_nat L + t1)))) (Z.of_nat i - Z.of_nat L) (Z.of_nat j - Z.of_nat L)).
Proof.
  intros n L HL Hw. destruct (window_total (Z.of_nat (2 * L + 1)) w Hw) as [l El].
  destruct (window_symmetric (2 * L + 1) w l) as (v & V1 & V2); [lia|exact Hw| |exact El|].
  { left. replace (2 * L + 1)%nat with (1 + L * 2)%nat by lia. rewrite Nat.mod_add by lia. reflexivity. }
  destruct (windowed_parts counts dt maxlag w biased l v) as (b & b0 & P); [apply HL|exact El|exact V1|exact V2|].
  exists b, b0, l, v. intuition.
Qed.
(* the second and the third bin are one bin apart: 3 points, lags to 1 *)
Lemma bispec_example : exists b row row2, make_bispectrum [0; 0; 3] (1 / 2) None None false = Ok b /\ bi_maxlag b = 1%nat /\ (lag_limit 3 (Some (-1)%Z) = 1)%nat /\
  nth_error (bi_cum3 b) 0 = Some row /\ nth_error row 2 = Some 2 /\ nth_error (bi_cum3 b) 1 = Some row2 /\ nth_error row2 1 = Some 2 /\
  bi_lags b = [- (1 / 2); 0; 1 / 2] /\ bi_freq b = [Some (-1); Some 0; Some 1].
Proof.
  destruct (bispectrum_parts [0; 0; 3] (1 / 2) None false) as (b & E & P1 & [_ P2] & _ & P3 & P4); [cbn; lia|].
  change (lag_limit (length [0; 0; 3]) None) with 1%nat in *. change (length [0; 0; 3]) with 3%nat in *.
  assert (D : forall t, deviation [0; 0; 3] t = if Z.eqb t 0 then -1 else if Z.eqb t 1 then -1 else if Z.eqb t 2 then 2 else 0).
  { intros t. destruct (Z.eqb_spec t 0) as [->|N0]; [unfold deviation, average; change (Z.to_nat 0) with 0%nat; cbn; lra|].
    destruct (Z.eqb_spec t 1) as [->|N1]; [unfold deviation, average; change (Z.to_nat 1) with 1%nat; cbn; lra|].
    destruct (Z.eqb_spec t 2) as [->|N2]; [unfold deviation, average; change (Z.to_nat 2) with 2%nat; cbn; lra|]. apply deviation_out. cbn. lia. }
  destruct (P2 0%nat) as (row & R1 & _ & R2); [lia|]. destruct (P2 1%nat) as (row2 & R3 & _ & R4); [lia|].
  exists b, row, row2. split; [exact E|]. split; [exact P1|]. split; [reflexivity|]. split; [exact R1|].
  split; [rewrite R2 by lia|split; [exact R3|split; [rewrite R4 by lia|]]].
  - f_equal. unfold third_sum, divisor, rs. change (length [0; 0; 3]) with 3%nat. cbn [seq map rlsum fold_right]. rewrite !D. cbn. lra.
  - f_equal. unfold third_sum, divisor, rs. change (length [0; 0; 3]) with 3%nat. cbn [seq map rlsum fold_right]. rewrite !D. cbn. lra.
  - rewrite P3, P4 by (lra || lia). cbn [seq map Nat.mul Nat.add].
    assert (L3 : forall (A : Type) (a b c a' b' c' : A), a = a' -> b = b' -> c = c' -> [a; b; c] = [a'; b'; c']) by congruence.
    split; apply L3; try apply (f_equal Some); cbn; lra.
Qed.
