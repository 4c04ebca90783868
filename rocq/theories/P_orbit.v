(* P_orbit.v: orbital corrections and choice of the simulation: proofs. *)
From Coq Require Import String.
From Verif Require Import Np Lib M_gti M_seg M_utils M_sim S_seg S_orbit M_orbit P_seg_cut.
From Coq Require Import ZArith QArith List Bool Arith Lia Lqa.
Import ListNotations.
Open Scope Q_scope.

Lemma growing_sorted xs : growing xs -> nondecreasing xs.
Proof.
  intros G i j x y H Hi Hj. assert (Lj : (j < List.length xs)%nat) by (apply nth_error_Some; congruence).
  pose proof (G i j (conj H Lj)) as K. rewrite (nth_error_nth _ _ 0 Hi), (nth_error_nth _ _ 0 Hj) in K. Lqa.lra.
Qed.
Lemma growing_le xs i j : growing xs -> (i <= j < List.length xs)%nat -> nth i xs 0 <= nth j xs 0.
Proof. intros G H. destruct (Nat.eq_dec i j) as [->|N]; [Lqa.lra|]. pose proof (G i j ltac:(lia)). Lqa.lra. Qed.
(* the piece used for a time *)
Lemma piece xs ys v : growing xs -> (2 <= List.length xs)%nat -> exists i, (S i < List.length xs)%nat /\
  interp false xs ys v = Some ((nth (S i) ys 0 - nth i ys 0) / (nth (S i) xs 0 - nth i xs 0) * (v - nth i xs 0) + nth i ys 0) /\
  (v <= nth (S i) xs 0 \/ S (S i) = List.length xs) /\ (nth i xs 0 < v \/ i = 0%nat).
Proof.
  intros G L. destruct (ssl_spec xs v (growing_sorted xs G)) as [H1 H2]. unfold interp. set (k := searchsorted_left xs v) in *.
  set (i := Nat.min (Nat.max k 1) (List.length xs - 1)). exists (i - 1)%nat. assert (I : (1 <= i <= List.length xs - 1)%nat) by (unfold i; lia).
  replace (S (i - 1)) with i by lia. split; [lia|]. split; [|split].
  - cbn zeta. pose proof (G (i - 1)%nat i ltac:(lia)) as K. destruct (qeq _ _) eqn:E; [apply Qeq_bool_iff in E; Lqa.lra|reflexivity].
  - destruct (Nat.eq_dec i (List.length xs - 1)) as [->|N]; [right; lia|]. left. destruct (Qlt_le_dec (nth i xs 0) v) as [C|C]; [|exact C].
    assert (E : nth_error xs i = Some (nth i xs 0)) by (apply nth_error_nth'; lia). apply (H1 _ _ E) in C. exfalso. unfold i in *. lia.
  - destruct (Nat.eq_dec i 1) as [->|N]; [right; lia|]. left. assert (E : nth_error xs (i - 1) = Some (nth (i - 1) xs 0)) by (apply nth_error_nth'; lia).
    apply (H1 _ _ E). unfold i in *. lia.
Qed.
Lemma slope_line x0 y0 x1 y1 x : x0 < x1 -> on_line x0 y0 x1 y1 x ((y1 - y0) / (x1 - x0) * (x - x0) + y0).
Proof. intros H. unfold on_line. field. Lqa.lra. Qed.
Lemma interp_line xs ys v : growing xs -> (2 <= List.length xs)%nat -> exists i y, (S i < List.length xs)%nat /\
  interp false xs ys v = Some y /\ on_line (nth i xs 0) (nth i ys 0) (nth (S i) xs 0) (nth (S i) ys 0) v y /\
  (v <= nth (S i) xs 0 \/ S (S i) = List.length xs) /\ (nth i xs 0 < v \/ i = 0%nat).
Proof.
  intros G L. destruct (piece xs ys v G L) as (i & A & B & C & D). exists i. eexists. split; [exact A|]. split; [exact B|]. split; [|split; assumption].
  apply slope_line, G. lia.
Qed.
(* at the table *)
Lemma interp_knot xs ys k : growing xs -> (2 <= List.length xs)%nat -> (k < List.length xs)%nat ->
  exists y, interp false xs ys (nth k xs 0) = Some y /\ y == nth k ys 0.
Proof.
  intros G L Hk. destruct (piece xs ys (nth k xs 0) G L) as (i & A & B & C & D). eexists. split; [exact B|].
  pose proof (G i (S i) ltac:(lia)) as K.
  assert (E : k = i \/ k = S i).
  { destruct (Nat.lt_trichotomy k i) as [H|[H|H]]; [|now left|].
    - exfalso. destruct D as [D| ->]; [|lia]. pose proof (G k i ltac:(lia)). Lqa.lra.
    - destruct (Nat.eq_dec k (S i)) as [H'|H']; [now right|]. exfalso. destruct C as [C|C]; [|lia]. pose proof (G (S i) k ltac:(lia)). Lqa.lra. }
  destruct E as [-> | ->]; field; Lqa.lra.
Qed.
(* order *)
Lemma interp_mono xs ys v w a b : growing xs -> growing ys -> List.length ys = List.length xs -> (2 <= List.length xs)%nat -> v < w ->
  interp false xs ys v = Some a -> interp false xs ys w = Some b -> a < b.
Proof.
  intros G G' Ly L H Ea Eb. destruct (piece xs ys v G L) as (i & A1 & B1 & C1 & D1). destruct (piece xs ys w G L) as (j & A2 & B2 & C2 & D2).
  rewrite B1 in Ea. injection Ea as <-. rewrite B2 in Eb. injection Eb as <-.
  assert (S1 : 0 < (nth (S i) ys 0 - nth i ys 0) / (nth (S i) xs 0 - nth i xs 0)).
  { pose proof (G i (S i) ltac:(lia)). pose proof (G' i (S i) ltac:(lia)). apply Qlt_shift_div_l; Lqa.lra. }
  assert (S2 : 0 < (nth (S j) ys 0 - nth j ys 0) / (nth (S j) xs 0 - nth j xs 0)).
  { pose proof (G j (S j) ltac:(lia)). pose proof (G' j (S j) ltac:(lia)). apply Qlt_shift_div_l; Lqa.lra. }
  assert (I : (i <= j)%nat).
  { destruct (Nat.le_gt_cases i j) as [K|K]; [exact K|]. exfalso. destruct C2 as [C2|C2]; [|lia]. destruct D1 as [D1|D1]; [|lia].
    pose proof (growing_le xs (S j) i G ltac:(lia)). Lqa.lra. }
  destruct (Nat.eq_dec i j) as [->|N].
  - set (s := (nth (S j) ys 0 - nth j ys 0) / (nth (S j) xs 0 - nth j xs 0)) in *. assert (0 < s * (w - v)) by (apply Qmult_lt_0_compat; Lqa.lra). Lqa.lra.
  - destruct C1 as [C1|C1]; [|lia]. destruct D2 as [D2|D2]; [|lia].
    assert (U : (nth (S i) ys 0 - nth i ys 0) / (nth (S i) xs 0 - nth i xs 0) * (v - nth i xs 0) + nth i ys 0 <= nth (S i) ys 0).
    { setoid_replace (nth (S i) ys 0) with ((nth (S i) ys 0 - nth i ys 0) / (nth (S i) xs 0 - nth i xs 0) * (nth (S i) xs 0 - nth i xs 0) + nth i ys 0) at 2
        by (field; pose proof (G i (S i) ltac:(lia)); Lqa.lra).
      set (s := (nth (S i) ys 0 - nth i ys 0) / (nth (S i) xs 0 - nth i xs 0)) in *. assert (0 <= s * (nth (S i) xs 0 - v)) by (apply Qmult_le_0_compat; Lqa.lra). Lqa.lra. }
    assert (V : nth j ys 0 < (nth (S j) ys 0 - nth j ys 0) / (nth (S j) xs 0 - nth j xs 0) * (w - nth j xs 0) + nth j ys 0).
    { set (s := (nth (S j) ys 0 - nth j ys 0) / (nth (S j) xs 0 - nth j xs 0)) in *. assert (0 < s * (w - nth j xs 0)) by (apply Qmult_lt_0_compat; Lqa.lra). Lqa.lra. }
    pose proof (growing_le ys (S i) j G' ltac:(lia)). Lqa.lra.
Qed.
(* the table *)
Lemma even_nth a b n k : (0 < n)%nat -> (k <= n)%nat -> nth k (even_edges a b n) 0 = a + inject_Z (Z.of_nat k) * ((b - a) / inject_Z (Z.of_nat n)).
Proof.
  intros H K. unfold even_edges. destruct n as [|n]; [lia|].
  erewrite nth_indep by (rewrite map_length, seq_length; lia). rewrite (map_nth (fun i => a + inject_Z (Z.of_nat i) * ((b - a) / inject_Z (Z.of_nat (S n)))) _ 0%nat).
  rewrite seq_nth by lia. reflexivity.
Qed.
Lemma even_len a b n : List.length (even_edges a b n) = S n.
Proof. unfold even_edges. destruct n; [reflexivity|]. now rewrite map_length, seq_length. Qed.
Lemma even_growing a b n : (0 < n)%nat -> a < b -> growing (even_edges a b n).
Proof.
  intros H K i j [I J]. rewrite even_len in J. rewrite !even_nth by lia.
  assert (0 < (b - a) / inject_Z (Z.of_nat n)). { apply Qlt_shift_div_l; [unfold Qlt; cbn; lia|Lqa.lra]. }
  assert (inject_Z (Z.of_nat i) < inject_Z (Z.of_nat j)) by (rewrite <- Zlt_Qlt; lia).
  set (s := (b - a) / inject_Z (Z.of_nat n)) in *. assert (0 < (inject_Z (Z.of_nat j) - inject_Z (Z.of_nat i)) * s) by (apply Qmult_lt_0_compat; Lqa.lra). Lqa.lra.
Qed.
Lemma table_nth delay a b n k : (k < n)%nat -> nth k (snd (orbit_table delay a b n)) 0 == nth k (fst (orbit_table delay a b n)) 0 - delay (nth k (fst (orbit_table delay a b n)) 0) / 86400.
Proof.
  intros H. unfold orbit_table. cbn [fst snd]. rewrite (nth_indep _ 0 (0 - delay 0 / 86400)) by (rewrite map_length, even_len; lia).
  rewrite (map_nth (fun m => m - delay m / 86400)). reflexivity.
Qed.
Lemma table_len delay a b n : (0 < n)%nat -> List.length (fst (orbit_table delay a b n)) = n /\ List.length (snd (orbit_table delay a b n)) = n.
Proof. intros H. unfold orbit_table. cbn [fst snd]. rewrite map_length, even_len. lia. Qed.
Lemma correct_ok delay a b n mjds : (2 <= n)%nat -> a < b ->
  exists l w, correction_mjd (orbit_table delay a b n) mjds = Ok (l, w) /\
  l = map (interp false (fst (orbit_table delay a b n)) (snd (orbit_table delay a b n))) mjds /\
  (w = None <-> forall m, In m mjds -> a <= m <= b) /\ (forall p m, w = Some p -> In m mjds -> m < a \/ b < m -> In m p).
Proof.
  intros N H. unfold correction_mjd. destruct (table_len delay a b n ltac:(lia)) as [L1 L2].
  assert (G0 : get (fst (orbit_table delay a b n)) 0 = Ok (nth 0 (fst (orbit_table delay a b n)) 0)) by (unfold get; rewrite (nth_error_nth' _ 0) by lia; reflexivity).
  rewrite G0. cbn [bind].
  assert (G1 : get_last (fst (orbit_table delay a b n)) = Ok (nth (n - 1) (fst (orbit_table delay a b n)) 0)).
  { unfold get_last. rewrite <- (rev_involutive (fst (orbit_table delay a b n))) at 2. pose proof (rev_length (fst (orbit_table delay a b n))) as R. rewrite L1 in R.
    destruct (rev (fst (orbit_table delay a b n))) as [|x r] eqn:E; [cbn in R; lia|]. cbn [rev]. rewrite app_nth2; rewrite rev_length; cbn in R; [|lia].
    replace (n - 1 - List.length r)%nat with 0%nat by lia. reflexivity. }
  rewrite G1. cbn [bind]. set (x0 := nth 0 _ 0). set (x1 := nth (n - 1) _ 0).
  assert (X0 : x0 == a). { unfold x0, orbit_table. cbn [fst]. rewrite even_nth by lia. cbn [Z.of_nat]. change (inject_Z 0) with 0. ring. }
  assert (X1 : x1 == b). { unfold x1, orbit_table. cbn [fst]. rewrite even_nth by lia. field. unfold Qeq. cbn. lia. }
  do 2 eexists. split; [reflexivity|]. split; [reflexivity|].
  set (above := existsb (fun m => qlt x1 m) mjds). set (bad := map (fun m => (qlt m x0 || above)%bool) mjds).
  assert (B : existsb (fun b => b) bad = true <-> exists m, In m mjds /\ (m < a \/ b < m)).
  { unfold bad. rewrite existsb_exists. split.
    - intros (f & Hf & ->). apply in_map_iff in Hf. destruct Hf as (m & E & Hm). apply orb_true_iff in E. destruct E as [E|E].
      + apply qlt_t in E. exists m. split; [exact Hm|left; Lqa.lra].
      + unfold above in E. apply existsb_exists in E. destruct E as (m' & Hm' & E). apply qlt_t in E. exists m'. split; [exact Hm'|right; Lqa.lra].
    - intros (m & Hm & [C|C]).
      + exists true. split; [|reflexivity]. apply in_map_iff. exists m. split; [|exact Hm]. rewrite (proj2 (qlt_t m x0)); [reflexivity|Lqa.lra].
      + exists true. split; [|reflexivity]. apply in_map_iff. exists m. split; [|exact Hm]. assert (above = true) as ->; [|apply orb_true_r].
        unfold above. apply existsb_exists. exists m. split; [exact Hm|]. apply qlt_t. Lqa.lra. }
  split.
  - destruct (existsb (fun b => b) bad) eqn:E.
    + split; [discriminate|]. intros K. destruct (proj1 B eq_refl) as (m & Hm & C). specialize (K m Hm). exfalso. destruct C; Lqa.lra.
    + split; [intros _ m Hm|reflexivity]. split.
      * destruct (Qlt_le_dec m a) as [C|C]; [|exact C]. assert (false = true) by (apply B; exists m; split; [exact Hm|now left]). discriminate.
      * destruct (Qlt_le_dec b m) as [C|C]; [|exact C]. assert (false = true) by (apply B; exists m; split; [exact Hm|now right]). discriminate.
  - intros p m E Hm C. destruct (existsb (fun b => b) bad); [|discriminate]. injection E as <-.
    assert (F : (qlt m x0 || above)%bool = true).
    { destruct C as [C|C]; [rewrite (proj2 (qlt_t m x0)); [reflexivity|Lqa.lra]|]. assert (above = true) as ->; [|apply orb_true_r].
      unfold above. apply existsb_exists. exists m. split; [exact Hm|]. apply qlt_t. Lqa.lra. }
    unfold bad. set (f := fun m => (qlt m x0 || above)%bool). change (f m = true) in F. clearbody f. clear - F Hm. revert Hm. induction mjds as [|x l IH]; [intros []|].
    intros [->|H]; cbn [map select]; [rewrite F; now left|]. destruct (f x); [right|]; now apply IH.
Qed.
Lemma sec_ok delay a b n times mjdref : (2 <= n)%nat -> a < b -> exists l,
  correction_sec (orbit_table delay a b n) times mjdref = Ok l /\
  l = map (fun t => option_map (fun d => (d - mjdref) * 86400) (interp false (fst (orbit_table delay a b n)) (snd (orbit_table delay a b n)) (t / 86400 + mjdref))) times.
Proof.
  intros N H. unfold correction_sec. destruct (correct_ok delay a b n (map (fun t => t / 86400 + mjdref) times) N H) as (l & w & -> & -> & _). cbn [bind fst].
  eexists. split; [reflexivity|]. now rewrite !map_map.
Qed.
(* at the times of the table the delay is subtracted *)
Lemma mjd_table delay a b n k m : (2 <= n)%nat -> a < b -> (k < n)%nat -> m = nth k (fst (orbit_table delay a b n)) 0 ->
  exists y, interp false (fst (orbit_table delay a b n)) (snd (orbit_table delay a b n)) m = Some y /\ (y - m) * 86400 == - delay m.
Proof.
  intros N H K ->. destruct (table_len delay a b n ltac:(lia)) as [L1 L2].
  assert (G : growing (fst (orbit_table delay a b n))) by (unfold orbit_table; cbn [fst]; apply even_growing; [lia|exact H]).
  destruct (interp_knot (fst (orbit_table delay a b n)) (snd (orbit_table delay a b n)) k G ltac:(lia) ltac:(lia)) as (y & E & Y). exists y. split; [exact E|].
  rewrite Y, (table_nth delay a b n k K). field.
Qed.
(* anywhere: the correction is on the straight line between two delays *)
Lemma mjd_between delay a b n m : (2 <= n)%nat -> a < b -> exists k y x0 x1, (S k < n)%nat /\
  x0 = nth k (fst (orbit_table delay a b n)) 0 /\ x1 = nth (S k) (fst (orbit_table delay a b n)) 0 /\ x0 < x1 /\
  (m <= x1 \/ S (S k) = n) /\ (x0 < m \/ k = 0%nat) /\
  interp false (fst (orbit_table delay a b n)) (snd (orbit_table delay a b n)) m = Some y /\ on_line x0 (delay x0) x1 (delay x1) m ((m - y) * 86400).
Proof.
  intros N H. destruct (table_len delay a b n ltac:(lia)) as [L1 L2].
  assert (G : growing (fst (orbit_table delay a b n))) by (unfold orbit_table; cbn [fst]; apply even_growing; [lia|exact H]).
  destruct (interp_line (fst (orbit_table delay a b n)) (snd (orbit_table delay a b n)) m G ltac:(lia)) as (k & y & A & B & C & D & E). rewrite L1 in A, D.
  exists k, y. do 2 eexists. split; [exact A|]. split; [reflexivity|]. split; [reflexivity|]. split; [apply G; lia|]. split; [exact D|]. split; [exact E|]. split; [exact B|].
  unfold on_line in *. rewrite (table_nth delay a b n k ltac:(lia)), (table_nth delay a b n (S k) A) in C.
  set (x0 := nth k _ 0) in *. set (x1 := nth (S k) _ 0) in *. set (d0 := delay x0) in *. set (d1 := delay x1) in *.
  assert (C' : (y - (x0 - d0 / 86400)) * (x1 - x0) * 86400 == (x1 - d1 / 86400 - (x0 - d0 / 86400)) * (m - x0) * 86400) by (rewrite C; reflexivity).
  setoid_replace ((y - (x0 - d0 / 86400)) * (x1 - x0) * 86400) with ((y * 86400 - x0 * 86400 + d0) * (x1 - x0)) in C' by field.
  setoid_replace ((x1 - d1 / 86400 - (x0 - d0 / 86400)) * (m - x0) * 86400) with ((x1 * 86400 - d1 - x0 * 86400 + d0) * (m - x0)) in C' by field.
  setoid_replace (((m - y) * 86400 - d0) * (x1 - x0)) with ((m * 86400 - x0 * 86400) * (x1 - x0) - (y * 86400 - x0 * 86400 + d0) * (x1 - x0)) by ring.
  rewrite C'. ring.
Qed.
(* a correction that does not reverse the table does not reverse any two events *)
Lemma mjd_order delay a b n v w p q : (2 <= n)%nat -> a < b -> growing (snd (orbit_table delay a b n)) -> v < w ->
  interp false (fst (orbit_table delay a b n)) (snd (orbit_table delay a b n)) v = Some p ->
  interp false (fst (orbit_table delay a b n)) (snd (orbit_table delay a b n)) w = Some q -> p < q.
Proof.
  intros N H G' V Ep Eq. destruct (table_len delay a b n ltac:(lia)) as [L1 L2].
  apply (interp_mono (fst (orbit_table delay a b n)) (snd (orbit_table delay a b n)) v w); try assumption; try lia. unfold orbit_table. cbn [fst]. apply even_growing; [lia|exact H].
Qed.
Lemma one_time delay a b mjds : correction_mjd (orbit_table delay a b 1) mjds = Ok (map (fun _ => None) mjds, snd (match correction_mjd (orbit_table delay a b 1) mjds with Ok r => r | Err _ => ([], None) end)).
Proof. cbn. f_equal. f_equal. apply map_ext. intros m. unfold interp. cbn [List.length Nat.sub]. rewrite Nat.min_0_r. cbn [nth Nat.sub]. unfold qeq. rewrite (proj2 (Qeq_bool_iff a a)); reflexivity. Qed.

(* choice of the method *)
Lemma simulate_one a : simulate_with [a] = Ok (match a with AInt | AFloat => PowerLaw | AModel => Model | _ => PowerSpectrum end, 1%nat).
Proof. destruct a; reflexivity. Qed.
Lemma simulate_two a b : simulate_with [a; b] = Ok (match a with AText => ModelString | _ => ImpulseResponse end, 2%nat).
Proof. destruct a; reflexivity. Qed.
Lemma simulate_three a b d : simulate_with [a; b; d] = Ok (ImpulseResponse, 3%nat).
Proof. destruct a; reflexivity. Qed.
Lemma simulate_more args : (4 <= List.length args)%nat -> simulate_with args = Err ValueError.
Proof. destruct args as [|a [|b [|d [|e args]]]]; cbn [List.length]; try lia. intros _. destruct a; reflexivity. Qed.
Lemma simulate_none : simulate_with [] = Err IndexError.
Proof. reflexivity. Qed.
Lemma freq_ok r n dt k f : 0 < dt -> nth_error (simfreq r n dt) k = Some f ->
  f * (inject_Z (Z.of_nat (r * n)) * dt) == inject_Z (Z.of_nat (S k)) /\ 0 < f /\ f <= 1 / (2 * dt).
Proof.
  intros H E. unfold simfreq in E. rewrite nth_error_map in E. destruct (nth_error (seq 1 (r * n / 2)) k) as [j|] eqn:Ej; [|discriminate]. cbn [option_map] in E. injection E as <-.
  assert (L : (k < r * n / 2)%nat) by (rewrite <- (seq_length (r * n / 2) 1); apply nth_error_Some; congruence).
  assert (j = S k). { apply (nth_error_nth _ _ 0%nat) in Ej. rewrite seq_nth in Ej by exact L. lia. } subst j.
  pose proof (Nat.mul_div_le (r * n) 2 ltac:(lia)) as M. set (N := (r * n)%nat) in *.
  assert (P : 0 < inject_Z (Z.of_nat N)) by (unfold Qlt; cbn; lia). assert (P2 : 0 < inject_Z (Z.of_nat N) * dt) by (apply Qmult_lt_0_compat; assumption).
  split; [field; split; Lqa.lra|]. split; [apply Qlt_shift_div_l; [exact P2|]; rewrite Qmult_0_l; unfold Qlt; cbn; lia|].
  apply Qle_shift_div_r; [exact P2|]. setoid_replace (1 / (2 * dt) * (inject_Z (Z.of_nat N) * dt)) with (inject_Z (Z.of_nat N) / 2) by (field; Lqa.lra).
  apply Qle_shift_div_l; [reflexivity|]. change 2 with (inject_Z 2). rewrite <- inject_Z_mult, <- Zle_Qle. lia.
Qed.
Lemma freq_len r n dt : List.length (simfreq r n dt) = (r * n / 2)%nat.
Proof. unfold simfreq. now rewrite map_length, seq_length. Qed.
Lemma string_ok P D names call build freq model (p : params P D) : model_string names call build freq model p =
  match p with PList l => if in_dec string_dec model names then call model freq l else Err ValueError
             | PDict d => if in_dec string_dec model names then build model d freq else Err ValueError
             | POther => Err ValueError end.
Proof.
  unfold model_string. destruct (existsb (String.eqb model) names) eqn:E; destruct (in_dec string_dec model names) as [I|I]; cbn [negb]; try (destruct p; reflexivity).
  - exfalso. apply I. apply existsb_exists in E. destruct E as (x & Hx & E). apply String.eqb_eq in E. now subst.
  - exfalso. assert (existsb (String.eqb model) names = true) by (apply existsb_exists; exists model; split; [exact I|apply String.eqb_refl]). congruence.
Qed.
