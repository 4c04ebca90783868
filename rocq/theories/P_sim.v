(* P_sim.v: random values drawn from a histogram. *)
From Verif Require Import Np Lib M_gti M_seg M_utils S_gti S_seg P_helpers P_seg_cut M_sim S_sim.
From Coq Require Import ZArith QArith Qfield List Bool Arith Lia Lqa Permutation Sorting.Sorted.
Import ListNotations.
Open Scope Q_scope.

Lemma area_0 l : area l 0 = 0. Proof. destruct l; reflexivity. Qed.
Lemma area_S l : forall i p, nth_error l i = Some p -> area l (S i) == area l i + p.
Proof.
  induction l as [|a l IH]; intros [|i] p E; try discriminate; cbn [nth_error] in E.
  - injection E as <-. cbn [area]. rewrite !area_0. ring.
  - cbn [area] in *. rewrite (IH _ _ E). ring.
Qed.
Lemma area_over l : forall k, (length l <= k)%nat -> area l k = whole l.
Proof.
  induction l as [|a l IH]; intros k H; [destruct k; reflexivity|]. destruct k; cbn [length] in H; [lia|]. unfold whole. cbn [length area]. rewrite (IH k) by lia. reflexivity.
Qed.
Lemma area_mono l : Forall (Qle 0) l -> forall i j, (i <= j)%nat -> area l i <= area l j.
Proof.
  induction l as [|a l IH]; intros F i j H; [destruct i, j; cbn; lra|]. inversion F as [|? ? Ha F']; subst.
  destruct i as [|i], j as [|j]; cbn [area]; try lia; try lra.
  - specialize (IH F' 0%nat j ltac:(lia)). rewrite area_0 in IH. lra.
  - specialize (IH F' i j ltac:(lia)). lra.
Qed.
Lemma cumsum_len l : forall acc, length (qcumsum acc l) = length l.
Proof. induction l; intros; cbn [qcumsum length]; auto. Qed.
Lemma cumsum_nth l : forall acc k x, nth_error (qcumsum acc l) k = Some x -> x == acc + area l (S k).
Proof.
  induction l as [|a l IH]; intros acc [|k] x E; try discriminate; cbn [qcumsum nth_error] in E.
  - injection E as <-. cbn [area]. rewrite area_0. ring.
  - rewrite (IH _ _ _ E). change (area (a :: l) (S (S k))) with (a + area l (S k)). ring.
Qed.
Lemma get_last_at (l : list Q) x : get_last l = Ok x -> nth_error l (length l - 1) = Some x.
Proof.
  unfold get_last. destruct (rev l) as [|a r] eqn:E; [discriminate|]. intros [= <-]. assert (l = rev r ++ [a]) as -> by (rewrite <- (rev_involutive l), E; reflexivity).
  rewrite app_length. cbn [length]. rewrite nth_error_app2 by lia. replace (length (rev r) + 1 - 1 - length (rev r))%nat with 0%nat by lia. reflexivity.
Qed.
Lemma get_last_some {A} (l : list A) : l <> [] -> exists x, get_last l = Ok x.
Proof. intros H. unfold get_last. destruct (rev l) as [|a r] eqn:E; [|eauto]. exfalso. apply H. rewrite <- (rev_involutive l), E. reflexivity. Qed.

(* Linear interpolation in a nondecreasing list that goes from 0 to 1. *)
Lemma interp_in right xs ys v : nondecreasing xs -> (2 <= length xs)%nat -> (forall x, nth_error xs 0 = Some x -> x == 0) -> (forall x, nth_error xs (length xs - 1) = Some x -> x == 1) ->
  0 <= v -> v < 1 -> right = true \/ 0 < v ->
  exists i a b, (S i < length xs)%nat /\ nth_error xs i = Some a /\ nth_error xs (S i) = Some b /\ a < b /\ a <= v /\ v <= b /\
    interp right xs ys v = Some ((nth (S i) ys 0 - nth i ys 0) / (b - a) * (v - a) + nth i ys 0).
Proof.
  intros S L X0 X1 V0 V1 R. set (k := if right then searchsorted_right xs v else searchsorted_left xs v).
  assert (G : forall i, (i < length xs)%nat -> nth_error xs i = Some (nth i xs 0)) by (intros; now apply nth_error_nth').
  assert (K : (1 <= k <= length xs - 1)%nat).
  { unfold k. destruct right.
    - destruct (ssr_spec xs v S) as [H1 H2]. split.
      + pose proof (proj2 (H1 0%nat _ (G 0%nat ltac:(lia))) ltac:(rewrite (X0 _ (G 0%nat ltac:(lia))); exact V0)). lia.
      + destruct (le_lt_dec (searchsorted_right xs v) (length xs - 1)) as [|C]; [assumption|]. apply (H1 _ _ (G (length xs - 1)%nat ltac:(lia))) in C. rewrite (X1 _ (G (length xs - 1)%nat ltac:(lia))) in C. lra.
    - destruct R as [R|R]; [discriminate|]. destruct (ssl_spec xs v S) as [H1 H2]. split.
      + pose proof (proj2 (H1 0%nat _ (G 0%nat ltac:(lia))) ltac:(rewrite (X0 _ (G 0%nat ltac:(lia))); exact R)). lia.
      + destruct (le_lt_dec (searchsorted_left xs v) (length xs - 1)) as [|C]; [assumption|]. apply (H1 _ _ (G (length xs - 1)%nat ltac:(lia))) in C. rewrite (X1 _ (G (length xs - 1)%nat ltac:(lia))) in C. lra. }
  assert (B : nth (k - 1) xs 0 <= v /\ v <= nth k xs 0 /\ nth (k - 1) xs 0 < nth k xs 0).
  { unfold k in *. destruct right.
    - destruct (ssr_spec xs v S) as [H1 H2]. pose proof (proj1 (H1 _ _ (G (searchsorted_right xs v - 1)%nat ltac:(lia))) ltac:(lia)).
      assert (v < nth (searchsorted_right xs v) xs 0) by (apply Qnot_le_lt; intros C; apply (H1 _ _ (G (searchsorted_right xs v) ltac:(lia))) in C; lia). repeat split; lra.
    - destruct (ssl_spec xs v S) as [H1 H2]. pose proof (proj1 (H1 _ _ (G (searchsorted_left xs v - 1)%nat ltac:(lia))) ltac:(lia)).
      assert (v <= nth (searchsorted_left xs v) xs 0) by (apply Qnot_lt_le; intros C; apply (H1 _ _ (G (searchsorted_left xs v) ltac:(lia))) in C; lia). repeat split; lra. }
  exists (k - 1)%nat, (nth (k - 1) xs 0), (nth k xs 0). replace (Datatypes.S (k - 1)) with k by lia.
  split; [lia|]. split; [apply G; lia|]. split; [apply G; lia|]. split; [apply B|]. split; [apply B|]. split; [apply B|].
  unfold interp. fold k. replace (Nat.min (Nat.max k 1) (length xs - 1)) with k by lia.
  destruct (qeq (nth (k - 1) xs 0) (nth k xs 0)) eqn:E; [|reflexivity]. apply Qeq_bool_eq in E. exfalso. lra.
Qed.

Lemma no_negative l : Forall (Qle 0) l -> existsb (fun p => qlt p 0) l = false.
Proof. induction 1 as [|a l H _ IH]; [reflexivity|]. cbn [existsb]. rewrite IH, Bool.orb_false_r. destruct (qlt a 0) eqn:E; [|reflexivity]. apply qlt_t in E. lra. Qed.
Lemma cdf_nth pdf k x : nth_error (qcumsum 0 (0 :: pdf)) k = Some x -> x == area pdf k.
Proof. intros E. apply cumsum_nth in E. rewrite E. change (area (0 :: pdf) (S k)) with (0 + area pdf k). ring. Qed.
Lemma value_quantile right pdf edges u T : Forall (Qle 0) pdf -> 0 < whole pdf -> T == whole pdf -> (2 <= length pdf)%nat -> length edges = S (length pdf) ->
  0 <= u -> u < 1 -> right = true \/ 0 < u ->
  exists v, interp right (map (fun c => c / T) (qcumsum 0 (0 :: pdf))) edges u = Some v /\ quantile pdf edges u v.
Proof.
  intros F W ET L Le U0 U1 R. set (cdf := qcumsum 0 (0 :: pdf)). set (xs := map (fun c => c / T) cdf).
  assert (TP : 0 < T) by lra.
  assert (Lc : length xs = S (length pdf)) by (unfold xs, cdf; rewrite map_length, cumsum_len; reflexivity).
  assert (N : forall k x, nth_error xs k = Some x -> x * T == area pdf k).
  { intros k x E. unfold xs in E. rewrite nth_error_map in E. destruct (nth_error cdf k) as [c|] eqn:Ec; [|discriminate]. injection E as <-. apply cdf_nth in Ec. rewrite <- Ec. field. lra. }
  assert (Sx : nondecreasing xs).
  { intros i j x y Hij Ex Ey. apply N in Ex. apply N in Ey. pose proof (area_mono pdf F i j ltac:(lia)). apply (Qmult_le_r _ _ T TP). lra. }
  destruct (interp_in right xs edges u Sx ltac:(lia)) as (i & a & b & Hi & Ea & Eb & Hab & H1 & H2 & E); auto.
  - intros x Ex. apply N in Ex. rewrite area_0 in Ex. apply (Qmult_inj_r _ _ T); [lra|]. rewrite Ex. ring.
  - intros x Ex. apply N in Ex. rewrite Lc in Ex. replace (S (length pdf) - 1)%nat with (length pdf) in Ex by lia. fold (whole pdf) in Ex. apply (Qmult_inj_r _ _ T); [lra|]. rewrite Ex. lra.
  - rewrite Lc in Hi. rewrite E. eexists. split; [reflexivity|].
    destruct (nth_error pdf i) as [p|] eqn:Ep; [|apply nth_error_None in Ep; lia].
    exists i, p, (nth i edges 0), (nth (S i) edges 0). pose proof (area_S _ _ _ Ep) as AS. pose proof (N _ _ Ea) as Na. pose proof (N _ _ Eb) as Nb.
    assert (Hp : (b - a) * T == p) by lra. assert (P : 0 < p) by nra.
    split; [assumption|]. split; [apply nth_error_nth'; lia|]. split; [apply nth_error_nth'; lia|]. split; [exact P|].
    split; [rewrite <- ET, <- Na; apply Qmult_le_compat_r; lra|]. split; [rewrite <- ET, <- Nb; apply Qmult_le_compat_r; lra|].
    rewrite <- Hp, <- ET, <- Na. field. lra.
Qed.
Lemma np_sort_perm us : Permutation (np_sort us) us. Proof. apply isort_by_perm. Qed.
Lemma np_sort_nondec us : nondecreasing (np_sort us).
Proof. exact (proj1 (ss_nth Qle _) (isort_by_sorted (fun x => x) us)). Qed.
Lemma draws_map right pdf edges T ps : Forall (Qle 0) pdf -> 0 < whole pdf -> T == whole pdf -> (2 <= length pdf)%nat -> length edges = S (length pdf) -> drawn right ps ->
  exists vals, map (interp right (map (fun c => c / T) (qcumsum 0 (0 :: pdf))) edges) ps = map Some vals /\ Forall2 (quantile pdf edges) ps vals.
Proof.
  intros F W ET L Le. induction ps as [|u ps IH]; intros D; [exists []; split; [reflexivity|constructor]|].
  destruct (D u ltac:(now left)) as (U0 & U1 & R). destruct (value_quantile right pdf edges u T F W ET L Le U0 U1 R) as (v & Ev & Q).
  destruct IH as (vals & Em & Fq); [intros w Hw; apply D; now right|]. exists (v :: vals). cbn [map]. rewrite Ev, Em. split; [reflexivity|constructor; assumption].
Qed.
Theorem histogram_values right pdf us rng (sorted : bool) edges : Forall (Qle 0) pdf -> 0 < whole pdf -> (2 <= length pdf)%nat -> length edges = S (length pdf) -> drawn right us ->
  exists ps vals, simulate_with_inverse_cdf right pdf us rng sorted (Some edges) = Ok (map Some vals) /\
    ps = (if sorted then np_sort us else us) /\ Forall2 (quantile pdf edges) ps vals.
Proof.
  intros F W L Le D. unfold simulate_with_inverse_cdf. rewrite (no_negative pdf F). destruct (Nat.eqb_spec (length pdf) 1) as [|_]; [lia|].
  rewrite cumsum_len. cbn [length]. rewrite Le, Nat.eqb_refl. cbn [negb].
  destruct (get_last_some (qcumsum 0 (0 :: pdf))) as (T & ET); [intros C; apply (f_equal (@length Q)) in C; rewrite cumsum_len in C; cbn in C; lia|].
  rewrite ET. cbn [bind]. apply get_last_at in ET. rewrite cumsum_len in ET. cbn [length] in ET. replace (S (length pdf) - 1)%nat with (length pdf) in ET by lia. apply cdf_nth in ET. fold (whole pdf) in ET.
  destruct (qeq T 0) eqn:E; [apply Qeq_bool_eq in E; lra|].
  destruct (draws_map right pdf edges T (if sorted then np_sort us else us) F W ET L Le) as (vals & Em & Fq).
  - intros u Hu. apply D. destruct sorted; [|assumption]. eapply Permutation_in; [apply np_sort_perm|exact Hu].
  - exists (if sorted then np_sort us else us), vals. rewrite Em. split; [reflexivity|]. split; [reflexivity|exact Fq].
Qed.
Lemma even_edges_equal a b n : (0 < n)%nat -> equal_bins a b n (even_edges a b n).
Proof.
  intros H. destruct n as [|n]; [lia|]. unfold even_edges. split; [now rewrite map_length, seq_length|]. intros i e E. rewrite nth_error_map in E.
  destruct (nth_error (seq 0 (S (S n))) i) as [k|] eqn:Ek; [|discriminate]. injection E as <-.
  assert (Hi : (i < S (S n))%nat) by (rewrite <- (seq_length (S (S n)) 0); apply nth_error_Some; congruence).
  rewrite (nth_error_nth' _ 0%nat) in Ek by (rewrite seq_length; lia). rewrite seq_nth in Ek by lia. injection Ek as <-. change (0 + i)%nat with i. change (Z.pos (Pos.of_succ_nat n)) with (Z.of_nat (S n)).
  assert (N : ~ inject_Z (Z.of_nat (S n)) == 0) by (change 0 with (inject_Z 0); rewrite inject_Z_injective; lia). generalize dependent (inject_Z (Z.of_nat (S n))). intros N HN. generalize (inject_Z (Z.of_nat i)). intros I. field. exact HN.
Qed.
Theorem range_values right pdf us a b (sorted : bool) : Forall (Qle 0) pdf -> 0 < whole pdf -> (2 <= length pdf)%nat -> drawn right us ->
  exists edges ps vals, equal_bins a b (length pdf) edges /\ simulate_with_inverse_cdf right pdf us (Some (a, b)) sorted None = Ok (map Some vals) /\
    ps = (if sorted then np_sort us else us) /\ Forall2 (quantile pdf edges) ps vals.
Proof.
  intros F W L D. pose proof (even_edges_equal a b (length pdf) ltac:(lia)) as E.
  destruct (histogram_values right pdf us (Some (a, b)) sorted (even_edges a b (length pdf)) F W L (proj1 E) D) as (ps & vals & H1 & H2 & H3).
  exists (even_edges a b (length pdf)), ps, vals. split; [exact E|]. split; [exact H1|]. split; assumption.
Qed.
Theorem unit_range right pdf us (sorted : bool) edges : simulate_with_inverse_cdf right pdf us None sorted edges = simulate_with_inverse_cdf right pdf us (Some (0, 1)) sorted edges.
Proof. reflexivity. Qed.
