(* P_sim2.v: bins, order and times of the values drawn from a histogram. *)
From Verif Require Import Np Lib M_gti M_seg M_utils S_gti S_seg P_helpers P_seg_cut P_seg_regions T_seg M_sim S_sim P_sim.
From Coq Require Import ZArith QArith Qfield List Bool Arith Lia Lqa Permutation Sorting.Sorted.
Import ListNotations.
Open Scope Q_scope.

Lemma nondec_le l i j x y : nondecreasing l -> (i <= j)%nat -> nth_error l i = Some x -> nth_error l j = Some y -> x <= y.
Proof. intros N H Ex Ey. destruct (Nat.eq_dec i j) as [->|]; [rewrite Ex in Ey; injection Ey as <-; lra|]. apply (N i j x y); [lia|assumption|assumption]. Qed.
Lemma inc_nondec l : increasing l -> nondecreasing l.
Proof. intros I i j x y H Ex Ey. apply Qlt_le_weak. exact (I i j x y H Ex Ey). Qed.
Lemma pos_of_mul x y : 0 < x * y -> 0 < y -> 0 < x.
Proof. intros H Y. apply (Qmult_lt_r _ _ y Y). lra. Qed.
(* The value lies in its bin. *)
Lemma quantile_in pdf edges u v : nondecreasing edges -> quantile pdf edges u v ->
  exists i p a b, nth_error pdf i = Some p /\ nth_error edges i = Some a /\ nth_error edges (S i) = Some b /\ 0 < p /\ area pdf i <= u * whole pdf /\ u * whole pdf <= area pdf (S i) /\
    (v - a) * p == (u * whole pdf - area pdf i) * (b - a) /\ a <= v /\ v <= b /\ area pdf (S i) == area pdf i + p.
Proof.
  intros N (i & p & a & b & Ep & Ea & Eb & P & H1 & H2 & E). pose proof (N i (S i) a b ltac:(lia) Ea Eb) as Hab. pose proof (area_S _ _ _ Ep) as AS.
  exists i, p, a, b. do 7 (split; [assumption|]).
  assert (X1 : 0 <= (v - a) * p) by (rewrite E; apply Qmult_le_0_compat; lra).
  assert (X2 : (v - a) * p <= (b - a) * p) by (rewrite E, (Qmult_comm (b - a) p); apply Qmult_le_compat_r; lra).
  split; [|split; [|exact AS]].
  - apply (Qmult_le_r _ _ p P). lra.
  - apply (Qmult_le_r _ _ p P). lra.
Qed.
Theorem quantile_range pdf edges u v first last : nondecreasing edges -> quantile pdf edges u v -> nth_error edges 0 = Some first -> nth_error edges (length edges - 1) = Some last -> first <= v /\ v <= last.
Proof.
  intros N Q E0 E1. destruct (quantile_in _ _ _ _ N Q) as (i & p & a & b & Ep & Ea & Eb & _ & _ & _ & _ & H1 & H2 & _).
  pose proof (nondec_le _ _ _ _ _ N (Nat.le_0_l i) E0 Ea). assert (S i < length edges)%nat by (apply nth_error_Some; congruence).
  pose proof (nondec_le edges (S i) (length edges - 1) _ _ N ltac:(lia) Eb E1). split; lra.
Qed.
Theorem quantile_bin pdf edges u v k a b : Forall (Qle 0) pdf -> increasing edges -> quantile pdf edges u v -> nth_error edges k = Some a -> nth_error edges (S k) = Some b ->
  (a < v /\ v < b <-> area pdf k < u * whole pdf /\ u * whole pdf < area pdf (S k)).
Proof.
  intros F I Q Ea Eb. pose proof (inc_nondec _ I) as N. destruct (quantile_in _ _ _ _ N Q) as (i & p & a' & b' & Ep & Ea' & Eb' & P & H1 & H2 & E & H3 & H4 & AS).
  destruct (lt_eq_lt_dec i k) as [[C|C]|C].
  - pose proof (nondec_le _ _ _ _ _ N C Eb' Ea). pose proof (area_mono pdf F (S i) k C). split; lra.
  - subst i. rewrite Ea in Ea'. rewrite Eb in Eb'. injection Ea' as <-. injection Eb' as <-. pose proof (I k (S k) a b ltac:(lia) Ea Eb) as Hab. split.
    + intros [C1 C2]. assert (0 < (v - a) * p) by (apply Qmult_lt_0_compat; lra). rewrite E in H.
      assert ((v - a) * p < (b - a) * p) by (apply (Qmult_lt_r _ _ p P); lra). rewrite E in H0.
      assert (Z : 0 < u * whole pdf - area pdf k) by (apply (pos_of_mul _ (b - a)); lra). assert (X : 0 < (p - (u * whole pdf - area pdf k)) * (b - a)) by lra. assert (Z2 : 0 < p - (u * whole pdf - area pdf k)) by (apply (pos_of_mul _ (b - a)); lra). split; lra.
    + intros [C1 C2]. assert (0 < (u * whole pdf - area pdf k) * (b - a)) by (apply Qmult_lt_0_compat; lra). rewrite <- E in H.
      assert (0 < (area pdf (S k) - u * whole pdf) * (b - a)) by (apply Qmult_lt_0_compat; lra).
      split; [assert (0 < v - a) by (apply (pos_of_mul _ p); lra); lra|]. apply (Qmult_lt_r _ _ p P). rewrite AS in H0. lra.
  - pose proof (nondec_le _ _ _ _ _ N C Eb Ea'). pose proof (area_mono pdf F (S k) i C). split; lra.
Qed.
Theorem empty_bin pdf edges u v k a b : Forall (Qle 0) pdf -> increasing edges -> quantile pdf edges u v -> nth_error pdf k = Some 0 -> nth_error edges k = Some a -> nth_error edges (S k) = Some b -> ~ (a < v /\ v < b).
Proof. intros F I Q E0 Ea Eb C. apply (quantile_bin pdf edges u v k a b F I Q Ea Eb) in C. pose proof (area_S _ _ _ E0). lra. Qed.
Lemma quantile_lt pdf edges u v u' v' : Forall (Qle 0) pdf -> 0 < whole pdf -> nondecreasing edges -> quantile pdf edges u v -> quantile pdf edges u' v' -> u < u' -> v <= v'.
Proof.
  intros F W N Q Q' L. destruct (quantile_in _ _ _ _ N Q) as (i & p & a & b & Ep & Ea & Eb & P & H1 & H2 & E & H3 & H4 & AS).
  destruct (quantile_in _ _ _ _ N Q') as (i' & p' & a' & b' & Ep' & Ea' & Eb' & P' & H1' & H2' & E' & H3' & H4' & AS').
  assert (U : u * whole pdf < u' * whole pdf) by (apply Qmult_lt_r; assumption).
  destruct (lt_eq_lt_dec i i') as [[C|C]|C].
  - pose proof (nondec_le _ _ _ _ _ N C Eb Ea'). lra.
  - subst i'. rewrite Ep in Ep'. rewrite Ea in Ea'. rewrite Eb in Eb'. injection Ep' as <-. injection Ea' as <-. injection Eb' as <-.
    apply (Qmult_le_r _ _ p P). assert ((u * whole pdf - area pdf i) * (b - a) <= (u' * whole pdf - area pdf i) * (b - a)) by (apply Qmult_le_compat_r; lra). nra.
  - pose proof (area_mono pdf F (S i') i C). lra.
Qed.
Lemma qlt_eq x v v' : v == v' -> qlt x v = qlt x v'.
Proof. intros E. destruct (qlt x v) eqn:A, (qlt x v') eqn:B; try reflexivity; [apply qlt_t in A; apply qlt_f in B|apply qlt_f in A; apply qlt_t in B]; exfalso; lra. Qed.
Lemma qle_eq x v v' : v == v' -> qle x v = qle x v'.
Proof. intros E. destruct (qle x v) eqn:A, (qle x v') eqn:B; try reflexivity; [apply qle_t in A; apply qle_f in B|apply qle_f in A; apply qle_t in B]; exfalso; lra. Qed.
Lemma interp_proper right xs ys v v' r r' : v == v' -> interp right xs ys v = Some r -> interp right xs ys v' = Some r' -> r == r'.
Proof.
  intros E. unfold interp.
  assert (EL : searchsorted_left xs v = searchsorted_left xs v') by (clear - E; induction xs as [|x xs IH]; [reflexivity|]; cbn [searchsorted_left]; rewrite (qlt_eq x v v' E), IH; reflexivity).
  assert (ER : searchsorted_right xs v = searchsorted_right xs v') by (clear - E; induction xs as [|x xs IH]; [reflexivity|]; cbn [searchsorted_right]; rewrite (qle_eq x v v' E), IH; reflexivity).
  rewrite EL, ER. destruct (qeq _ _); [discriminate|]. intros [= <-] [= <-]. rewrite E. reflexivity.
Qed.
Lemma qle_scale a w x y : 0 < w -> qle (a + w * x) (a + w * y) = qle x y.
Proof. intros W. destruct (qle (a + w * x) (a + w * y)) eqn:A, (qle x y) eqn:B; try reflexivity; [apply qle_t in A; apply qle_f in B|apply qle_f in A; apply qle_t in B]; exfalso; nra. Qed.
Lemma np_sort_scale a w us : 0 < w -> np_sort (map (fun u => a + w * u) us) = map (fun u => a + w * u) (np_sort us).
Proof.
  intros W. unfold np_sort, isort_by. induction us as [|u us IH]; [reflexivity|]. cbn [map fold_right]. rewrite IH. generalize (fold_right (insert_by (fun x : Q => x)) [] us). intros l.
  induction l as [|y l IHl]; [reflexivity|]. cbn [map insert_by]. rewrite (qle_scale a w u y W). destruct (qle u y); [reflexivity|]. cbn [map]. now rewrite IHl.
Qed.
Theorem sorted_values right pdf us rng edges vals : Forall (Qle 0) pdf -> 0 < whole pdf -> (2 <= length pdf)%nat -> length edges = S (length pdf) -> drawn right us -> nondecreasing edges ->
  simulate_with_inverse_cdf right pdf us rng true (Some edges) = Ok (map Some vals) -> nondecreasing vals.
Proof.
  intros F W L Le D N E. destruct (histogram_values right pdf us rng true edges F W L Le D) as (ps & vals' & E' & -> & Q). rewrite E in E'. injection E' as E'.
  assert (vals' = vals) as ->. { clear - E'. revert vals' E'. induction vals as [|x l IH]; intros [|y l'] E; try discriminate; [reflexivity|]. injection E as <- E. f_equal. auto. }
  clear E'. unfold simulate_with_inverse_cdf in E. rewrite (no_negative pdf F) in E. destruct (Nat.eqb_spec (length pdf) 1) as [|_]; [lia|].
  destruct (negb _); [discriminate|]. destruct (get_last _) as [T|]; [|discriminate]. cbn [bind] in E. destruct (qeq T 0) eqn:ET.
  - assert (vals = []) as -> by (destruct (np_sort us); [injection E; destruct vals; [reflexivity|discriminate]|destruct vals; [discriminate E|discriminate E]]). intros [|i] j x y _ X; discriminate.
  - injection E as E. intros i j x y Hij Ex Ey.
    assert (G : forall k z, nth_error vals k = Some z -> exists u, nth_error (np_sort us) k = Some u /\ interp right (map (fun c => c / T) (qcumsum 0 (0 :: pdf))) edges u = Some z /\ quantile pdf edges u z).
    { intros k z Ez. assert (X : nth_error (map Some vals) k = Some (Some z)) by (rewrite nth_error_map, Ez; reflexivity). rewrite <- E, nth_error_map in X. destruct (nth_error (np_sort us) k) as [u|] eqn:Eu; [|discriminate]. exists u. split; [reflexivity|]. injection X as X. split; [exact X|].
      clear - Q Eu Ez. revert k Eu Ez. induction Q as [|u' v' us' vs' H Q IH]; intros [|k] Eu Ez; try discriminate; cbn [nth_error] in *; [injection Eu as <-; injection Ez as <-; exact H|]. exact (IH _ Eu Ez). }
    destruct (G _ _ Ex) as (u & Eu & Iu & Qu). destruct (G _ _ Ey) as (w & Ew & Iw & Qw).
    pose proof (np_sort_nondec us i j u w Hij Eu Ew) as Huw. destruct (Qlt_le_dec u w) as [C|C]; [exact (quantile_lt _ _ _ _ _ _ F W N Qu Qw C)|].
    rewrite (interp_proper right _ edges u w x y ltac:(lra) Iu Iw). lra.
Qed.
