(* P_espec.v: proofs about M_espec.v. *)
From Coq Require Import Reals Lra Lia.
From Verif Require Import Np M_espec S_espec.
Open Scope R_scope.

Lemma lin_nth a b n l i : (0 < n)%nat -> linspace a b (Z.of_nat n + 1) = Ok l -> (i <= n)%nat ->
  length l = S n /\ nth i l 0 = a + INR i * ((b - a) / INR n).
Proof.
  intros Hn H Hi. unfold linspace in H. rewrite (proj2 (Z.ltb_ge _ 0)) in H by lia.
  assert (IO : forall x y : list R, Ok x = Ok y -> x = y) by congruence. apply IO in H. subst l.
  replace (Z.to_nat (Z.of_nat n + 1)) with (S n) by lia. replace (S n - 1)%nat with n by lia.
  split; [now rewrite map_length, seq_length|].
  pose proof (lt_0_INR n Hn) as P.
  set (f := fun i => if (Nat.ltb 1 (S n) && Nat.eqb (i + 1) (S n))%bool then b
                      else if Nat.eqb n 0 then INR i * (b - a) + a else INR i * ((b - a) / INR n) + a).
  rewrite (nth_indep _ 0 (f 0%nat)) by (rewrite map_length, seq_length; lia).
  rewrite map_nth, seq_nth by lia. cbn [Nat.add]. unfold f.
  rewrite (proj2 (Nat.ltb_lt 1 (S n))) by lia. cbn [andb]. destruct (Nat.eqb_spec (i + 1) (S n)) as [E|N].
  - assert (i = n) by lia. subst i. field. lra.
  - rewrite (proj2 (Nat.eqb_neq n 0)) by lia. lra.
Qed.
Lemma lin_exists a b n : exists l, linspace a b (Z.of_nat n + 1) = Ok l.
Proof. unfold linspace. rewrite (proj2 (Z.ltb_ge _ 0)) by lia. now eexists. Qed.
Lemma spec_lin e0 e1 n : (0 < n)%nat ->
  exists l, decode_energy_specification true e0 e1 (Z.of_nat n) Lin = Ok l /\ equally_spaced n e0 e1 l /\ (e0 < e1 -> growing l).
Proof.
  intros Hn. unfold decode_energy_specification. cbn [negb]. destruct (lin_exists e0 e1 n) as (l & El). exists l. split; [exact El|].
  pose proof (fun i => lin_nth e0 e1 n l i Hn El) as N. pose proof (lt_0_INR n Hn) as P.
  destruct (N 0%nat ltac:(lia)) as [L _].
  split.
  - split; [exact L|]. split; [|split].
    + rewrite (proj2 (N 0%nat ltac:(lia))). cbn. lra.
    + rewrite (proj2 (N n ltac:(lia))). field. lra.
    + intros i Hi. rewrite (proj2 (N (S i) ltac:(lia))), (proj2 (N i ltac:(lia))), S_INR. lra.
  - intros E i j Hij. rewrite (proj2 (N i ltac:(lia))), (proj2 (N j ltac:(lia))).
    assert (Hd : 0 < (e1 - e0) / INR n) by (apply Rdiv_lt_0_compat; lra).
    assert (Hlt : INR i < INR j) by (apply lt_INR; lia). nra.
Qed.
Lemma ln10_pos : 0 < ln 10.
Proof. rewrite <- ln_1. apply ln_increasing; lra. Qed.
Lemma rpower_log10 x : 0 < x -> Rpower 10 (log10 x) = x.
Proof.
  intros H. unfold Rpower, log10. pose proof ln10_pos. replace (ln x / ln 10 * ln 10) with (ln x) by (field; lra). now apply exp_ln.
Qed.
Lemma spec_log e0 e1 n : (0 < n)%nat -> 0 < e0 -> 0 < e1 ->
  exists l, decode_energy_specification true e0 e1 (Z.of_nat n) Log = Ok l /\ equal_ratios n e0 e1 l /\ (e0 < e1 -> growing l).
Proof.
  intros Hn H0 H1. unfold decode_energy_specification, logspace. cbn [negb].
  destruct (lin_exists (log10 e0) (log10 e1) n) as (l & El). rewrite El. cbn [bind]. eexists. split; [reflexivity|].
  pose proof (fun i => lin_nth _ _ n l i Hn El) as N. pose proof (lt_0_INR n Hn) as P. pose proof ln10_pos as P10.
  destruct (N 0%nat ltac:(lia)) as [L _]. set (d := (log10 e1 - log10 e0) / INR n) in *.
  assert (M : forall i, (i <= n)%nat -> nth i (map (Rpower 10) l) 0 = Rpower 10 (log10 e0 + INR i * d)).
  { intros i Hi. rewrite (nth_indep _ 0 (Rpower 10 0)) by (rewrite map_length; lia). rewrite map_nth. now rewrite (proj2 (N i Hi)). }
  split.
  - split; [now rewrite map_length|]. split; [|split].
    + rewrite M by lia. cbn [INR]. rewrite Rmult_0_l, Rplus_0_r. now apply rpower_log10.
    + rewrite M by lia. replace (log10 e0 + INR n * d) with (log10 e1) by (unfold d; field; lra). now apply rpower_log10.
    + exists (Rpower 10 d). split; [apply exp_pos|]. split.
      * rewrite <- Rpower_pow by apply exp_pos. rewrite Rpower_mult. replace (d * INR n) with (log10 e1 + - log10 e0) by (unfold d; field; lra).
        rewrite Rpower_plus, Rpower_Ropp, !rpower_log10 by assumption. reflexivity.
      * intros i Hi. rewrite !M by lia. rewrite <- Rpower_plus. f_equal. rewrite S_INR. lra.
  - intros E i j Hij. rewrite map_length in Hij. rewrite !M by lia. unfold Rpower. apply exp_increasing.
    assert (Hd : 0 < d). { apply Rdiv_lt_0_compat; [|lra]. unfold log10. pose proof (ln_increasing e0 e1 H0 E).
      assert (0 < (ln e1 - ln e0) / ln 10) by (apply Rdiv_lt_0_compat; lra). lra. }
    assert (Hlt : INR i < INR j) by (apply lt_INR; lia). apply Rmult_lt_compat_r; [lra|]. nra.
Qed.
Lemma spec_error is_tuple e0 e1 n flag : is_tuple = false \/ flag = OtherFlag \/ (n < -1)%Z ->
  decode_energy_specification is_tuple e0 e1 n flag = Err ValueError.
Proof.
  intros H. unfold decode_energy_specification, logspace, linspace. destruct is_tuple; [|reflexivity]. cbn [negb].
  destruct H as [H|[ -> |H]]; [discriminate|reflexivity|]. rewrite (proj2 (Z.ltb_lt (n + 1) 0)) by lia. now destruct flag.
Qed.
(* the intervals between the edges: each pair of neighbours, in order *)
Lemma combine_tl (l : list R) i : (S i < length l)%nat -> nth_error (energy_intervals l) i = Some (nth i l 0, nth (S i) l 0).
Proof.
  unfold energy_intervals. revert i. induction l as [|a [|b l] IH]; intros i H; try (cbn in H; lia).
  destruct i as [|i]; [reflexivity|]. cbn [removelast tl combine nth_error].
  specialize (IH i ltac:(cbn in *; lia)). cbn [removelast tl] in IH. destruct l as [|c l]; [cbn in H; lia|]. exact IH.
Qed.
Lemma intervals_ok l : length (energy_intervals l) = (length l - 1)%nat /\
  forall i, (S i < length l)%nat -> nth_error (energy_intervals l) i = Some (nth i l 0, nth (S i) l 0) /\
    nth_error (interval_energies (energy_intervals l)) i = Some ((nth i l 0 + nth (S i) l 0) / 2).
Proof.
  split.
  - unfold energy_intervals. rewrite combine_length. destruct l as [|a l]; [reflexivity|].
    assert (Hr : length (removelast (a :: l)) = length l).
    { pose proof (app_removelast_last 0 (l := a :: l) ltac:(discriminate)) as E. apply (f_equal (@length R)) in E.
      rewrite app_length in E. cbn [length] in E. lia. }
    rewrite Hr. cbn [tl length]. lia.
  - intros i H. split; [now apply combine_tl|]. unfold interval_energies. now rewrite (map_nth_error _ i _ (combine_tl l i H)).
Qed.
