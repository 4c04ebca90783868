(* P_timmer2.v: the relativistic impulse response. *)
From Verif Require Import Np Lib Cplx M_fourier M_corr M_espec M_timmer P_timmer.
From Coq Require Import ZArith QArith Qreals Reals List Bool Arith Lra Lia.
Import ListNotations.
Open Scope R_scope.

Lemma linspace_val a b n : (0 < n)%nat -> exists l, linspace a b (Z.of_nat n) = Ok l /\ length l = n /\ nth 0 l 0 = a /\ ((2 <= n)%nat -> nth (n - 1) l 0 = b) /\ (a <= b -> forall i, (i < n)%nat -> a <= nth i l 0 <= b) /\ (n = 1%nat -> l = [a]) /\
  ((2 <= n)%nat -> forall i, (i < n)%nat -> nth i l 0 = a + INR i * ((b - a) / INR (n - 1))).
Proof.
  intros N. unfold linspace. destruct (Z.ltb_spec (Z.of_nat n) 0); [lia|]. rewrite Nat2Z.id. set (f := fun i : nat => _). eexists. split; [reflexivity|]. split; [now rewrite map_length, seq_length|].
  assert (G : forall i, (i < n)%nat -> nth i (map f (seq 0 n)) 0 = f i) by (intros i Hi; rewrite (nth_map_lt2 _ _ _ 0%nat) by (now rewrite seq_length); now rewrite seq_nth by assumption).
  assert (V : (2 <= n)%nat -> forall i, (i < n)%nat -> f i = a + INR i * ((b - a) / INR (n - 1))).
  { intros H2 i Hi. unfold f. destruct (Nat.ltb_spec 1 n); [|lia]. destruct (Nat.eqb_spec (i + 1) n) as [E|E]; cbn [andb].
    - replace i with (n - 1)%nat by lia. field. apply not_0_INR. lia.
    - destruct (Nat.eqb_spec (n - 1) 0); [lia|]. ring. }
  assert (V1 : n = 1%nat -> f 0%nat = a) by (intros ->; unfold f; cbn; ring).
  split; [rewrite G by exact N; destruct (Nat.eq_dec n 1) as [E|E]; [exact (V1 E)|rewrite V by lia; cbn; ring]|].
  split; [intros H2; rewrite G, V by lia; field; apply not_0_INR; lia|]. split; [|split; [intros E; rewrite E in *; cbn [seq map]; now rewrite V1|intros H2 i Hi; rewrite G, V by lia; reflexivity]].
  intros AB i Hi. rewrite G by exact Hi. destruct (Nat.eq_dec n 1) as [E|E]; [replace i with 0%nat by lia; rewrite V1 by exact E; lra|]. rewrite V by lia. 
  assert (P : 0 < INR (n - 1)) by (apply lt_0_INR; lia). assert (I0 : 0 <= INR i) by apply pos_INR. assert (I1 : INR i <= INR (n - 1)) by (apply le_INR; lia).
  assert (S : 0 <= (b - a) / INR (n - 1)) by (apply Rmult_le_pos; [lra|apply Rlt_le, Rinv_0_lt_compat, P]). split; [nra|]. assert (INR i * ((b - a) / INR (n - 1)) <= INR (n - 1) * ((b - a) / INR (n - 1))) by nra.
  replace (INR (n - 1) * ((b - a) / INR (n - 1))) with (b - a) in H0 by (field; lra). lra.
Qed.
Lemma fold_max l : forall a, a <= fold_left Rmax l a /\ (forall x, In x l -> x <= fold_left Rmax l a) /\ (fold_left Rmax l a = a \/ In (fold_left Rmax l a) l).
Proof.
  induction l as [|b l IH]; intros a; cbn [fold_left]; [split; [lra|split; [intros x []|now left]]|]. destruct (IH (Rmax a b)) as (H1 & H2 & H3). pose proof (Rmax_l a b). pose proof (Rmax_r a b). split; [lra|]. split.
  - intros x [<-|H']; [lra|apply H2, H'].
  - destruct H3 as [H3|H3]; [|right; now right]. rewrite H3. unfold Rmax. destruct (Rle_dec a b); [right; now left|now left].
Qed.
Lemma rmax_ok l : l <> [] -> exists t, rmax_list l = Ok t /\ In t l /\ forall x, In x l -> x <= t.
Proof.
  destruct l as [|a l]; [congruence|]. intros _. cbn [rmax_list]. eexists. split; [reflexivity|]. destruct (fold_max l a) as (H1 & H2 & H3). split; [destruct H3 as [->|H3]; [now left|now right]|]. intros x [<-|H]; [exact H1|apply H2, H].
Qed.
Lemma py_int_nat_eq q m : (q == inject_Z (Z.of_nat m))%Q -> py_int q = Z.of_nat m.
Proof. intros E. unfold py_int. destruct (qle 0 q) eqn:C; rewrite E; [apply Qround.Qfloor_Z|apply Qround.Qceiling_Z]. Qed.
Theorem relativistic dt t1 t2 t3 m1 m2 m3 p1 p2 rise decay : (t1 < t2)%Q -> (t2 < t3)%Q -> p1 < p2 -> 0 <= rise -> (t1 / dt == inject_Z (Z.of_nat m1))%Q -> ((t2 - t1) / dt == inject_Z (Z.of_nat m2))%Q -> ((t3 - t2) / dt == inject_Z (Z.of_nat m3))%Q ->
  (0 < m2)%nat -> (0 < m3)%nat -> Q2R (t1 / dt) <= Q2R (t2 / dt) ->
  exists sec dec, relativistic_ir dt t1 t2 t3 p1 p2 rise decay = Ok (repeat 0 m1 ++ [p1] ++ sec ++ dec) /\ length sec = m2 /\ length dec = m3 /\
    (forall v, In v sec -> p1 < v <= p2) /\ nth (m2 - 1) sec 0 = p2 /\ nth 0 dec 0 = exp (- decay * (Q2R (t2 / dt) - Q2R (4 / dt))).
Proof.
  intros T1 T2 P RI E1 E2 E3 M2 M3 LE. unfold relativistic_ir. assert (qlt t1 t2 = true) as -> by (destruct (qlt t1 t2) eqn:C; [reflexivity|apply qlt_f in C; exfalso; apply (Qlt_not_le _ _ T1 C)]).
  assert (qlt t2 t3 = true) as -> by (destruct (qlt t2 t3) eqn:C; [reflexivity|apply qlt_f in C; exfalso; apply (Qlt_not_le _ _ T2 C)]). cbn [negb]. destruct (Rlt_dec p1 p2); [|contradiction].
  rewrite (py_int_nat_eq _ _ E1), (py_int_nat_eq _ _ E2), (py_int_nat_eq _ _ E3). destruct (Z.ltb_spec (Z.of_nat m1) 0); [lia|]. rewrite Nat2Z.id.
  destruct (linspace_val (Q2R (t1 / dt)) (Q2R (t2 / dt)) m2 M2) as (x & Ex & Lx & X0 & X1 & XB & XS & _). destruct (linspace_val (Q2R (t2 / dt)) (Q2R (t3 / dt)) m3 M3) as (y & Ey & Ly & Y0 & _).
  rewrite Ex. cbn [bind]. destruct (rmax_ok (map (fun v => exp (rise * v)) x)) as (top & Et & It & Mt); [intros C; apply (f_equal (@length R)) in C; rewrite map_length in C; cbn in C; lia|]. rewrite Et. cbn [bind]. rewrite Ey. cbn [bind].
  assert (TP : 0 < top) by (apply in_map_iff in It as (v & <- & _); apply exp_pos).
  eexists. eexists. split; [rewrite <- app_assoc; reflexivity|]. split; [now rewrite !map_length|]. split; [now rewrite map_length|].
  assert (LT : nth (m2 - 1) (map (fun v => exp (rise * v)) x) 0 = top).
  { apply Rle_antisym; [apply Mt, nth_In; rewrite map_length; lia|]. apply in_map_iff in It as (v & <- & Iv). rewrite (nth_map_lt2 _ _ _ 0) by lia.
    assert (V : v <= nth (m2 - 1) x 0).
    { destruct (Nat.eq_dec m2 1) as [E|E]; [rewrite (XS E) in *; destruct Iv as [<-|[]]; rewrite E; cbn; lra|]. rewrite X1 by lia. apply (In_nth _ _ 0) in Iv as (i & Hi & <-). apply XB; [exact LE|lia]. }
    destruct (Rle_lt_or_eq_dec _ _ (Rmult_le_compat_l rise _ _ RI V)) as [L|L]; [apply Rlt_le, exp_increasing, L|rewrite L; lra]. }
  split; [|split].
  - intros v Hv. apply in_map_iff in Hv as (h & <- & Hh). pose proof (Mt h Hh). assert (0 < h) by (apply in_map_iff in Hh as (q & <- & _); apply exp_pos).
    replace (h / (top / (p2 - p1)) + p1) with (p1 + (p2 - p1) * (h * / top)) by (field; lra). assert (I : 0 < / top) by (apply Rinv_0_lt_compat, TP). assert (0 < h * / top) by (apply Rmult_lt_0_compat; assumption).
    assert (h * / top <= 1) by (rewrite <- (Rinv_r top) by lra; apply Rmult_le_compat_r; lra). nra.
  - rewrite (nth_map_lt2 _ _ _ 0) by (rewrite map_length; lia). rewrite LT. field. lra.
  - rewrite (nth_map_lt2 _ _ _ 0) by lia. rewrite Y0. reflexivity.
Qed.
Theorem relativistic_default : exists h, relativistic_ir (1 # 8) 3 4 10 1 (14 / 10) (6 / 10) (1 / 10) = Ok h /\ nth 32 h 0 = 14 / 10 /\ nth 33 h 0 = 1.
Proof.
  destruct (relativistic (1 # 8) 3 4 10 24 8 48 1 (14 / 10) (6 / 10) (1 / 10)) as (sec & dec & E & Ls & Ld & _ & S1 & D1); try reflexivity; try lia; try lra.
  { unfold Q2R. cbn. lra. }
  eexists. split; [exact E|]. split.
  - rewrite app_nth2 by (rewrite repeat_length; lia). rewrite repeat_length. change (32 - 24)%nat with 8%nat. rewrite app_nth2 by (cbn; lia). change (8 - length [1%R])%nat with 7%nat. rewrite app_nth1 by lia. exact S1.
  - rewrite app_nth2 by (rewrite repeat_length; lia). rewrite repeat_length. change (33 - 24)%nat with 9%nat. rewrite app_nth2 by (cbn; lia). change (9 - length [1%R])%nat with 8%nat. rewrite app_nth2 by lia. rewrite Ls. change (8 - 8)%nat with 0%nat. rewrite D1. rewrite Rminus_diag_eq by reflexivity. rewrite Rmult_0_r. apply exp_0.
Qed.
(* The decay is measured from time 4 whatever t2 is. *)
Theorem relativistic_later : exists h, relativistic_ir 1 3 6 10 1 2 (6 / 10) 1 = Ok h /\ nth 6 h 0 = 2 /\ nth 7 h 0 = exp (-2).
Proof.
  destruct (relativistic 1 3 6 10 3 3 4 1 2 (6 / 10) 1) as (sec & dec & E & Ls & Ld & _ & S1 & D1); try reflexivity; try lia; try lra.
  { unfold Q2R. cbn. lra. }
  eexists. split; [exact E|]. split.
  - rewrite app_nth2 by (rewrite repeat_length; lia). rewrite repeat_length. change (6 - 3)%nat with 3%nat. rewrite app_nth2 by (cbn; lia). change (3 - length [1%R])%nat with 2%nat. rewrite app_nth1 by lia. exact S1.
  - rewrite app_nth2 by (rewrite repeat_length; lia). rewrite repeat_length. change (7 - 3)%nat with 4%nat. rewrite app_nth2 by (cbn; lia). change (4 - length [1%R])%nat with 3%nat. rewrite app_nth2 by lia. rewrite Ls. change (3 - 3)%nat with 0%nat. rewrite D1. f_equal. unfold Q2R. cbn. field.
Qed.
Theorem relativistic_order dt t1 t2 t3 p1 p2 rise decay : (t2 <= t1)%Q \/ (t3 <= t2)%Q \/ p2 <= p1 -> relativistic_ir dt t1 t2 t3 p1 p2 rise decay = Err AssertionError.
Proof.
  intros H. unfold relativistic_ir. destruct (qlt t1 t2) eqn:C1; [|reflexivity]. destruct (qlt t2 t3) eqn:C2; [|reflexivity]. cbn [negb]. destruct (Rlt_dec p1 p2); [|reflexivity]. apply qlt_t in C1. apply qlt_t in C2. destruct H as [H|[H|H]]; [exfalso; exact (Qlt_not_le _ _ C1 H)|exfalso; exact (Qlt_not_le _ _ C2 H)|lra].
Qed.
