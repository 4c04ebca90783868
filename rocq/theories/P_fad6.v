(* P_fad6.v: frequency resolution of the table, and event lists. *)
From Coq Require Import Reals Qreals.
From Verif Require Import Np Lib M_gti M_seg M_utils Cplx M_fourier M_flux S_gti S_seg S_flux S_utils S_fourier S_fad M_fad P_gti_final P_norm P_fad P_fad2 P_fad3 P_fad4 P_flux P_flux2 P_flux3 P_rms2.
From Coq Require Import Reals List Bool Arith Lra Lia.
From Coq Require Lqa.
Import ListNotations.
Open Scope R_scope.

Lemma rdiffs_grid c : forall m k, rdiffs (map (fun i => INR i * c) (seq k (S m))) = map (fun _ => c) (seq k m).
Proof.
  induction m as [|m IH]; intros k; [reflexivity|]. specialize (IH (S k)). cbn [seq map] in *. unfold rdiffs in *. cbn [tl combine map fst snd] in *. rewrite IH. f_equal. rewrite S_INR. ring.
Qed.
Lemma rlsum_const {A} c (l : list A) : rlsum (map (fun _ => c) l) = INR (length l) * c.
Proof. induction l as [|a l IH]; [cbn; ring|]. cbn [map length]. rewrite S_INR. unfold rlsum in *. cbn [fold_right]. rewrite IH. ring. Qed.
Lemma mean_step_grid n dt m : (2 <= m)%nat -> mean_step (map (fun k => INR k / (INR n * dt)) (seq 1 m)) = 1 / (INR n * dt).
Proof.
  intros Hm. destruct m as [|[|m]]; [lia|lia|]. unfold mean_step. unfold Rdiv at 2 3. 
  replace (rdiffs (map (fun k => INR k * / (INR n * dt)) (seq 1 (S (S m))))) with (map (fun _ => / (INR n * dt)) (seq 1 (S m))) by (symmetry; apply rdiffs_grid).
  rewrite rlsum_const, map_length, seq_length. assert (P : 0 < INR (S m)) by (apply lt_0_INR; lia). unfold Rdiv. rewrite Rmult_1_l. rewrite (Rmult_comm (INR (S m))), Rmult_assoc, Rinv_r by lra. ring.
Qed.
Lemma fad_resolution gaussian len tol strict dt norm segs1 segs2 n t :
  (forall l s, length (gaussian l s) = length l) -> (0 < n)%nat -> kind norm None <> None -> fits n segs1 segs2 -> both segs1 segs2 <> [] -> (2 <= n_pos n)%nat ->
  fad gaussian true len tol strict dt norm segs1 segs2 = Ok t -> t_df t = 1 / (INR n * dt).
Proof.
  intros Hg Hn Hk F NE H2 E. pose proof (fad_columns gaussian len tol strict dt norm segs1 segs2 n Hg Hn Hk F NE) as C. cbv zeta in C. rewrite C in E. clear C.
  destruct (_ && _)%bool; [discriminate|]. apply (f_equal (fun r => match r with Ok v => t_df v | Err _ => t_df t end)) in E. cbn [t_df] in E. rewrite <- E. now apply mean_step_grid.
Qed.

Open Scope Q_scope.
Lemma fad_events_ok numba gaussian len tol strict norm times1 times2 g size dt n :
  0 < dt -> (0 < n)%nat -> size == nq n * dt -> nondecreasing times1 -> nondecreasing times2 -> (exists a b, In (a, b) g /\ size < b - a + (1 # 100000)) ->
  exists st1 st2, segment_grid g size (1 # 100000) st1 /\ segment_grid g size (1 # 100000) st2 /\ st1 <> [] /\
    fad_events numba gaussian len tol strict norm times1 times2 g size dt =
    fad gaussian true len tol strict (Q2R dt) norm (map (counts_segment times1 size n) st1) (map (counts_segment times2 size n) st2).
Proof.
  intros Hdt Hn Hs H1 H2 Hg. unfold fad_events, flux_generator_events.
  assert (N : Z.to_nat (rint (size / dt)) = n).
  { assert (Q1 : size / dt == nq n) by (rewrite Hs; field; Lqa.lra). rewrite (rint_comp _ _ Q1). replace (nq n) with (inject_Z (Z.of_nat n)) by reflexivity. rewrite rint_int. apply Nat2Z.id. }
  rewrite N. assert (Ps : 0 < size) by (rewrite Hs; apply Qmult_lt_0_compat; [unfold nq, Qlt; cbn; lia|exact Hdt]).
  destruct (flux_events numba times1 g size n 0 None Ps Hn H1 Hg) as (st1 & l1 & G1 & N1 & E1 & M1). destruct (flux_events numba times2 g size n 0 None Ps Hn H2 Hg) as (st2 & l2 & G2 & _ & E2 & M2).
  exists st1, st2. split; [exact G1|]. split; [exact G2|]. split; [exact N1|]. rewrite E1, E2. cbn [bind]. rewrite M1, M2. reflexivity.
Qed.
