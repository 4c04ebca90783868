(* T_zchk.v: theorems about the checks of the dead time model, stingray/deadtime/model.py. *)
From Verif Require Import Np Lib M_utils Cplx M_espec M_zhang M_zchk S_zchk P_zhang P_zchk.
From Coq Require Import Reals List Lra Lia.
Import ListNotations.
Open Scope R_scope.

(* ---------- C205: the checks of A and B ---------- *)
Theorem C205_check_a : forall (td ri r0 tb : R) (max_k : nat), 0 <= td -> rates_agree td ri r0 -> exists o : check_a_out, check_a ri td tb max_k true = Ok o /\ ca_k o =
  seq 0 (S max_k) /\ ca_values o = map (fun k : nat => a_single_k k r0 td tb (1 / ri)) (seq 0 (S max_k)) /\ curve_right (fun k : nat => a_single_k k r0 td tb (1 / ri)) r0
  tb max_k (ca_drawn o).
Proof. exact @check_a_incident. Qed.
Print Assumptions C205_check_a.
Theorem C205_same_terms : forall (td ri r0 tb : R) (max_k : nat), 0 <= td -> rates_agree td ri r0 -> exists o o' : check_a_out, check_a r0 td tb max_k false = Ok o /\
  check_a ri td tb max_k true = Ok o' /\ ca_k o = ca_k o' /\ ca_values o = ca_values o' /\ length (ca_drawn o) = S max_k /\ (forall k : nat, (k <= max_k)%nat -> nth k
  (ca_drawn o) 0 = nth k (ca_drawn o') 0 + (r0 * tb) ^ 2 - (r0 / (1 + r0 * td) * tb) ^ 2).
Proof. exact @check_a_detected. Qed.
Print Assumptions C205_same_terms.
Theorem C205_detected_error : forall (td ri r0 tb : R) (max_k : nat), 0 < td -> 0 < tb -> rates_agree td ri r0 -> exists o : check_a_out, check_a r0 td tb max_k false =
  Ok o /\ (forall k : nat, (k <= max_k)%nat -> nth k (ca_drawn o) 0 > a_single_k k r0 td tb (1 / ri) - (r0 * tb) ^ 2).
Proof. exact @check_a_high. Qed.
Print Assumptions C205_detected_error.
Theorem C205_check_a_refuted : exists (td ri r0 tb : R) (max_k : nat) (o : check_a_out), 0 < td /\ 0 < tb /\ rates_agree td ri r0 /\ check_a r0 td tb max_k false = Ok o
  /\ ~ curve_right (fun k : nat => a_single_k k r0 td tb (1 / ri)) r0 tb max_k (ca_drawn o).
Proof. exact @check_a_refuted. Qed.
Print Assumptions C205_check_a_refuted.
Theorem C205_check_b : forall (td ri r0 tb : R) (max_k : nat), 0 < td -> rates_agree td ri r0 -> exists o : check_b_out, check_b ri td tb max_k true = Ok o /\ check_b r0
  td tb max_k false = Ok o /\ cb_k o = seq 1 max_k /\ b_right (fun k : nat => a_single_k k r0 td tb (1 / ri)) r0 tb max_k (cb_values o) /\ length (cb_threshold o) = max_k
  /\ (forall k : nat, (1 <= k <= max_k)%nat -> nth (k - 1) (cb_threshold o) 0 = Rmax (tb / td) 1 * INR k ^ 3 / 10 ^ 15).
Proof. exact @check_b_both. Qed.
Print Assumptions C205_check_b.
Theorem C205_agree : forall (td ri r0 tb : R) (max_k k : nat), 0 < td -> rates_agree td ri r0 -> (1 <= k <= max_k)%nat -> exists (a : check_a_out) (b : check_b_out),
  check_a ri td tb max_k true = Ok a /\ check_b ri td tb max_k true = Ok b /\ nth (k - 1) (cb_values b) 0 = 4 * nth k (ca_drawn a) 0 / (r0 * tb).
Proof. exact @checks_agree. Qed.
Print Assumptions C205_agree.
Theorem C205_zero_rate : forall (td tb : R) (max_k : nat) (b : bool), check_a 0 td tb max_k b = Err ZeroDivisionError.
Proof. exact @check_a_zero_rate. Qed.
Print Assumptions C205_zero_rate.
Theorem C205_saturated : forall (td tb : R) (max_k : nat), td <> 0 -> check_a (1 / td) td tb max_k false = Err ZeroDivisionError /\ check_b (1 / td) td tb max_k false =
  Err ZeroDivisionError.
Proof. exact @check_saturated. Qed.
Print Assumptions C205_saturated.
Example C205_nonvacuous : rates_agree (1 / 2) 2 1 /\ exists o, check_b 1 (1 / 2) 1 2 false = Ok o /\ cb_k o = [1%nat; 2%nat] /\ nth 1 (cb_threshold o) 0 = 16 / 10 ^ 15.
Proof.
  split; [exact example_rates|]. destruct (check_b_both (1 / 2) 2 1 1 2%nat) as (o & _ & E & K & _ & _ & H); [lra|exact example_rates|].
  exists o. split; [exact E|]. split; [exact K|]. etransitivity; [exact (H 2%nat ltac:(lia))|]. rewrite Rmax_left by lra. simpl. field.
Qed.
