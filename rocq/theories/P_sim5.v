(* P_sim5.v: which inputs of the simulator are refused. *)
From Verif Require Import Np Lib M_gti M_seg M_utils S_gti S_seg M_sim S_sim P_sim P_sim2 P_sim3 P_sim4.
From Coq Require Import ZArith QArith List Bool Arith Lia Lqa.
Import ListNotations.
Open Scope Q_scope.

Lemma times_no_gti right time counts dt draws : simulate_times right time counts [] dt draws = Err IndexError \/ simulate_times right time counts [] dt draws = Err ValueError.
Proof.
  unfold simulate_times. destruct (existsb _ _); [right|left]; reflexivity.
Qed.
Lemma simple_ir_zero dt start width intensity : dt == 0 -> simple_ir dt start width intensity = Err ZeroDivisionError.
Proof.
  intros H. unfold simple_ir. replace (qeq dt 0) with true; [reflexivity|]. symmetry. apply Qeq_bool_iff. exact H.
Qed.
Lemma simple_ir_negative dt start width intensity : 0 < dt -> start <= - dt \/ width <= - dt -> simple_ir dt start width intensity = Err ValueError.
Proof.
  intros H K. unfold simple_ir. destruct (qeq dt 0) eqn:E; [apply Qeq_bool_iff in E; lra|].
  assert (N : forall x, x <= - dt -> (py_int (x / dt) < 0)%Z).
  { intros x Hx. assert (D : x / dt <= -1). { apply Qle_shift_div_r; [exact H|]. lra. }
    revert D. generalize (x / dt) as y. intros y D. unfold py_int. destruct (qle 0 y) eqn:F; qb; [lra|]. unfold Qceiling.
    assert (G : (1 <= Qfloor (- y))%Z). { rewrite <- (Qfloor_Z 1). apply Qfloor_resp_le. unfold inject_Z. lra. } lia. }
  replace (_ || _)%bool with true; [reflexivity|]. symmetry. apply orb_true_iff. rewrite !Z.ltb_lt. destruct K as [K|K]; [left|right]; apply N; exact K.
Qed.
(* time_response refuses bands that end below the first energy, and empty ones *)
Lemma time_response_negative t e0 e1 row : get (tr_data t) 0 = Ok row ->
  (exists e, e0 = Some e /\ (py_int (tr_estart t + e / tr_de t) < 0)%Z) \/ (exists e, e1 = Some e /\ (py_int (tr_estart t + e / tr_de t) < 0)%Z) ->
  time_response t e0 e1 = Err ValueError.
Proof.
  intros R H. unfold time_response. rewrite R. cbn [bind]. cbv zeta. replace (_ || _)%bool with true; [reflexivity|]. symmetry. apply orb_true_iff. rewrite !Z.ltb_lt.
  destruct H as [(e & -> & H)|(e & -> & H)]; [left|right]; exact H.
Qed.
Lemma time_response_same t e e' row : get (tr_data t) 0 = Ok row -> py_int (tr_estart t + e / tr_de t) = py_int (tr_estart t + e' / tr_de t) ->
  time_response t (Some e) (Some e') = Err ValueError.
Proof.
  intros R H. unfold time_response. rewrite R. cbn [bind]. cbv zeta. rewrite H, Z.eqb_refl. destruct (_ || _)%bool; [reflexivity|]. destruct (_ || _)%bool; reflexivity.
Qed.
(* a band whose ends are exchanged: every value is nan *)
Lemma time_response_reversed t e0 e1 row : get (tr_data t) 0 = Ok row ->
  (0 <= py_int (tr_estart t + e1 / tr_de t) < py_int (tr_estart t + e0 / tr_de t))%Z -> (py_int (tr_estart t + e0 / tr_de t) <= Z.of_nat (length row))%Z ->
  time_response t (Some e0) (Some e1) = Ok (repeat None (length row)).
Proof.
  intros R H L. unfold time_response. rewrite R. cbn [bind]. cbv zeta.
  replace ((_ <? 0) || (_ <? 0))%Z%bool with false. 2: { symmetry. apply orb_false_iff. rewrite !Z.ltb_ge. lia. }
  replace ((Z.of_nat (length row) <? _) || (Z.of_nat (length row) <? _))%Z%bool with false. 2: { symmetry. apply orb_false_iff. rewrite !Z.ltb_ge. lia. }
  replace (_ =? _)%Z with false. 2: { symmetry. apply Z.eqb_neq. lia. }
  f_equal. unfold slice. replace (Z.to_nat (py_int (tr_estart t + e1 / tr_de t)) - Z.to_nat (py_int (tr_estart t + e0 / tr_de t)))%nat with 0%nat by lia.
  unfold mean_rows. cbn [firstn]. clear. generalize 0%nat as k. induction (length row) as [|n IH]; intros k; [reflexivity|]. cbn [seq map repeat]. f_equal. apply IH.
Qed.
