(* T_mask.v: theorems about the GTI mask stored in a time series, stingray/base.py. *)
From Verif Require Import Np Lib S_gti S_seg S_base S_mask M_gti M_seg M_base M_mask P_mask.
From Coq Require Import Lqa.
Open Scope Q_scope.

(* ---------- C202: the stored mask ---------- *)
Theorem C202_right : forall (numba : bool) (time : list Q) (d : Q) (g : option gtis) (os : list op), usable_times time d -> (forall g0 : gtis, g = Some g0 -> usable numba
  time d g0) -> Forall (tame numba time d) os -> exists (s : tstate) (m : list bool) (s' : tstate), run numba os (new_series time d g) = Ok s /\ read_mask numba s = Ok (m,
  s') /\ t_time s = time /\ t_dt s = d /\ right_mask time d (t_gti s) m.
Proof. exact @mask_right. Qed.
Print Assumptions C202_right.
Theorem C202_recorded : forall (numba : bool) (g : gtis) (os : list op) (s s' : tstate), Forall (fun o : op => o = ReadMask \/ o = ReadGti) os -> run numba os (write_gti
  (Some g) s) = Ok s' -> t_gti s' = Some g.
Proof. exact @write_gti_recorded. Qed.
Print Assumptions C202_recorded.
Theorem C202_twice : forall (numba : bool) (s : tstate) (m : list bool) (s' : tstate), read_mask numba s = Ok (m, s') -> read_mask numba s' = Ok (m, s').
Proof. exact @read_twice. Qed.
Print Assumptions C202_twice.
Theorem C202_default : forall (s : tstate) (g : gtis) (s' : tstate), t_gti s = None -> read_gti s = Ok (g, s') -> exists a b : Q, nth_error (t_time s) 0 = Some a /\
  nth_error (t_time s) (length (t_time s) - 1) = Some b /\ g = [(a - t_dt s / 2, b + t_dt s / 2)] /\ t_gti s' = Some g /\ t_mask s' = t_mask s.
Proof. exact @default_read. Qed.
Print Assumptions C202_default.
Theorem C202_stale_error : forall (numba : bool) (s : tstate) (m : list bool) (s1 : tstate) (o : op) (s2 : tstate), read_mask numba s = Ok (m, s1) -> step numba s1 o = Ok
  s2 -> (forall g : gtis, o <> WriteGti (Some g)) -> read_mask numba s2 = Ok (m, s2).
Proof. exact @stale. Qed.
Print Assumptions C202_stale_error.
Theorem C202_length_error : forall (numba : bool) (s : tstate) (v : list Q), length v <> length (t_time s) -> step numba s (WriteTime v) = Err ValueError /\ (forall g :
  gtis, step numba s (Simulate v g) = Err ValueError).
Proof. exact @time_length. Qed.
Print Assumptions C202_length_error.
Theorem C202_time : forall (numba : bool) (s : tstate) (v : list Q) (s' : tstate), step numba s (WriteTime v) = Ok s' -> t_time s' = v /\ length v = length (t_time s) /\
  t_gti s' = t_gti s /\ t_dt s' = t_dt s.
Proof. exact @time_written. Qed.
Print Assumptions C202_time.
Theorem C202_simulated : forall (numba : bool) (s : tstate) (v : list Q) (g : gtis) (s' : tstate), step numba s (Simulate v g) = Ok s' -> t_time s' = v /\ t_gti s' = Some
  g /\ t_dt s' = t_dt s.
Proof. exact @simulated. Qed.
Print Assumptions C202_simulated.
Theorem C202_cleared : forall (numba : bool) (s s' : tstate), step numba s (WriteGti None) = Ok s' -> t_time s' = t_time s /\ t_gti s' = None /\ t_dt s' = t_dt s.
Proof. exact @cleared. Qed.
Print Assumptions C202_cleared.
Theorem C202_dt : forall (numba : bool) (s : tstate) (d : Q) (s' : tstate), step numba s (WriteDt d) = Ok s' -> t_time s' = t_time s /\ t_gti s' = t_gti s /\ t_dt s' = d.
Proof. exact @dt_written. Qed.
Print Assumptions C202_dt.
Theorem C202_none_refuted : exists (numba : bool) (s : tstate) (os : list op), wrong_after numba s (ReadMask :: os) /\ os = [WriteGti None].
Proof. exact @none_refuted. Qed.
Print Assumptions C202_none_refuted.
Theorem C202_time_refuted : exists (numba : bool) (s : tstate) (v : list Q), wrong_after numba s [ReadMask; WriteTime v].
Proof. exact @time_refuted. Qed.
Print Assumptions C202_time_refuted.
Theorem C202_dt_refuted : exists (numba : bool) (s : tstate) (d : Q), wrong_after numba s [ReadMask; WriteDt d].
Proof. exact @dt_refuted. Qed.
Print Assumptions C202_dt_refuted.
Theorem C202_simulate_refuted : exists (numba : bool) (s : tstate) (v : list Q) (g : gtis), wrong_after numba s [ReadMask; Simulate v g] /\ (forall t : Q, In t v ->
  bin_in g 0 0 t).
Proof. exact @simulate_refuted. Qed.
Print Assumptions C202_simulate_refuted.
Theorem C202_again_refuted : exists (numba : bool) (s : tstate) (v : list Q) (g : gtis), step numba s (Simulate v g) = Err ValueError /\ v <> [] /\ t_time s <> [].
Proof. exact @simulate_again_refuted. Qed.
Print Assumptions C202_again_refuted.
Example C202_nonvacuous : usable_times [1; 2; 3] 1 /\ usable true [1; 2; 3] 1 [(1 # 2, 5 # 2)] /\
  exists m s, read_mask true w_start = Ok (m, s) /\ m = [true; true; false].
Proof.
  split; [|split].
  - split; [discriminate|]. split; [|lra]. intros i j x y L. destruct i as [|[|[|i]]], j as [|[|[|j]]]; simpl; intros A B; try lia; try discriminate;
    try (destruct i; discriminate); try (destruct j; discriminate); injection A as <-; injection B as <-; lra.
  - split; [discriminate|]. split; [|split; [left; lra|]].
    + split; [intros a b [H|[]]; injection H as <- <-; lra|]. intros i j a b c d L A B. destruct j as [|[|j]]; [lia|discriminate|discriminate].
    + right. intros a b [H|[]]. injection H as <- <-. exists 1. split; [left; reflexivity|]. split; apply Qle_bool_iff; reflexivity.
  - do 2 eexists. split; vm_compute; reflexivity.
Qed.
