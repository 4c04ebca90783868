(* T_espec.v: property theorems about energy specifications (C72). *)
From Coq Require Import Reals Lra Lia.
From Verif Require Import Np M_espec S_espec P_espec.
Open Scope R_scope.

(* ---------- C72: energy specifications ---------- *)
Theorem C72_linear : forall e0 e1 n,
  (0 < n)%nat ->
  exists l, decode_energy_specification true e0 e1 (Z.of_nat n) Lin = Ok l /\ equally_spaced n e0 e1 l /\ (e0 < e1 -> growing l).
Proof. exact spec_lin. Qed.
Print Assumptions C72_linear.
Theorem C72_logarithmic : forall e0 e1 n,
  (0 < n)%nat -> 0 < e0 -> 0 < e1 ->
  exists l, decode_energy_specification true e0 e1 (Z.of_nat n) Log = Ok l /\ equal_ratios n e0 e1 l /\ (e0 < e1 -> growing l).
Proof. exact spec_log. Qed.
Print Assumptions C72_logarithmic.
Theorem C72_error : forall is_tuple e0 e1 n flag,
  is_tuple = false \/ flag = OtherFlag \/ (n < -1)%Z ->
  decode_energy_specification is_tuple e0 e1 n flag = Err ValueError.
Proof. exact spec_error. Qed.
Print Assumptions C72_error.
Theorem C72_intervals : forall l,
  length (energy_intervals l) = (length l - 1)%nat /\
  forall i, (S i < length l)%nat -> nth_error (energy_intervals l) i = Some (nth i l 0, nth (S i) l 0) /\
    nth_error (interval_energies (energy_intervals l)) i = Some ((nth i l 0 + nth (S i) l 0) / 2).
Proof. exact intervals_ok. Qed.
Print Assumptions C72_intervals.

Example C72_nonvacuous : exists l, decode_energy_specification true 1 4 2 Log = Ok l /\ nth 1 l 0 = 2 /\ growing l.
Proof.
  destruct (spec_log 1 4 2 ltac:(lia) ltac:(lra) ltac:(lra)) as (l & E & (L & A & B & q & Q & QQ & S) & G). exists l.
  split; [exact E|]. split; [|apply G; lra]. rewrite (S 0%nat ltac:(lia)), A. cbn in QQ. nra.
Qed.

