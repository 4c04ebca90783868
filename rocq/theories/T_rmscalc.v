(* T_rmscalc.v: theorems about rms_calculation, stingray/fourier.py. *)
From Verif Require Import Np Lib S_utils S_spec M_utils M_spec M_rmscalc P_rms P_rmscalc.
From Coq Require Import Lqa.
Open Scope Q_scope.

(* ---------- C206: rms of the powers that were selected by the caller ---------- *)
Theorem C206_rms : forall (B : list bin) (lo hi nphots T : Q) (M K : perbin) (nb : nat) (noise dead : Q), 0 < nphots -> 0 < T -> positive_bins B -> per_ok b_k B K ->
  per_ok b_m B M -> same_kind K M -> exists (r2 : Q) (e2 : option Q) (V : Q), rms_calculation (map b_unnorm B) lo hi nphots T M K nb noise dead = Ok (r2, e2) /\ finished
  (integral (1 / T) nphots T noise B) V r2 e2 /\ ((exists b : bin, In b B /\ ~ b_m b == 1) \/ (length B <= 4)%nat -> V == integral_var (1 / T) nphots T B) /\ (forall k : Q,
  (4 < length B)%nat -> (forall b : bin, In b B -> b_m b == 1) -> (forall b : bin, In b B -> b_k b == k) -> V == grouped_var (1 / T * k) (map (fun b : bin => frac_norm
  nphots T * b_unnorm b) B)).
Proof. exact @rms_calculation_main. Qed.
Print Assumptions C206_rms.
Theorem C206_ignored : forall (u : list Q) (lo hi lo' hi' n T : Q) (M K : perbin) (nb nb' : nat) (noise dead dead' : Q), rms_calculation u lo hi n T M K nb noise dead =
  rms_calculation u lo' hi' n T M K nb' noise dead'.
Proof. exact @unused. Qed.
Print Assumptions C206_ignored.
Theorem C206_mixed : forall (u : list Q) (lo hi n T : Q) (ms : list Q) (k : Q) (nb : nat) (noise dead : Q), (forall v : Q, exists a : Q, In a ms /\ ~ a == v) ->
  rms_calculation u lo hi n T (Each ms) (One k) nb noise dead = Err ValueError.
Proof. exact @mixed. Qed.
Print Assumptions C206_mixed.
Theorem C206_constant : forall (u : list Q) (lo hi n T m : Q) (ms : list Q) (k : Q) (nb : nat) (noise dead : Q), (forall a : Q, In a ms -> a = m) -> rms_calculation u lo
  hi n T (Each (m :: ms)) (One k) nb noise dead = rms_calculation u lo hi n T (One m) (One k) nb noise dead.
Proof. exact @constant_m. Qed.
Print Assumptions C206_constant.
Example C206_nonvacuous : let B := [{| b_freq := None; b_unnorm := 9; b_k := 1; b_m := 2 |}; {| b_freq := None; b_unnorm := 12; b_k := 3; b_m := 6 |}] in
  positive_bins B /\ per_ok b_k B (Each [1; 3]) /\ per_ok b_m B (Each [2; 6]) /\
  exists r e, rms_calculation (map b_unnorm B) 0 1 2 8 (Each [2; 6]) (Each [1; 3]) 1 4 0 = Ok (r, Some e) /\ r == 29 # 2.
Proof.
  cbv zeta. split; [|split; [reflexivity|split; [reflexivity|]]].
  - exists 2. intros b [<-|[<-|[]]]; simpl; repeat split; lra.
  - do 2 eexists. split; vm_compute; reflexivity.
Qed.
