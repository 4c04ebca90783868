(* T_orbit.v: property theorems about orbital corrections and the choice of a simulation (C216, C217). *)
From Coq Require Import String.
From Verif Require Import Np Lib M_gti M_seg M_utils M_sim S_seg S_orbit M_orbit P_orbit.
From Coq Require Import ZArith QArith List Bool Arith Lia Lqa.
Import ListNotations.
Open Scope Q_scope.
Theorem C216_warning_partial : forall (delay : Q -> Q) (a b : Q) (n : nat) (mjds : list Q), (2 <= n)%nat -> a < b -> exists (l : list (option Q)) (w : option (list Q)),
  correction_mjd (orbit_table delay a b n) mjds = Ok (l, w) /\ l = map (interp false (fst (orbit_table delay a b n)) (snd (orbit_table delay a b n))) mjds /\ (w = None <->
  (forall m : Q, In m mjds -> a <= m <= b)) /\ (forall (p : list Q) (m : Q), w = Some p -> In m mjds -> m < a \/ b < m -> In m p).
Proof. exact @correct_ok. Qed.
Print Assumptions C216_warning_partial.
Theorem C216_seconds : forall (delay : Q -> Q) (a b : Q) (n : nat) (times : list Q) (mjdref : Q), (2 <= n)%nat -> a < b -> exists l : list (option Q), correction_sec
  (orbit_table delay a b n) times mjdref = Ok l /\ l = map (fun t : Q => option_map (fun d : Q => (d - mjdref) * 86400) (interp false (fst (orbit_table delay a b n)) (snd
  (orbit_table delay a b n)) (t / 86400 + mjdref))) times.
Proof. exact @sec_ok. Qed.
Print Assumptions C216_seconds.
Theorem C216_table : forall (delay : Q -> Q) (a b : Q) (n k : nat) (m : Q), (2 <= n)%nat -> a < b -> (k < n)%nat -> m = nth k (fst (orbit_table delay a b n)) 0 -> exists
  y : Q, interp false (fst (orbit_table delay a b n)) (snd (orbit_table delay a b n)) m = Some y /\ (y - m) * 86400 == - delay m.
Proof. exact @mjd_table. Qed.
Print Assumptions C216_table.
Theorem C216_between : forall (delay : Q -> Q) (a b : Q) (n : nat) (m : Q), (2 <= n)%nat -> a < b -> exists (k : nat) (y x0 x1 : Q), (S k < n)%nat /\ x0 = nth k (fst
  (orbit_table delay a b n)) 0 /\ x1 = nth (S k) (fst (orbit_table delay a b n)) 0 /\ x0 < x1 /\ (m <= x1 \/ S (S k) = n) /\ (x0 < m \/ k = 0%nat) /\ interp false (fst
  (orbit_table delay a b n)) (snd (orbit_table delay a b n)) m = Some y /\ on_line x0 (delay x0) x1 (delay x1) m ((m - y) * 86400).
Proof. exact @mjd_between. Qed.
Print Assumptions C216_between.
Theorem C216_order : forall (delay : Q -> Q) (a b : Q) (n : nat) (v w p q : Q), (2 <= n)%nat -> a < b -> growing (snd (orbit_table delay a b n)) -> v < w -> interp false
  (fst (orbit_table delay a b n)) (snd (orbit_table delay a b n)) v = Some p -> interp false (fst (orbit_table delay a b n)) (snd (orbit_table delay a b n)) w = Some q -> p
  < q.
Proof. exact @mjd_order. Qed.
Print Assumptions C216_order.
Theorem C216_one_time_error : forall (delay : Q -> Q) (a b : Q) (mjds : list Q), correction_mjd (orbit_table delay a b 1) mjds = Ok (map (fun _ : Q => None) mjds, snd
  match correction_mjd (orbit_table delay a b 1) mjds with | Ok r => r | Err _ => ([], None) end).
Proof. exact @one_time. Qed.
Print Assumptions C216_one_time_error.
(* one time above the table is enough for the warning to list times inside it *)
Theorem C216_warning_refuted : exists delay a b mjds l p m, correction_mjd (orbit_table delay a b 3) mjds = Ok (l, Some p) /\ In m p /\ a <= m <= b.
Proof.
  exists (fun m => m), 0, 10, [5; 11]. do 2 eexists. exists 5. split; [vm_compute; reflexivity|]. split; [now left|].
  split; apply Qle_bool_iff; reflexivity.
Qed.
Print Assumptions C216_warning_refuted.
(* a delay that grows faster than the time reverses events: the hypothesis of C216_order is needed *)
Example C216_reversed : let T := orbit_table (fun m => m * 86400 * 2) 0 10 3 in exists p q, interp false (fst T) (snd T) 1 = Some p /\ interp false (fst T) (snd T) 2 = Some q /\ q < p.
Proof. do 2 eexists. split; [vm_compute; reflexivity|]. split; [vm_compute; reflexivity|]. reflexivity. Qed.
Example C216_example : let T := orbit_table (fun m => m * 8640) 0 10 3 in growing (fst T) /\ growing (snd T) /\
  match correction_mjd T [-1; 5; 7] with Ok (l, w) => w = Some [-1] /\ List.length l = 3%nat | Err _ => False end /\
  match correction_sec T [86400] 4 with Ok [Some t] => t == 86400 * (1 - (1 # 2)) | _ => False end.
Proof.
  cbn zeta. split; [apply even_growing; [lia|reflexivity]|].
  split. { intros [|[|[|i]]] [|[|[|j]]]; cbn [List.length snd orbit_table map even_edges Nat.sub seq]; intros [H1 H2]; try lia; vm_compute; reflexivity. }
  split; vm_compute; [split; reflexivity|reflexivity].
Qed.
Theorem C217_one : forall a : arg, simulate_with [a] = Ok (match a with | AInt | AFloat => PowerLaw | AModel => Model | _ => PowerSpectrum end, 1%nat).
Proof. exact @simulate_one. Qed.
Print Assumptions C217_one.
Theorem C217_two : forall a b : arg, simulate_with [a; b] = Ok (match a with | AText => ModelString | _ => ImpulseResponse end, 2%nat).
Proof. exact @simulate_two. Qed.
Print Assumptions C217_two.
Theorem C217_three : forall a b d : arg, simulate_with [a; b; d] = Ok (ImpulseResponse, 3%nat).
Proof. exact @simulate_three. Qed.
Print Assumptions C217_three.
Theorem C217_more_error : forall args : list arg, (4 <= List.length args)%nat -> simulate_with args = Err ValueError.
Proof. exact @simulate_more. Qed.
Print Assumptions C217_more_error.
Theorem C217_none_error : simulate_with [] = Err IndexError.
Proof. exact @simulate_none. Qed.
Print Assumptions C217_none_error.
Theorem C217_frequencies : forall (r n : nat) (dt : Q) (k : nat) (f : Q), 0 < dt -> nth_error (simfreq r n dt) k = Some f -> f * (inject_Z (Z.of_nat (r * n)) * dt) ==
  inject_Z (Z.of_nat (S k)) /\ 0 < f <= 1 / (2 * dt).
Proof. exact @freq_ok. Qed.
Print Assumptions C217_frequencies.
Theorem C217_count : forall (r n : nat) (dt : Q), List.length (simfreq r n dt) = (r * n / 2)%nat.
Proof. exact @freq_len. Qed.
Print Assumptions C217_count.
Theorem C217_model_string : forall (P D : Type) (names : list string) (call : string -> list Q -> P -> result (list Q)) (build : string -> D -> list Q -> result (list Q))
  (freq : list Q) (model : string) (p : params P D), model_string names call build freq model p = match p with | PList l => if in_dec string_dec model names then call model
  freq l else Err ValueError | PDict d => if in_dec string_dec model names then build model d freq else Err ValueError | POther => Err ValueError end.
Proof. exact @string_ok. Qed.
Print Assumptions C217_model_string.
(* a number whose type is not a subclass of float (np.float32) is taken for a power spectrum, not for the index of a power law *)
Theorem C217_number_refuted : exists a, a = AOtherNumber /\ simulate_with [a] = Ok (PowerSpectrum, 1%nat).
Proof. exists AOtherNumber. split; reflexivity. Qed.
Print Assumptions C217_number_refuted.
(* two texts, or a text and anything else, go to the models by name; a text with two more arguments is taken for a light curve *)
Theorem C217_text_refuted : exists a b d, a = AText /\ simulate_with [a; b; d] = Ok (ImpulseResponse, 3%nat).
Proof. exists AText, AArray, AArray. split; reflexivity. Qed.
Print Assumptions C217_text_refuted.
Example C217_example : simfreq 1 8 (1 # 2) = map (fun k => inject_Z (Z.of_nat k) / (8 * (1 # 2))) [1; 2; 3; 4]%nat /\
  model_string ["lorentzian"; "np"]%string (fun _ f _ => Ok f) (fun _ (_ : unit) _ => Err TypeError) [1; 2] "lorentzian" (PList 3%nat) = Ok [1; 2] /\
  model_string ["lorentzian"; "np"]%string (fun _ f _ => Ok f) (fun _ (_ : unit) _ => Err TypeError) [1; 2] "gaussian" (PList 3%nat) = Err ValueError /\
  simulate_with [AText; AArray] = Ok (ModelString, 2%nat) /\ simulate_with [AArray; AArray; AText] = Ok (ImpulseResponse, 3%nat).
Proof. repeat match goal with |- _ /\ _ => split end; reflexivity. Qed.
