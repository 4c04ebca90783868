(* T_init.v: property theorems about the checks of inputs and random number generators (C213 - C215). *)
From Coq Require Import String Ascii.
From Verif Require Import Np Lib M_utils M_lc M_base M_io M_mission M_object M_init S_init P_mission P_object P_init.
From Coq Require Import ZArith QArith Qabs List Bool Lia Lqa.
Import ListNotations.
Open Scope Q_scope.
Theorem C213_accepted : forall (norm : option str) (pt : str) (d1 d2 : data_in) (gtis : option nat) (dt : option Q) (seg : option (option Q)), basic_checks norm pt d1 d2
  gtis dt seg = Ok true <-> good_norm norm /\ good_type pt /\ good_gtis gtis seg /\ pair_ok dt d1 d2.
Proof. exact @checks_true. Qed.
Print Assumptions C213_accepted.
Theorem C213_empty : forall (norm : option str) (pt : str) (d1 d2 : data_in) (gtis : option nat) (dt : option Q) (seg : option (option Q)), basic_checks norm pt d1 d2
  gtis dt seg = Ok false <-> good_norm norm /\ good_type pt /\ d1 = DNone /\ d2 = DNone.
Proof. exact @checks_false. Qed.
Print Assumptions C213_empty.
Theorem C213_errors : forall (norm : option str) (pt : str) (d1 d2 : data_in) (gtis : option nat) (dt : option Q) (seg : option (option Q)), (norm = None -> basic_checks
  norm pt d1 d2 gtis dt seg = Err TypeError) /\ (norm <> None -> ~ good_norm norm \/ ~ good_type pt -> basic_checks norm pt d1 d2 gtis dt seg = Err ValueError) /\
  (good_norm norm -> good_type pt -> d1 = DNone /\ d2 <> DNone \/ d1 <> DNone /\ d2 = DNone -> basic_checks norm pt d1 d2 gtis dt seg = Err ValueError) /\ (good_norm norm
  -> good_type pt -> d1 <> DNone -> d2 <> DNone -> ~ good_gtis gtis seg \/ same_type d1 d2 = false -> basic_checks norm pt d1 d2 gtis dt seg = Err TypeError) /\ (good_norm
  norm -> good_type pt -> good_gtis gtis seg -> forall (a t : Q) (e : str) (b t' : Q) (e' : str), d1 = DCurve a t e -> d2 = DCurve b t' e' -> ~ pair_ok dt d1 d2 ->
  basic_checks norm pt d1 d2 gtis dt seg = Err StingrayError).
Proof. exact @checks_errors. Qed.
Print Assumptions C213_errors.
Theorem C213_averaged : forall (norm : option str) (pt : str) (d1 d2 : data_in) (gtis : option nat) (dt : option Q) (seg : option (option Q)), averaged_checks norm pt d1
  d2 gtis dt seg = Ok true <-> good_norm norm /\ good_type pt /\ pair_ok dt d1 d2 /\ (exists s : Q, seg = Some (Some s)).
Proof. exact @averaged_true. Qed.
Print Assumptions C213_averaged.
Theorem C213_segment : forall (norm : option str) (pt : str) (d1 d2 : data_in) (gtis : option nat) (dt : option Q) (seg : option (option Q)), basic_checks norm pt d1 d2
  gtis dt seg = Ok true -> (forall s : Q, seg <> Some (Some s)) -> averaged_checks norm pt d1 d2 gtis dt seg = Err ValueError.
Proof. exact @averaged_segment. Qed.
Print Assumptions C213_segment.
Theorem C213_drift_partial : forall (dt : option Q) (a t : Q) (e : str) (b t' : Q) (e' : str), 0 < a -> 0 < t -> pair_ok dt (DCurve a t e) (DCurve b t' e') -> drift a b t
  <= 0.01 * Qabs b + 0.00000001 * (t / a).
Proof. exact @drift_bound. Qed.
Print Assumptions C213_drift_partial.
(* bin times of 100 microseconds that differ by 1e-8 pass, though the second clock is ten seconds off at the end *)
Theorem C213_drift_refuted : exists a b t, 0 < a /\ 0 < b /\ a <= t /\
  basic_checks (Some (% "frac")) (% "all") (DCurve a t (% "poisson")) (DCurve b t (% "poisson")) None None None = Ok true /\
  ~ drift a b t <= (1 # 100) * a /\ 100000 * a <= drift a b t.
Proof.
  exists (1 # 10000), ((1 # 10000) + (1 # 100000000)), 100000. split; [reflexivity|]. split; [reflexivity|]. split; [apply Qle_bool_iff; reflexivity|].
  split; [vm_compute; reflexivity|]. split; [intros H; apply Qle_bool_iff in H; vm_compute in H; discriminate|apply Qle_bool_iff; vm_compute; reflexivity].
Qed.
Print Assumptions C213_drift_refuted.
Example C213_example : good_norm (Some (% "Leahy")) /\ good_type (% "real") /\ good_gtis (Some 1%nat) None /\ pair_ok (Some (1 # 10)) DEvents DEvents /\
  basic_checks (Some (% "Leahy")) (% "real") DEvents DEvents (Some 1%nat) (Some (1 # 10)) None = Ok true /\
  basic_checks (Some (% "Leahy")) (% "real") DEvents DEvents (Some 2%nat) (Some (1 # 10)) None = Err TypeError /\
  basic_checks (Some (% "Leahy")) (% "real") DEvents DEvents None None None = Err ValueError /\
  basic_checks (Some (% "frac")) (% "all") (DCurve 1 100 (% "poisson")) (DCurve (11 # 10) 100 (% "gauss")) None None None = Err StingrayError /\
  averaged_checks (Some (% "frac")) (% "all") DGenerator DGenerator None None (Some None) = Err ValueError.
Proof.
  split; [exists (% "Leahy"); split; [reflexivity|right; right; now left]|]. split; [right; now right|]. split; [intros _ n E; injection E as <-; lia|].
  split; [apply (events_ok _ (1 # 10)); reflexivity|]. repeat match goal with |- _ /\ _ => split end; vm_compute; reflexivity.
Qed.
Theorem C214_matrix : forall (d1 d2 : data_in) (seg st : option Q), dynamical_start d1 d2 seg st = Ok Matrix <-> d1 <> DNone /\ d2 <> DNone /\ (exists s : Q, seg = Some s
  /\ match d1 with | DCurve dt tseg _ => s <= tseg /\ 2 * dt <= s | _ => exists t : Q, st = Some t /\ 2 * t <= s end).
Proof. exact @dyn_matrix. Qed.
Print Assumptions C214_matrix.
Theorem C214_empty : forall (d1 d2 : data_in) (seg st : option Q), dynamical_start d1 d2 seg st = Ok Empty <-> d1 = DNone /\ d2 = DNone /\ seg = None.
Proof. exact @dyn_empty. Qed.
Print Assumptions C214_empty.
Theorem C214_errors : forall (d1 d2 : data_in) (seg st : option Q), (seg = None /\ (d1 <> DNone \/ d2 <> DNone) \/ seg <> None /\ (d1 = DNone \/ d2 = DNone) ->
  dynamical_start d1 d2 seg st = Err TypeError) /\ (d1 = DEvents -> d2 <> DNone -> seg <> None -> st = None -> dynamical_start d1 d2 seg st = Err ValueError) /\ (forall (s
  a t : Q) (e : str), d1 = DCurve a t e -> d2 <> DNone -> seg = Some s -> t < s \/ s < 2 * a -> dynamical_start d1 d2 seg st = Err ValueError) /\ (forall s t : Q, d1 =
  DEvents -> d2 <> DNone -> seg = Some s -> st = Some t -> s < 2 * t -> dynamical_start d1 d2 seg st = Err ValueError).
Proof. exact @dyn_errors. Qed.
Print Assumptions C214_errors.
(* the second input is not checked: it may be too short for a single segment *)
Theorem C214_second_refuted : exists a t b t' s, t' < s /\ t' < 2 * a /\ dynamical_start (DCurve a t (% "poisson")) (DCurve b t' (% "poisson")) (Some s) None = Ok Matrix.
Proof. exists 1, 100, 1, (1 # 1), 10. split; [reflexivity|]. split; [reflexivity|]. vm_compute. reflexivity. Qed.
Print Assumptions C214_second_refuted.
Example C214_example : dynamical_start DEvents DEvents (Some 8) (Some 4) = Ok Matrix /\ dynamical_start DEvents DEvents (Some 7) (Some 4) = Err ValueError /\
  dynamical_start (DCurve 1 5 []) DEvents (Some 6) None = Err ValueError /\ dynamical_start (DList []) DEvents (Some 6) None = Err TypeError.
Proof. repeat match goal with |- _ /\ _ => split end; vm_compute; reflexivity. Qed.
Theorem C215_seed : forall z : Z, (0 < z < 2 ^ 32)%Z -> get_random_state (SInt z) = Ok (Fresh z).
Proof. exact @random_int. Qed.
Print Assumptions C215_seed.
Theorem C215_out_of_range : forall z : Z, (z < 0)%Z \/ (2 ^ 32 <= z)%Z -> get_random_state (SInt z) = Err ValueError.
Proof. exact @random_out. Qed.
Print Assumptions C215_out_of_range.
Theorem C215_given : forall k : nat, get_random_state (SState k) = Ok (Given k).
Proof. exact @random_state_kept. Qed.
Print Assumptions C215_given.
Theorem C215_none : get_random_state SNone = Ok Global.
Proof. exact @random_none. Qed.
Print Assumptions C215_none.
Theorem C215_other : get_random_state (SOther true) = Err ValueError.
Proof. exact @random_other. Qed.
Print Assumptions C215_other.
(* the seed 0 is taken for no seed *)
Theorem C215_zero_refuted : exists z, (0 <= z < 2 ^ 32)%Z /\ get_random_state (SInt z) = Ok Global /\ get_random_state (SInt z) <> Ok (Fresh z).
Proof. exists 0%Z. split; [lia|]. split; [reflexivity|discriminate]. Qed.
Print Assumptions C215_zero_refuted.
Example C215_example : get_random_state (SInt 42) = Ok (Fresh 42) /\ get_random_state (SInt (-1)) = Err ValueError.
Proof. split; reflexivity. Qed.
Theorem C213_events_error : forall (norm : option str) (pt : str) (gtis : option nat) (dt : option Q) (seg : option (option Q)), good_norm norm -> good_type pt ->
  good_gtis gtis seg -> (forall v : Q, dt = Some v -> v <= 0.000000000000001) -> basic_checks norm pt DEvents DEvents gtis dt seg = Err ValueError.
Proof. exact @events_error. Qed.
Print Assumptions C213_events_error.
Theorem C213_lists_error : forall (norm : option str) (pt : str) (l m : list (option str)) (gtis : option nat) (dt : option Q) (seg : option (option Q)), good_norm norm
  -> good_type pt -> good_gtis gtis seg -> l = [] \/ (exists (x : str) (r : list (option str)), l = Some x :: r) /\ m = [] -> basic_checks norm pt (DList l) (DList m) gtis
  dt seg = Err IndexError /\ basic_checks norm pt (DTuple l) (DTuple m) gtis dt seg = Err IndexError.
Proof. exact @lists_error. Qed.
Print Assumptions C213_lists_error.
Theorem C213_lists_kind_error : forall (norm : option str) (pt : str) (l m : list (option str)) (gtis : option nat) (dt : option Q) (seg : option (option Q)), good_norm
  norm -> good_type pt -> good_gtis gtis seg -> (exists r : list (option str), l = None :: r) \/ (exists (x : str) (r r' : list (option str)), l = Some x :: r /\ m = None
  :: r') -> basic_checks norm pt (DList l) (DList m) gtis dt seg = Err TypeError /\ basic_checks norm pt (DTuple l) (DTuple m) gtis dt seg = Err TypeError.
Proof. exact @lists_kind_error. Qed.
Print Assumptions C213_lists_kind_error.
