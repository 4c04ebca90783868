(* T_rw.v: property theorems about complex columns in text files (C220). *)
From Coq Require Import String Ascii.
From Verif Require Import Np Lib M_io M_mission M_rw S_rw P_rw.
From Coq Require Import QArith List Bool Lia Lqa.
Import ListNotations.
Open Scope Q_scope.
Theorem C220_written : forall (b : str * column -> bool) (t : tab), sound t -> (forall p : str * column, b p = true <-> to_split p) -> exists l : list (list (str *
  column)), write_table true t = Ok (filter (fun p : str * column => negb (b p)) t ++ concat l) /\ Forall2 (fun p : str * column => two_columns (fst p) (snd p)) (filter b
  t) l.
Proof. exact @written. Qed.
Print Assumptions C220_written.
Theorem C220_read : forall (b : str * column -> bool) (t : tab), sound t -> (forall p : str * column, b p = true <-> to_split p) -> (exists p : str * column, In p t /\ ~
  to_split p) -> exists (w : tab) (r : list (str * column)), write_table true t = Ok w /\ read_table true w = Ok (filter (fun p : str * column => negb (b p)) t ++ r) /\
  match filter b t with | [] => match r with | [] => True | _ :: _ => False end | p :: l => match r with | [] => False | q :: m => as_it_was p q /\ Forall2 all_imaginary l
  m end end.
Proof. exact @came_back. Qed.
Print Assumptions C220_read.
Theorem C220_one_complex_partial : forall (t : tab) (n : str) (c : column), sound t -> (exists p : str * column, In p t /\ ~ to_split p) -> In (n, c) t -> to_split (n, c)
  -> (forall p : str * column, In p t -> to_split p -> p = (n, c)) -> exists (w : tab) (r : list (str * column)) (q : str * column), write_table true t = Ok w /\ read_table
  true w = Ok (r ++ [q]) /\ as_it_was (n, c) q /\ (forall p : str * column, In p r <-> In p t /\ p <> (n, c)).
Proof. exact @one_column. Qed.
Print Assumptions C220_one_complex_partial.
Theorem C220_binary : forall t : tab, sound t -> write_table false t = Ok t /\ read_table false t = Ok t.
Proof. exact @binary_files. Qed.
Print Assumptions C220_binary.
Theorem C220_first_column_error : forall (n : str) (c : column) (t : list (str * column)), ends_with dot_real (lower n) = true -> read_table true ((n, c) :: t) = Err
  UnboundLocalError \/ (exists (m : str) (d : column), In (m, d) t /\ lower m = lower n).
Proof. exact @unbound_error. Qed.
Print Assumptions C220_first_column_error.
Theorem C220_all_complex_error : forall t : tab, sound t -> t <> [] -> (forall p : str * column, In p t -> to_split p) -> exists w : tab, write_table true t = Ok w /\
  read_table true w = Err UnboundLocalError.
Proof. exact @all_split_error. Qed.
Print Assumptions C220_all_complex_error.
Theorem C220_empty_error : forall (n : str) (c : column) (t : list (str * column)), k_data c = [] -> write_table true ((n, c) :: t) = Err IndexError.
Proof. exact @empty_error. Qed.
Print Assumptions C220_empty_error.
Theorem C220_clash_error : forall (n : str) (c : column), plain n -> no_capital n -> k_complex c = false -> read_table true [(n, c); (n ++ dot_imag, c)] = Err TypeError.
Proof. exact @clash_error. Qed.
Print Assumptions C220_clash_error.
Ltac is_sound := split; [repeat (apply NoDup_cons; [intros C; cbn in C; intuition discriminate|]); apply NoDup_nil|
  repeat (apply Forall_cons; [split; [intros C; cbn in C; intuition discriminate|split; [reflexivity|discriminate]]|]); apply Forall_nil].
(* a cross spectrum has two complex arrays: the real part of the second one becomes part of its imaginary part *)
Definition cross_table : tab := [(% "power", mkCol true [(3, 1); (5, 2)]); (% "unnorm_power", mkCol true [(30, 10); (50, 20)]); (% "freq", mkCol false [(1, 0); (2, 0)])].
Theorem C220_round_trip_refuted : exists t w r c d, sound t /\ write_table true t = Ok w /\ read_table true w = Ok r /\
  col_get t (% "unnorm_power") = Some c /\ col_get r (% "unnorm_power") = Some d /\ k_data c = [(30, 10); (50, 20)] /\
  Forall2 (fun v x => fst v == 0 /\ snd v == x) (k_data d) [40; 70].
Proof.
  exists cross_table. do 4 eexists. split.
  - is_sound.
  - split; [vm_compute; reflexivity|]. split; [vm_compute; reflexivity|]. split; [reflexivity|]. split; [vm_compute; reflexivity|]. split; [reflexivity|].
    repeat constructor.
Qed.
Print Assumptions C220_round_trip_refuted.
(* whether a column is complex is decided by its first value *)
Theorem C220_split_refuted : exists t, sound t /\ write_table true t = Ok t /\ exists c, col_get t (% "power") = Some c /\ k_complex c = true /\ k_data c = [(3, 0); (5, 2)].
Proof.
  exists [(% "freq", mkCol false [(1, 0); (2, 0)]); (% "power", mkCol true [(3, 0); (5, 2)])]. split.
  - is_sound.
  - split; [reflexivity|]. eexists. split; [reflexivity|]. split; reflexivity.
Qed.
Print Assumptions C220_split_refuted.
(* a file in which the imaginary part comes before the real part *)
Theorem C220_order_refuted : exists r c, read_table true [(% "freq", mkCol false [(1, 0)]); (% "power.imag", mkCol false [(2, 0)]); (% "power.real", mkCol false [(7, 0)])] = Ok r /\
  col_get r (% "power") = Some c /\ Forall2 (fun v x => fst v == 0 /\ snd v == x) (k_data c) [9].
Proof. do 2 eexists. split; [vm_compute; reflexivity|]. split; [vm_compute; reflexivity|]. repeat constructor. Qed.
Print Assumptions C220_order_refuted.
(* names that differ by their case *)
Theorem C220_case_refuted : exists a b, a <> b /\ read_table false [(% "A", a); (% "a", b)] = Ok [(% "a", b)].
Proof. exists (mkCol false [(1, 0)]), (mkCol false [(2, 0)]). split; [discriminate|reflexivity]. Qed.
Print Assumptions C220_case_refuted.
Example C220_example : sound cross_table /\ (exists p, In p cross_table /\ ~ to_split p) /\ to_split (% "power", mkCol true [(3, 1); (5, 2)]) /\
  (exists w, write_table true cross_table = Ok w /\ map fst w = [% "freq"; % "power.real"; % "power.imag"; % "unnorm_power.real"; % "unnorm_power.imag"]) /\
  ends_with dot_real (lower (% "Power.REAL")) = true.
Proof.
  split; [is_sound|].
  split; [exists (% "freq", mkCol false [(1, 0); (2, 0)]); split; [right; right; now left|intros [C _]; discriminate]|].
  split; [split; [reflexivity|]; do 2 eexists; split; [reflexivity|]; intros E; vm_compute in E; discriminate|].
  split; [eexists; split; [vm_compute; reflexivity|reflexivity]|reflexivity].
Qed.
