(* T_object.v: property theorems about the attributes of objects, their comparison, conversion to tables and reading of times (C154 - C157). *)
From Coq Require Import String Ascii.
From Verif Require Import Np Lib M_utils M_base M_io M_mission M_object S_object P_mission P_object P_object2.
From Coq Require Import ZArith QArith List Bool Lia Lqa.
Import ListNotations.
Open Scope Q_scope.

(* ---------- C154: lists of attributes ---------- *)
Theorem C154_array : forall c o n,
  proper o -> long c o n -> exists l, array_attrs c o = Ok l /\ forall x, In x l <-> column c o n x.
Proof. exact array_list. Qed.
Print Assumptions C154_array.
Theorem C154_internal : forall c o n,
  proper o -> long c o n ->
  exists l, internal_array_attrs c o = Ok l /\ forall x, In x l <-> hidden c o n x.
Proof. exact internal_list. Qed.
Print Assumptions C154_internal.
Theorem C154_meta : forall c o n,
  proper o -> long c o n -> exists l, meta_attrs c o = Ok l /\ forall x, In x l <-> meta c o n x.
Proof. exact meta_list. Qed.
Print Assumptions C154_meta.
Theorem C154_one_place : forall c o n x v,
  proper o -> long c o n -> In (x, v) o -> data v -> public x -> x <> c_main c ->
  ~ In (c_main c) (c_not_array c) ->
  (column c o n x \/ meta c o n x) /\ ~ (column c o n x /\ meta c o n x) /\ ~ hidden c o n x.
Proof. exact one_place. Qed.
Print Assumptions C154_one_place.
Theorem C154_empty : forall c o,
  attr o (c_main c) = Some VNone -> array_attrs c o = Ok [] /\ internal_array_attrs c o = Ok [].
Proof. exact empty_lists. Qed.
Print Assumptions C154_empty.
(* ---------- C155: comparison ---------- *)
Theorem C155_equal : forall c a b n k,
  proper a -> proper b -> long c a n -> long c b k ->
  obj_eq c a b = Ok true <->
  (forall x, column c a n x <-> column c b k x) /\ (forall x, meta c a n x <-> meta c b k x) /\
  (forall x, column c a n x \/ meta c a n x \/ hidden c a n x -> exists v w, In (x, v) a /\ In (x, w) b /\ same v w).
Proof. exact eq_iff. Qed.
Print Assumptions C155_equal.
Theorem C155_reflexive : forall c a n,
  proper a -> long c a n ->
  (forall x v, In (x, v) a -> v <> VNum None) -> (forall x, In x (c_not_array c) -> exists v, In (x, v) a /\ data v) ->
  obj_eq c a a = Ok true.
Proof. exact eq_refl_ok. Qed.
Print Assumptions C155_reflexive.
Theorem C155_main_ignored : forall c a n s d,
  proper a -> long c a n ->
  (forall x v, In (x, v) a -> v <> VNum None) -> (forall x, In x (c_not_array c) -> exists v, In (x, v) a /\ data v) ->
  ~ In (c_main c) (c_not_array c) -> public (c_main c) ->
  obj_eq c a (set_attr a (c_main c) (VArr (n :: s) d)) = Ok true.
Proof. exact main_changed. Qed.
Print Assumptions C155_main_ignored.
(* an event list, stingray/events.py:85-290 with some of its attributes: times, energies, good time intervals *)
Definition events : cls := mkCls (% "time") [% "gti"] [% "n"] true
  [(% "time", VNone); (% "gti", VNone); (% "_mask", VNone); (% "energy", VNone); (% "dt", VNum (Some 0)); (% "mjdref", VNum (Some 0)); (% "notes", VText [])].
Definition numbers (l : list Q) : value := VArr [List.length l] (map Some l).
Definition one_gti : value := VArr [1%nat; 2%nat] [Some 0; Some 10].
Definition event_list (times : list Q) (mask : value) (extra : list (str * value)) : obj :=
  [(% "time", numbers times); (% "gti", one_gti); (% "_mask", mask); (% "energy", VNone); (% "dt", VNum (Some 0)); (% "mjdref", VNum (Some 0)); (% "notes", VText [])] ++ extra.
(* "All attributes (internal, array, meta) are compared": event lists with different times, even with a different number of
   events, are equal *)
Theorem C155_times_refuted : exists a b s t, In (% "time", numbers s) a /\ In (% "time", numbers t) b /\ List.length s <> List.length t /\ obj_eq events a b = Ok true.
Proof. exists (event_list [1; 2; 3] VNone []), (event_list [4; 5] VNone []), [1; 2; 3], [4; 5]. split; [now left|]. split; [now left|]. split; [discriminate|vm_compute; reflexivity]. Qed.
Print Assumptions C155_times_refuted.
(* reading the mask of one of two equal lists makes == depend on the order *)
Theorem C155_symmetric_refuted : exists a b, obj_eq events a b = Ok false /\ obj_eq events b a = Ok true.
Proof. exists (event_list [1; 2; 3] (numbers [1; 1; 1]) []), (event_list [1; 2; 3] VNone []). split; vm_compute; reflexivity. Qed.
Print Assumptions C155_symmetric_refuted.
(* a nan outside an array: the object is not equal to itself *)
Theorem C155_nan_refuted : exists a, proper a /\ obj_eq events a a = Ok false.
Proof. exists (event_list [1; 2; 3] VNone [(% "x", VNum None)]). split; [|vm_compute; reflexivity]. unfold proper. cbn. repeat constructor; cbn; intuition discriminate. Qed.
Print Assumptions C155_nan_refuted.
(* two empty event lists cannot be compared *)
Theorem C155_empty_refuted : exists a, a = c_new events /\ obj_eq events a a = Err TypeError.
Proof. exists (c_new events). split; [reflexivity|vm_compute; reflexivity]. Qed.
Print Assumptions C155_empty_refuted.

(* ---------- C156: round trip through a table ---------- *)
Theorem C156_table : forall c o n,
  proper o -> long c o n -> NoDup (c_not_array c) -> (forall x, In x (c_not_array c) -> exists v, In (x, v) o) ->
  ~ In (c_main c) (c_not_array c) -> public (c_main c) ->
  exists t, to_table c o = Ok t /\ NoDup (map fst (t_cols t)) /\ NoDup (map fst (t_meta t)) /\
    (forall x v, In (x, v) (t_cols t) <-> In (x, v) o /\ (x = c_main c \/ column c o n x \/ hidden c o n x)) /\
    (forall x v, In (x, v) (t_meta t) <-> In (x, v) o /\ v <> VNone /\ meta c o n x).
Proof. exact table_ok. Qed.
Print Assumptions C156_table.
Theorem C156_round_trip : forall (c : cls) (o : obj) (n : nat), proper o -> long c o n -> n <> 0%nat -> NoDup (c_not_array c) ->
  (forall x, In x (c_not_array c) -> exists v, In (x, v) o) -> ~ In (c_main c) (c_not_array c) -> public (c_main c) ->
  (forall x, In x (c_not_array c) -> public x) -> (forall x v, In (x, v) o -> lowercase x) -> (c_gti c = true -> In (% "gti") (c_not_array c)) ->
  exists t, to_table c o = Ok t /\
  (forall x v, x <> % "_mask" -> In (x, v) o -> x = c_main c \/ column c o n x \/ hidden c o n x -> attr (from_table c t) x = Some v) /\
  (forall x v, In (x, v) o -> v <> VNone -> meta c o n x -> ~ In x (c_readonly c) -> attr (from_table c t) x = Some v) /\
  (forall x, x <> % "_mask" -> ~ In x (map fst o) -> attr (from_table c t) x = attr (c_new c) x) /\
  (forall x, In (x, VNone) o -> x <> % "_mask" -> attr (from_table c t) x = attr (c_new c) x) /\
  (c_gti c = true -> ~ In (% "gti") (c_readonly c) -> (exists v, In (% "gti", v) o /\ v <> VNone) ->
     attr (from_table c t) (% "_mask") = Some VNone) /\
  (forall v, (c_gti c = false \/ In (% "gti", VNone) o) -> c_main c <> % "_mask" -> hidden c o n (% "_mask") -> In (% "_mask", v) o ->
     attr (from_table c t) (% "_mask") = Some v).
Proof. exact round_trip. Qed.
Print Assumptions C156_round_trip.
Theorem C156_empty_error : forall c t,
  rows t = 0%nat -> from_table c t = c_new c.
Proof. exact no_rows. Qed.
Print Assumptions C156_empty_error.
Theorem C156_any_case : forall c t t', same_entries (t_cols t) (t_cols t') -> same_entries (t_meta t) (t_meta t') -> from_table c t = from_table c t'.
Proof. exact from_table_case. Qed.
Print Assumptions C156_any_case.
Example C156_any_case_nonvacuous : same_entries [(% "TIME", numbers [1; 2])] [(% "Time", numbers [1; 2])].
Proof. repeat constructor; unfold same_letter; cbn; try (now left); right; left; cbn; lia. Qed.
(* names with upper case letters: the attribute comes back under another name, and may replace another one *)
Theorem C156_case_refuted : exists a t, obj_eq events a a = Ok true /\ to_table events a = Ok t /\
  In (% "A", numbers [1; 2]) a /\ attr (from_table events t) (% "A") = None /\
  In (% "a", numbers [3; 4]) a /\ attr (from_table events t) (% "a") = Some (numbers [1; 2]).
Proof.
  exists (event_list [1; 2] VNone [(% "a", numbers [3; 4]); (% "A", numbers [1; 2])]). eexists. split; [vm_compute; reflexivity|]. split; [vm_compute; reflexivity|].
  split; [cbn; tauto|]. split; [vm_compute; reflexivity|]. split; [cbn; tauto|vm_compute; reflexivity].
Qed.
Print Assumptions C156_case_refuted.
(* an event list whose mask has been read is not equal to the one read back from its table *)
Theorem C156_equal_refuted : exists a t, obj_eq events a a = Ok true /\ to_table events a = Ok t /\ obj_eq events a (from_table events t) = Ok false.
Proof. exists (event_list [1; 2] (numbers [1; 1]) []). eexists. split; [vm_compute; reflexivity|]. split; vm_compute; reflexivity. Qed.
Print Assumptions C156_equal_refuted.
(* an object without rows loses its meta data *)
Theorem C156_empty_refuted : exists a t, obj_eq events a a = Ok true /\ to_table events a = Ok t /\ In (% "mjdref", VNum (Some 55000)) a /\
  attr (from_table events t) (% "mjdref") = Some (VNum (Some 0)).
Proof.
  exists [(% "time", VArr [0%nat] []); (% "gti", one_gti); (% "_mask", VNone); (% "energy", VNone); (% "dt", VNum (Some 0)); (% "mjdref", VNum (Some 55000)); (% "notes", VText [])].
  eexists. split; [vm_compute; reflexivity|]. split; [vm_compute; reflexivity|]. split; [cbn; tauto|vm_compute; reflexivity].
Qed.
Print Assumptions C156_empty_refuted.

(* ---------- C157: reading of times ---------- *)
Theorem C157_dates : forall l mjdref t ref,
  interpret_times (TTime (Many l)) mjdref = Ok (t, ref) ->
  exists s, t = Some (Many s) /\ Forall2 (fun x m => mjd_of x ref == m) s l /\ (ref = mjdref \/ (mjdref == 0 /\ (forall m, In m l -> 10000 < m) /\ nth_error l 0 = Some ref)).
Proof. exact interpret_many. Qed.
Print Assumptions C157_dates.
Theorem C157_date : forall m mjdref t ref,
  interpret_times (TTime (One m)) mjdref = Ok (t, ref) ->
  exists s, t = Some (One s) /\ mjd_of s ref == m /\ (ref = mjdref \/ (mjdref == 0 /\ 10000 < m /\ ref = m)).
Proof. exact interpret_one. Qed.
Print Assumptions C157_date.
Theorem C157_total : forall l mjdref,
  l <> [] -> exists t ref, interpret_times (TTime (Many l)) mjdref = Ok (t, ref).
Proof. exact interpret_total. Qed.
Print Assumptions C157_total.
Theorem C157_numbers : forall t mjdref,
  interpret_times (TPlain t) mjdref = Ok (Some t, mjdref) /\ interpret_times (TSeconds t) mjdref = Ok (Some t, mjdref) /\ interpret_times TNone mjdref = Ok (None, mjdref) /\ interpret_times TOther mjdref = Err ValueError.
Proof. exact interpret_numbers. Qed.
Print Assumptions C157_numbers.
Theorem C157_init_dates : forall l mjdref arrays ts,
  ~ mjdref == 0 -> l <> [] -> timeseries_init (TTime (Many l)) mjdref arrays = Ok ts ->
  exists s, ts_time ts = Some (Many s) /\ Forall2 (fun x m => mjd_of x (ts_mjdref ts) == m) s l /\ ts_mjdref ts = mjdref.
Proof. exact init_dates. Qed.
Print Assumptions C157_init_dates.
Theorem C157_init_lost_error : forall l mjdref arrays ts,
  mjdref == 0 -> l <> [] -> (forall m, In m l -> 10000 < m) ->
  timeseries_init (TTime (Many l)) mjdref arrays = Ok ts ->
  exists s m0, ts_time ts = Some (Many s) /\ nth_error l 0 = Some m0 /\ ts_mjdref ts = mjdref /\ Forall2 (fun x m => mjd_of x (ts_mjdref ts) == m - m0) s l.
Proof. exact init_lost. Qed.
Print Assumptions C157_init_lost_error.
Theorem C157_init_columns : forall l mjdref arrays,
  l <> [] ->
  (forall ts, timeseries_init (TPlain (Many l)) mjdref arrays = Ok ts ->
     ts_time ts = Some (Many l) /\ ts_mjdref ts = mjdref /\ ts_cols ts = arrays /\ forall k v, In (k, v) arrays -> List.length v = List.length l) /\ ((forall k v, In (k, v) arrays -> List.length v = List.length l) -> exists ts, timeseries_init (TPlain (Many l)) mjdref arrays = Ok ts) /\ ((exists k v, In (k, v) arrays /\ List.length v <> List.length l) -> timeseries_init (TPlain (Many l)) mjdref arrays = Err ValueError).
Proof. exact init_columns. Qed.
Print Assumptions C157_init_columns.
Theorem C157_init_empty : forall t mjdref arrays, t = TNone \/ t = TTime (Many []) \/ t = TSeconds (Many []) \/ t = TPlain (Many []) ->
  timeseries_init t mjdref arrays = match arrays with [] => Ok (mkTs None mjdref []) | _ => Err AttributeError end.
Proof. exact init_empty. Qed.
Print Assumptions C157_init_empty.
(* dates given to a time series without a reference: the times count from the first date, and the reference stays zero *)
Theorem C157_reference_refuted : exists l ts, timeseries_init (TTime (Many l)) 0 [] = Ok ts /\
  (forall s, ts_time ts = Some (Many s) -> ~ Forall2 (fun x m => mjd_of x (ts_mjdref ts) == m) s l).
Proof.
  exists [55000; 55001]. eexists. split; [vm_compute; reflexivity|]. cbn [ts_time ts_mjdref]. intros s E F.
  assert (X : forall a b, Some (Many a) = Some (Many b) -> a = b) by congruence. apply X in E. subst s.
  inversion F as [|? ? ? ? A _]. revert A. unfold mjd_of. intros A. vm_compute in A. discriminate.
Qed.
Print Assumptions C157_reference_refuted.

Example C154_nonvacuous : exists o, proper o /\ long events o 2 /\ column events o 2 (% "pi") /\ hidden events o 2 (% "_mask") /\ meta events o 2 (% "dt") /\
  array_attrs events o = Ok [% "pi"] /\ internal_array_attrs events o = Ok [% "_mask"] /\ meta_attrs events o = Ok [% "dt"; % "mjdref"; % "notes"; % "gti"].
Proof.
  exists (event_list [1; 2] (numbers [1; 1]) [(% "pi", numbers [3; 4])]).
  split; [unfold proper; cbn; repeat constructor; cbn; intuition discriminate|].
  split; [exists [], [Some 1; Some 2]; now left|].
  split; [split; [intros m E; discriminate|]; split; [discriminate|]; split; [cbn; intuition discriminate|]; exists [], [Some 3; Some 4]; cbn; tauto|].
  split; [split; [intros H; now apply (H (% "mask"))|]; split; [discriminate|]; split; [cbn; intuition discriminate|]; split; [cbn; intuition discriminate|];
    exists [], [Some 1; Some 1]; split; [cbn; tauto|]; split; [discriminate|intros []]|].
  split; [right; split; [intros m E; discriminate|]; split; [discriminate|]; exists (VNum (Some 0)); split; [cbn; tauto|]; split; [split; discriminate|intros; discriminate]|].
  repeat split; vm_compute; reflexivity.
Qed.
(* equal and different lists *)
Example C155_nonvacuous : obj_eq events (event_list [1; 2] VNone [(% "pi", numbers [3; 4])]) (event_list [1; 2] VNone [(% "pi", numbers [3; 4])]) = Ok true /\
  obj_eq events (event_list [1; 2] VNone [(% "pi", numbers [3; 4])]) (event_list [1; 2] VNone [(% "pi", numbers [3; 5])]) = Ok false /\
  obj_eq events (event_list [1; 2] VNone [(% "x", VNum (Some 1))]) (event_list [1; 2] VNone [(% "x", VNum (Some 2))]) = Ok false.
Proof. repeat split; vm_compute; reflexivity. Qed.
Example C156_nonvacuous : exists t, to_table events (event_list [1; 2] VNone [(% "pi", numbers [3; 4]); (% "x", VNum (Some 7)); (% "n", VNum (Some 9))]) = Ok t /\
  map fst (t_cols t) = [% "pi"; % "time"] /\ attr (from_table events t) (% "pi") = Some (numbers [3; 4]) /\ attr (from_table events t) (% "x") = Some (VNum (Some 7)) /\
  attr (from_table events t) (% "gti") = Some one_gti /\ attr (from_table events t) (% "n") = None.
Proof. eexists. split; [vm_compute; reflexivity|]. repeat split; vm_compute; reflexivity. Qed.
Example C157_nonvacuous : interpret_times (TTime (Many [55000; 55001])) 0 = Ok (Some (Many [0; 86400]), 55000) /\
  exists ts, timeseries_init (TTime (Many [55000; 55001])) 54000 [(% "pi", [1; 2])] = Ok ts /\ ts_time ts = Some (Many [86400000; 86486400]).
Proof. split; [vm_compute; reflexivity|]. eexists. split; vm_compute; reflexivity. Qed.

