(* T_xarr.v: theorems about the conversion of objects into xarray datasets and pandas data frames, stingray/base.py. *)
From Coq Require Import String Ascii.
From Verif Require Import Np Lib M_utils M_base M_io M_mission M_object S_object P_mission P_object P_helpers P_object2 M_xarr M_pandas P_xarr P_pandas.
From Coq Require Import ZArith QArith List Bool Lia Lqa Permutation.
Import ListNotations.
Open Scope Q_scope.

(* a class like EventList *)
Definition events : cls := mkCls (% "time") [% "gti"] [% "n"] true
  [(% "time", VNone); (% "gti", VNone); (% "_mask", VNone); (% "energy", VNone); (% "mjdref", VNum (Some 0)); (% "notes", VText [])].
Definition numbers (l : list Q) : value := VArr [List.length l] (map Some l).
Definition one_gti : value := VArr [1%nat; 2%nat] [Some 0; Some 10].
Definition event_list (times : list Q) (mask : value) (extra : list (str * value)) : obj :=
  [(% "time", numbers times); (% "gti", one_gti); (% "_mask", mask); (% "energy", VNone); (% "mjdref", VNum (Some 55000)); (% "notes", VText [])] ++ extra.
Definition names : list str -> list str := nodup (list_eq_dec ascii_dec).
(* ---------- C207: xarray ---------- *)
Theorem C207_round_trip : forall (c : cls) (o : obj) (n : nat), proper o -> long c o n -> n <> 0%nat -> NoDup (c_not_array c) -> (forall x : str, In x (c_not_array c) ->
  exists v : value, In (x, v) o) -> ~ In (c_main c) (c_not_array c) -> public (c_main c) -> (forall x : str, In x (c_not_array c) -> public x) -> (forall x : str, In x
  (c_readonly c) -> ~ In x (map fst o)) -> (c_gti c = true -> In (list_ascii_of_string "gti") (c_not_array c)) -> forall d : dataset, to_xarray c o = Ok d -> exists o' :
  obj, from_xarray c d = Ok o' /\ (forall (x : str) (v : value), x <> list_ascii_of_string "_mask" -> In (x, v) o -> x = c_main c \/ column c o n x \/ hidden c o n x ->
  attr o' x = Some v) /\ (forall (x : str) (v : value), In (x, v) o -> v <> VNone -> meta c o n x -> attr o' x = Some v) /\ (forall x : str, x <> list_ascii_of_string
  "_mask" -> ~ In x (map fst o) -> attr o' x = attr (c_new c) x) /\ (forall x : str, In (x, VNone) o -> x <> list_ascii_of_string "_mask" -> attr o' x = attr (c_new c) x)
  /\ (c_gti c = true -> (exists v : value, In (list_ascii_of_string "gti", v) o /\ v <> VNone) -> attr o' (list_ascii_of_string "_mask") = Some VNone) /\ (forall v : value,
  c_gti c = false \/ In (list_ascii_of_string "gti", VNone) o -> c_main c <> list_ascii_of_string "_mask" -> hidden c o n (list_ascii_of_string "_mask") -> In
  (list_ascii_of_string "_mask", v) o -> attr o' (list_ascii_of_string "_mask") = Some v).
Proof. exact @xarray_trip. Qed.
Print Assumptions C207_round_trip.
Theorem C207_flat : forall (c : cls) (o : obj) (n : nat), proper o -> long c o n -> n <> 0%nat -> NoDup (c_not_array c) -> (forall x : str, In x (c_not_array c) -> exists
  v : value, In (x, v) o) -> ~ In (c_main c) (c_not_array c) -> public (c_main c) -> (forall (x : str) (s : list nat) (d : list (option Q)), In (x, VArr s d) o ->
  (List.length s <= 1)%nat) -> exists d : dataset, to_xarray c o = Ok d.
Proof. exact @xarray_flat. Qed.
Print Assumptions C207_flat.
Theorem C207_fails_only : forall (c : cls) (o : obj) (e : exn), (exists t : table, to_table c o = Ok t) -> to_xarray c o = Err e -> e = ValueError.
Proof. exact @xarray_fails. Qed.
Print Assumptions C207_fails_only.
Theorem C207_empty_error : forall (c : cls) (d : dataset) (dd : list (option Q)) (s : list nat), attr (d_coords d ++ d_vars d) (c_main c) = Some (VArr (0%nat :: s) dd) ->
  from_xarray c d = Ok (c_new c).
Proof. exact @xarray_empty. Qed.
Print Assumptions C207_empty_error.
Theorem C207_no_main : forall (c : cls) (d : dataset), ~ In (c_main c) (map fst (d_coords d ++ d_vars d)) -> from_xarray c d = Err KeyError.
Proof. exact @xarray_no_main. Qed.
Print Assumptions C207_no_main.
Theorem C207_readonly : forall (c : cls) (d : dataset) (m : nat) (s : list nat) (dd : list (option Q)) (x : str) (v : value), attr (d_coords d ++ d_vars d) (c_main c) =
  Some (VArr (S m :: s) dd) -> In (x, v) (d_attrs d) -> ~ In x (map fst (d_coords d ++ d_vars d)) -> In x (c_readonly c) -> from_xarray c d = Err AttributeError.
Proof. exact @xarray_readonly. Qed.
Print Assumptions C207_readonly.
(* an object without rows loses its meta data *)
Theorem C207_empty_refuted : exists a d o', to_xarray events a = Ok d /\ from_xarray events d = Ok o' /\ In (% "mjdref", VNum (Some 55000)) a /\
  attr o' (% "mjdref") = Some (VNum (Some 0)).
Proof.
  exists (event_list [] VNone []). do 2 eexists. split; [vm_compute; reflexivity|]. split; [vm_compute; reflexivity|]. split; [cbn; tauto|vm_compute; reflexivity].
Qed.
Print Assumptions C207_empty_refuted.
(* the object that comes back is not equal when the mask had been read *)
Theorem C207_equal_refuted : exists a d o', obj_eq events a a = Ok true /\ to_xarray events a = Ok d /\ from_xarray events d = Ok o' /\ obj_eq events a o' = Ok false.
Proof.
  exists (event_list [1; 2] (numbers [1; 1]) []). do 2 eexists. split; [vm_compute; reflexivity|]. split; [vm_compute; reflexivity|]. split; vm_compute; reflexivity.
Qed.
Print Assumptions C207_equal_refuted.
(* a column called like a dimension of another array cannot be written *)
Theorem C207_dimension_refuted : exists a, obj_eq events a a = Ok true /\ to_xarray events a = Err ValueError.
Proof.
  exists (event_list [1; 2; 3] VNone [(% "x", VArr [3%nat; 2%nat] (map Some [1; 2; 3; 4; 5; 6])); (% "x_dim1", numbers [7; 8; 9])]). split; vm_compute; reflexivity.
Qed.
Print Assumptions C207_dimension_refuted.
Example C207_nonvacuous : let a := event_list [1; 2; 3] VNone [(% "X", VArr [3%nat; 2%nat] (map Some [1; 2; 3; 4; 5; 6])); (% "b", numbers [7; 8; 9])] in
  proper a /\ long events a 3 /\ exists d o', to_xarray events a = Ok d /\ map fst (d_coords d) = [% "b"; % "time"] /\ map fst (d_vars d) = [% "X"] /\
    from_xarray events d = Ok o' /\ obj_eq events a o' = Ok true.
Proof.
  cbv zeta. split; [|split].
  - unfold proper. vm_compute. repeat constructor; cbn; intuition discriminate.
  - exists [], (map Some [1; 2; 3]). now left.
  - do 2 eexists. split; [vm_compute; reflexivity|]. split; [vm_compute; reflexivity|]. split; [vm_compute; reflexivity|]. split; vm_compute; reflexivity.
Qed.
(* ---------- C208: pandas ---------- *)
Theorem C208_round_trip : forall (c : cls) (o : obj) (n : nat) (uniq : list str -> list str), uniq [] = [] -> proper o -> long c o n -> n <> 0%nat -> NoDup (c_not_array
  c) -> (forall x : str, In x (c_not_array c) -> exists v : value, In (x, v) o) -> ~ In (c_main c) (c_not_array c) -> public (c_main c) -> (forall x : str, In x
  (c_not_array c) -> public x) -> (forall x : str, In x (c_readonly c) -> ~ In x (map fst o)) -> (c_gti c = true -> In (list_ascii_of_string "gti") (c_not_array c)) ->
  (forall (x : str) (s : list nat) (d : list (option Q)), In (x, VArr s d) o -> List.length d = fold_right Nat.mul 1%nat s) -> (forall (x : str) (s : list nat) (d : list
  (option Q)), x = c_main c \/ column c o n x \/ hidden c o n x -> In (x, VArr s d) o -> s = [n]) -> (forall x : str, x = c_main c \/ column c o n x \/ hidden c o n x -> ~
  (exists a b : str, x = a ++ list_ascii_of_string "_dim" ++ b)) -> exists (f : frame) (o' : obj), to_pandas c o = Ok f /\ from_pandas uniq c f = Ok o' /\ NoDup (map fst
  (f_cols f)) /\ (forall (x : str) (v : value), In (x, v) (f_cols f) <-> In (x, v) o /\ (x = c_main c \/ column c o n x \/ hidden c o n x)) /\ (forall (x : str) (v :
  value), x <> list_ascii_of_string "_mask" -> In (x, v) o -> x = c_main c \/ column c o n x \/ hidden c o n x -> attr o' x = Some v) /\ (forall (x : str) (v : value), In
  (x, v) o -> v <> VNone -> meta c o n x -> attr o' x = Some v) /\ (forall x : str, x <> list_ascii_of_string "_mask" -> ~ In x (map fst o) -> attr o' x = attr (c_new c) x)
  /\ (forall x : str, In (x, VNone) o -> x <> list_ascii_of_string "_mask" -> attr o' x = attr (c_new c) x) /\ (c_gti c = true -> (exists v : value, In
  (list_ascii_of_string "gti", v) o /\ v <> VNone) -> attr o' (list_ascii_of_string "_mask") = Some VNone) /\ (forall v : value, c_gti c = false \/ In (list_ascii_of_string
  "gti", VNone) o -> c_main c <> list_ascii_of_string "_mask" -> hidden c o n (list_ascii_of_string "_mask") -> In (list_ascii_of_string "_mask", v) o -> attr o'
  (list_ascii_of_string "_mask") = Some v).
Proof. exact @pandas_trip. Qed.
Print Assumptions C208_round_trip.
Theorem C208_empty_error : forall (uniq : list str -> list str) (c : cls) (f : frame), len_frame f = 0%nat -> from_pandas uniq c f = Ok (c_new c).
Proof. exact @pandas_empty. Qed.
Print Assumptions C208_empty_error.
Theorem C208_no_main : forall (uniq : list str -> list str) (c : cls) (f : frame), len_frame f <> 0%nat -> ~ In (c_main c) (map fst (f_cols f)) -> from_pandas uniq c f =
  Err KeyError.
Proof. exact @pandas_no_main. Qed.
Print Assumptions C208_no_main.
(* a column whose name ends like those of parts of an array comes back with another name and shape *)
Theorem C208_name_refuted : exists a f o', obj_eq events a a = Ok true /\ to_pandas events a = Ok f /\ from_pandas names events f = Ok o' /\
  In (% "x_dim0", numbers [7; 8; 9]) a /\ attr o' (% "x_dim0") = None /\ attr o' (% "x") = Some (VArr [3%nat; 1%nat] (map Some [7; 8; 9])).
Proof.
  exists (event_list [1; 2; 3] VNone [(% "x_dim0", numbers [7; 8; 9])]). do 2 eexists. split; [vm_compute; reflexivity|]. split; [vm_compute; reflexivity|].
  split; [vm_compute; reflexivity|]. split; [cbn; tauto|]. split; vm_compute; reflexivity.
Qed.
Print Assumptions C208_name_refuted.
(* an array with more dimensions whose name contains _dim comes back in parts *)
Theorem C208_parts_refuted : exists a f o', obj_eq events a a = Ok true /\ to_pandas events a = Ok f /\ from_pandas names events f = Ok o' /\
  In (% "my_dim", VArr [2%nat; 2%nat] (map Some [1; 2; 3; 4])) a /\ attr o' (% "my_dim") = None /\ attr o' (% "my_dim_1") = Some (numbers [2; 4]).
Proof.
  exists (event_list [1; 2] VNone [(% "my_dim", VArr [2%nat; 2%nat] (map Some [1; 2; 3; 4]))]). do 2 eexists. split; [vm_compute; reflexivity|]. split; [vm_compute; reflexivity|].
  split; [vm_compute; reflexivity|]. split; [cbn; tauto|]. split; vm_compute; reflexivity.
Qed.
Print Assumptions C208_parts_refuted.
(* eleven columns come back in another order *)
Theorem C208_order_refuted : exists a f o' v, obj_eq events a a = Ok true /\ to_pandas events a = Ok f /\ from_pandas names events f = Ok o' /\
  In (% "x", VArr [1%nat; 11%nat] (map (fun i => Some (inject_Z (Z.of_nat i))) (seq 0 11))) a /\ attr o' (% "x") = Some (VArr [1%nat; 11%nat] v) /\ nth 2 v None = Some 10.
Proof.
  exists (event_list [1] VNone [(% "x", VArr [1%nat; 11%nat] (map (fun i => Some (inject_Z (Z.of_nat i))) (seq 0 11)))]). do 3 eexists. split; [vm_compute; reflexivity|].
  split; [vm_compute; reflexivity|]. split; [vm_compute; reflexivity|]. split; [cbn; tauto|]. split; vm_compute; reflexivity.
Qed.
Print Assumptions C208_order_refuted.
(* a column replaces a part of an array *)
Theorem C208_clash_refuted : exists a f o' v, obj_eq events a a = Ok true /\ to_pandas events a = Ok f /\ from_pandas names events f = Ok o' /\
  In (% "x", VArr [2%nat; 2%nat] (map Some [1; 2; 3; 4])) a /\ attr o' (% "x") = Some v /\ v = VArr [2%nat; 2%nat] (map Some [7; 2; 8; 4]).
Proof.
  exists (event_list [1; 2] VNone [(% "x", VArr [2%nat; 2%nat] (map Some [1; 2; 3; 4])); (% "x_dim0", numbers [7; 8])]). do 3 eexists. split; [vm_compute; reflexivity|].
  split; [vm_compute; reflexivity|]. split; [vm_compute; reflexivity|]. split; [cbn; tauto|]. split; vm_compute; reflexivity.
Qed.
Print Assumptions C208_clash_refuted.
Theorem C208_empty_refuted : exists a f o', to_pandas events a = Ok f /\ from_pandas names events f = Ok o' /\ In (% "mjdref", VNum (Some 55000)) a /\
  attr o' (% "mjdref") = Some (VNum (Some 0)).
Proof.
  exists (event_list [] VNone []). do 2 eexists. split; [vm_compute; reflexivity|]. split; [vm_compute; reflexivity|]. split; [cbn; tauto|vm_compute; reflexivity].
Qed.
Print Assumptions C208_empty_refuted.
Example C208_nonvacuous : let a := event_list [1; 2; 3] VNone [(% "X", VArr [3%nat; 2%nat; 2%nat] (map (fun i => Some (inject_Z (Z.of_nat i))) (seq 0 12))); (% "b", numbers [7; 8; 9])] in
  exists f o', to_pandas events a = Ok f /\ map fst (f_cols f) = [% "X_dim0_0"; % "X_dim0_1"; % "X_dim1_0"; % "X_dim1_1"; % "b"; % "time"] /\
    from_pandas names events f = Ok o' /\ obj_eq events a o' = Ok true /\ names [] = [].
Proof. cbv zeta. do 2 eexists. split; [vm_compute; reflexivity|]. split; [vm_compute; reflexivity|]. split; [vm_compute; reflexivity|]. split; vm_compute; reflexivity. Qed.
