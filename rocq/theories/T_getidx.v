(* T_getidx.v: property theorems about the indexing of objects (C221). *)
From Coq Require Import String.
From Verif Require Import Np Lib M_getidx S_getidx P_getidx.
From Coq Require Import ZArith List Bool Lia.
Import ListNotations.
Open Scope Z_scope.
Theorem C221_integer_partial : forall (A B : Type) (o : object A B) (i : Z), even_columns o -> let n := Z.of_nat (List.length (o_main o)) in 0 <= i < n \/ - n <= i < -1
  -> exists r : object A B, obj_getitem o (IInt i) = Ok r /\ every_array (fun l x : list A => python_item l i x) o r /\ o_meta r = o_meta o /\ o_hidden r = [].
Proof. exact @int_ok. Qed.
Print Assumptions C221_integer_partial.
Theorem C221_last_error : forall (A B : Type) (o : object A B) (i : Z), even_columns o -> let n := Z.of_nat (List.length (o_main o)) in i = -1 \/ i < - n \/ n <= i ->
  exists r : object A B, obj_getitem o (IInt i) = Ok r /\ every_array (fun _ x : list A => x = []) o r /\ o_meta r = o_meta o.
Proof. exact @int_empty. Qed.
Print Assumptions C221_last_error.
Theorem C221_slice : forall (A B : Type) (o : object A B) (a b s : option Z), even_columns o -> 0 < if_none s 1 -> exists r : object A B, obj_getitem o (ISlice a b s) =
  Ok r /\ every_array (fun l x : list A => python_slice l a b (if_none s 1) x) o r /\ o_meta r = o_meta o /\ o_hidden r = [].
Proof. exact @slice_up. Qed.
Print Assumptions C221_slice.
Theorem C221_down_partial : forall (A B : Type) (o : object A B) (a b s : Z), even_columns o -> s < 0 -> exists r : object A B, obj_getitem o (ISlice (Some a) (Some b)
  (Some s)) = Ok r /\ every_array (fun l x : list A => python_slice l (Some a) (Some b) s x) o r /\ o_meta r = o_meta o /\ o_hidden r = [].
Proof. exact @slice_down. Qed.
Print Assumptions C221_down_partial.
Theorem C221_reversed_error : forall (A B : Type) (o : object A B) (a : option Z) (s : Z), even_columns o -> s < 0 -> exists r : object A B, obj_getitem o (ISlice a None
  (Some s)) = Ok r /\ every_array (fun _ x : list A => x = []) o r /\ o_meta r = o_meta o.
Proof. exact @slice_reversed. Qed.
Print Assumptions C221_reversed_error.
Theorem C221_zero_step_error : forall (A B : Type) (o : object A B) (a b : option Z), obj_getitem o (ISlice a b (Some 0)) = Err ValueError.
Proof. exact @zero_step. Qed.
Print Assumptions C221_zero_step_error.
Theorem C221_other_error : forall (A B : Type) (o : object A B), obj_getitem o IOther = Err IndexError.
Proof. exact @other_index. Qed.
Print Assumptions C221_other_error.
Definition ex_object : object Z string := mkObject [("norm", "frac")]%string [("_hidden", [7; 8; 9])]%string [("power", [10; 20; 30])]%string [1; 2; 3].
(* the last element, a[-1], is not found *)
Theorem C221_last_refuted : exists r : object Z string, obj_getitem ex_object (IInt (-1)) = Ok r /\ o_main r = [] /\ o_columns r = [("power", [])]%string.
Proof. eexists. split; [vm_compute; reflexivity|]. split; reflexivity. Qed.
Print Assumptions C221_last_refuted.
(* a[::-1] and a[2::-1] are empty *)
Theorem C221_reversed_refuted : exists r s : object Z string, obj_getitem ex_object (ISlice None None (Some (-1))) = Ok r /\ o_main r = [] /\
  obj_getitem ex_object (ISlice (Some 2) None (Some (-1))) = Ok s /\ o_main s = [] /\ ~ python_slice (o_main ex_object) None None (-1) [].
Proof.
  do 2 eexists. split; [vm_compute; reflexivity|]. split; [reflexivity|]. split; [vm_compute; reflexivity|]. split; [reflexivity|].
  intros (f & t & F & T & Q). cbn in F, T. subst. specialize (Q O). vm_compute in Q. discriminate.
Qed.
Print Assumptions C221_reversed_refuted.
(* an index out of range gives an empty object, and the hidden arrays are lost *)
Theorem C221_hidden_refuted : exists r s : object Z string, obj_getitem ex_object (IInt 1) = Ok r /\ o_hidden r = [] /\ o_hidden ex_object <> [] /\
  obj_getitem ex_object (IInt 5) = Ok s /\ o_main s = [].
Proof. do 2 eexists. split; [vm_compute; reflexivity|]. split; [reflexivity|]. split; [discriminate|]. split; [vm_compute; reflexivity|reflexivity]. Qed.
Print Assumptions C221_hidden_refuted.
Example C221_example : even_columns ex_object /\ (exists r, obj_getitem ex_object (IInt (-2)) = Ok r /\ o_main r = [2] /\ o_columns r = [("power", [20])]%string) /\
  (exists r, obj_getitem ex_object (ISlice None None (Some 2)) = Ok r /\ o_main r = [1; 3]) /\
  (exists r, obj_getitem ex_object (ISlice (Some 2) (Some 0) (Some (-1))) = Ok r /\ o_main r = [3; 2]).
Proof.
  split; [repeat constructor|]. split; [eexists; split; [vm_compute; reflexivity|split; reflexivity]|]. split; eexists; split; vm_compute; reflexivity.
Qed.
