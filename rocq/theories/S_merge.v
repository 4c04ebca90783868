(* S_merge.v: vocabulary for merging several GTI lists, independent of the model. *)
From Coq Require Import List QArith.
From Verif Require Import S_gti.
Open Scope Q_scope.

(* g is one of the given lists, and not None nor empty. *)
Definition present (l : list (option (list (Q * Q)))) (g : list (Q * Q)) : Prop := In (Some g) l /\ g <> nil.
(* Two different entries of the collection, both present. *)
Definition two_present (l : list (option (list (Q * Q)))) (g g' : list (Q * Q)) : Prop :=
  exists i j, i <> j /\ nth_error l i = Some (Some g) /\ nth_error l j = Some (Some g') /\ g <> nil /\ g' <> nil.
(* A result that may be None, read as a set of times. *)
Definition ocovered (o : option (list (Q * Q))) (t : Q) : Prop := exists g, o = Some g /\ covered g t.
(* x is an edge of the list. *)
Definition edge_of (g : list (Q * Q)) (x : Q) : Prop := exists a b, In (a, b) g /\ (x = a \/ x = b).
