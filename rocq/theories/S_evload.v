(* S_evload.v: what reading an event file should give. *)
From Coq Require Import String.
From Verif Require Import Np S_seg M_fitslc M_evload.
From Coq Require Import QArith List Arith Bool Permutation.
Import ListNotations.
Open Scope Q_scope.

(* The extension that is wanted: the first with the name, whatever the case, or else the second of the file. *)
Definition same_name (a b : string) : Prop := lower a = lower b.
Definition chosen (f : list hdu) (n : string) (h : hdu) : Prop :=
  (exists f1 f2, f = f1 ++ h :: f2 /\ same_name (hd_name h) n /\ forall h', In h' f1 -> ~ same_name (hd_name h') n) \/
  ((forall h', In h' f -> ~ same_name (hd_name h') n) /\ nth_error f 1 = Some h).
(* A number in the header, or a value if there is none. *)
Definition header_number (h : header) (k : string) (d q : Q) : Prop :=
  head_get h k = Some (Num q) \/ (head_get h k = None /\ q = d).
(* The values of l in another order. *)
Definition picked (order : list nat) (l l' : list Q) : Prop :=
  length l' = length order /\ forall i, (i < length order)%nat -> nth i l' 0 = nth (nth i order 0%nat) l 0.
(* Every column has n values. *)
Definition rectangular (h : hdu) (n : nat) : Prop := forall c v, In (c, v) (hd_cols h) -> length v = n.
(* The column of the name, whatever the case: the first one. *)
Definition column_named (h : hdu) (a : string) (k : string) (v : list Q) : Prop :=
  exists t1 t2, hd_cols h = t1 ++ (k, v) :: t2 /\ same_name k a /\ forall k' v', In (k', v') t1 -> ~ same_name k' a.
