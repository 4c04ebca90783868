(* S_nextprod.v: numbers that are products of given factors *)
From Verif Require Import Np.

Inductive product_of (a : list Z) : Z -> Prop :=
| po_one : product_of a 1%Z
| po_mul : forall f p, In f a -> product_of a p -> product_of a (f * p)%Z.

(* r is the least number with property P *)
Definition least (P : Z -> Prop) (r : Z) : Prop := P r /\ forall p, P p -> (r <= p)%Z.
