(* S_gti.v: what a list of good time intervals means, independently of the model.
   An interval (a, b) stands for the times a <= t < b. *)
From Coq Require Import List QArith Permutation.
Open Scope Q_scope.

(* t is good time of the list. *)
Definition covered (g : list (Q * Q)) (t : Q) : Prop :=
  exists a b, In (a, b) g /\ a <= t /\ t < b.

(* Sorted, not overlapping (touching allowed), ends not before starts. *)
Definition well_formed (g : list (Q * Q)) : Prop :=
  (forall a b, In (a, b) g -> a <= b) /\
  (forall i j a b c d, (i < j)%nat -> nth_error g i = Some (a, b) -> nth_error g j = Some (c, d) -> b <= c).

(* Every interval has a positive length. *)
Definition positive_lengths (g : list (Q * Q)) : Prop := forall a b, In (a, b) g -> a < b.

(* Consecutive intervals do not even touch. *)
Definition gaps_between (g : list (Q * Q)) : Prop :=
  forall i j a b c d, (i < j)%nat -> nth_error g i = Some (a, b) -> nth_error g j = Some (c, d) -> b < c.

(* No interval of one list ends exactly where an interval of the other starts. *)
Definition no_touching (g0 g1 : list (Q * Q)) : Prop :=
  forall a b c d, In (a, b) g0 -> In (c, d) g1 -> ~ b == c /\ ~ d == a.

(* A sorting routine: rearranges its input so that the keys are non-decreasing; ties in any order. *)
Definition sorts_by {A} (key : A -> Q) (f : list A -> list A) : Prop :=
  forall l, Permutation (f l) l /\
            (forall i j x y, (i < j)%nat -> nth_error (f l) i = Some x -> nth_error (f l) j = Some y ->
                             key x <= key y).

(* The lists the API calls valid, with intervals of positive length. *)
Definition good (g : list (Q * Q)) : Prop := g <> nil /\ well_formed g /\ positive_lengths g.

(* Every interval of g0 ends before (or where) every interval of g1 starts. *)
Definition all_before (g0 g1 : list (Q * Q)) : Prop :=
  forall a b c d, In (a, b) g0 -> In (c, d) g1 -> b <= c.

(* No interval of g0, end points included, meets an interval of g1. *)
Definition closed_disjoint (g0 g1 : list (Q * Q)) : Prop :=
  forall a b c d, In (a, b) g0 -> In (c, d) g1 -> b < c \/ d < a.

(* Total good time. *)
Fixpoint exposure (g : list (Q * Q)) : Q :=
  match g with nil => 0 | cons (a, b) g' => (b - a) + exposure g' end.
