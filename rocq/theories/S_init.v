(* S_init.v: which inputs of a cross spectrum should be accepted. *)
From Coq Require Import String Ascii.
From Verif Require Import Np M_io M_mission M_object M_init.
From Coq Require Import QArith Qabs List.
Import ListNotations.
Open Scope Q_scope.

Definition good_norm (norm : option str) : Prop :=
  exists n, norm = Some n /\ (lower n = % "frac" \/ lower n = % "abs" \/ lower n = % "leahy" \/ lower n = % "none").
Definition good_type (p : str) : Prop := p = % "all" \/ p = % "absolute" \/ p = % "real".
(* a spectrum that is not averaged needs a single GTI *)
Definition good_gtis (gtis : option nat) (seg : option (option Q)) : Prop := seg = None -> forall n, gtis = Some n -> (n <= 1)%nat.
(* pairs of inputs *)
Inductive pair_ok (dt : option Q) : data_in -> data_in -> Prop :=
| events_ok v : dt = Some v -> (1 # 1000000000000000) < v -> pair_ok dt DEvents DEvents
| curves_ok a t e b t' e' : Qabs (a - b) <= (1 # 100000000) + (1 # 100) * a / t * Qabs b -> pair_ok dt (DCurve a t e) (DCurve b t' e')
| lists_ok x l y l' : pair_ok dt (DList (Some x :: l)) (DList (Some y :: l'))
| tuples_ok x l y l' : pair_ok dt (DTuple (Some x :: l)) (DTuple (Some y :: l'))
| generators_ok : pair_ok dt DGenerator DGenerator.
(* how far two clocks with bin times a and b drift apart in tseg / a bins *)
Definition drift (a b tseg : Q) : Q := Qabs (a - b) * (tseg / a).
