(* The prior of a list of parameters: one distribution for each, in the order of the list. *)
From Verif Require Import Np M_gpprior.
From Coq Require Import List String.
Import ListNotations.

(* the first entry of a name *)
Inductive entry_of {D} (k : string) : list (string * given D) -> given D -> Prop :=
| entry_here g r : entry_of k ((k, g) :: r) g
| entry_later n h r g : n <> k -> entry_of k r g -> entry_of k ((n, h) :: r) g.
Definition distribution {D} (g : given D) (d : D) : Prop := g = Dist d \/ exists n, g = Named n d.
(* usable: the name has a distribution; well_named: a jaxns prior has the name of the parameter *)
Definition usable {D} (priors : list (string * given D)) (k : string) : Prop := exists g d, entry_of k priors g /\ distribution g d.
Definition well_named {D} (priors : list (string * given D)) (k : string) : Prop := forall n d, entry_of k priors (Named n d) -> n = k.
