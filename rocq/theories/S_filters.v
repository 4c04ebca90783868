(* S_filters.v: what the two kinds of dead time mean, independently of the model. *)
From Coq Require Import List QArith.
Import ListNotations.
Open Scope Q_scope.

(* j is the last event before i that was recorded. *)
Definition last_recorded (m : list bool) (i j : nat) : Prop :=
  (j < i)%nat /\ nth_error m j = Some true /\ forall k, (j < k < i)%nat -> nth_error m k = Some false.

(* m is the record of a non-paralyzable detector: an event is recorded iff the dead time started by the last
   recorded event, if any, is over. *)
Definition nonparalyzable_record (ev dts : list Q) (m : list bool) : Prop :=
  length m = length ev /\
  forall i t, nth_error ev i = Some t ->
    (nth_error m i = Some true <->
     forall j u d, last_recorded m i j -> nth_error ev j = Some u -> nth_error dts j = Some d -> u + d <= t).

(* m is the record of a paralyzable detector: an event is recorded iff the dead time started by the previous
   event, recorded or not, is over. *)
Definition paralyzable_record (ev dts : list Q) (m : list bool) : Prop :=
  length m = length ev /\
  forall i t, nth_error ev i = Some t ->
    (nth_error m i = Some true <->
     forall j u d, i = S j -> nth_error ev j = Some u -> nth_error dts j = Some d -> u + d <= t).

(* The entries of l at the positions where the mask is true. *)
Fixpoint kept {A} (l : list A) (m : list bool) : list A :=
  match l, m with
  | a :: l', true :: m' => a :: kept l' m'
  | _ :: l', false :: m' => kept l' m'
  | _, _ => []
  end.

(* The same dead time for every event. *)
Definition const_dt (d : Q) (ev : list Q) : list Q := map (fun _ => d) ev.
