(* S_reader.v: events and times of a file, for the properties of the file reader. *)
From Coq Require Import List QArith Qabs Bool.
Import ListNotations.
From Verif Require Import Np S_gti S_seg M_reader.
Open Scope Q_scope.

(* the events of the file with a <= time < b *)
Definition rows_in {A} (rows : list (Q * A)) (a b : Q) : list (Q * A) :=
  filter (fun r => qle a (fst r) && qlt (fst r) b)%bool rows.
(* number of events before a time *)
Definition rows_before {A} (rows : list (Q * A)) (t : Q) : nat := length (filter (fun r => qlt (fst r) t) rows).
(* a time the file knows: of an event, or an end of a good time interval *)
Definition known_time {A} (rows : list (Q * A)) (g : list (Q * Q)) (x : Q) : Prop :=
  In x (map fst rows) \/ In x (map fst g) \/ In x (map snd g).
(* the interval [a, b] is inside the range of the known times *)
Definition reaches {A} (rows : list (Q * A)) (g : list (Q * Q)) (a b : Q) : Prop :=
  (exists x, known_time rows g x /\ x <= a) /\ (exists x, known_time rows g x /\ b <= x).
(* times in non-decreasing order *)
Definition in_order {A} (rows : list (Q * A)) : Prop := nondecreasing (map fst rows).
(* good time, as a boolean *)
Definition in_good (g : list (Q * Q)) (t : Q) : bool := existsb (fun iv => qle (fst iv) t && qlt t (snd iv))%bool g.
(* events whose time is in good time *)
Definition good_rows {A} (g : list (Q * Q)) (rows : list (Q * A)) : list (Q * A) := filter (fun r => in_good g (fst r)) rows.
(* from the start of the first interval of a list to the end of the last *)
Definition spans (g : list (Q * Q)) (a b : Q) : Prop :=
  (exists x g', g = (a, x) :: g') /\ (exists g' x, g = g' ++ [(x, b)]).
(* two lists of intervals, end by end closer than a millisecond *)
Definition close_lists (g h : list (Q * Q)) : Prop :=
  Forall2 (fun x y => Qabs (fst x - fst y) < 1 # 1000 /\ Qabs (snd x - snd y) < 1 # 1000) g h.
(* the events of a file with the clock moved by z *)
Definition moved {A} (z : Q) (rows : list (Q * A)) : list (Q * A) := map (fun r => (fst r + z, snd r)) rows.
Definition moved_gti (z : Q) (g : list (Q * Q)) : list (Q * Q) := map (fun iv => (fst iv + z, snd iv + z)) g.
(* piece p has the events of the file in the span of the list g, and that list *)
Definition piece_of {A} (rows : list (Q * A)) (z : Q) (g : list (Q * Q)) (p : list (Q * A) * list (Q * Q)) : Prop :=
  snd p = g /\ exists a b, spans g a b /\ fst p = moved z (rows_in rows a b).
Definition nonempty {A} (l : list A) : bool := match l with [] => false | _ => true end.
(* r is the good time of g inside [a, b) *)
Definition good_time_in (g : list (Q * Q)) (a b : Q) (r : list (Q * Q)) : Prop :=
  well_formed r /\ positive_lengths r /\ forall t, covered r t <-> covered g t /\ a <= t /\ t < b.
(* piece p of the list r of good times: it has this list, and every event of the file in these times *)
Definition has_good_events {A} (rows : list (Q * A)) (z : Q) (r : list (Q * Q)) (p : list (Q * A) * list (Q * Q)) : Prop :=
  snd p = r /\ exists ev, fst p = moved z ev /\ good_rows r ev = good_rows r rows.
(* [a, b) leaves out at least a millisecond at the beginning or at the end of the good times *)
Definition shorter (g : list (Q * Q)) (a b : Q) : Prop :=
  exists c d, spans g c d /\ (c + (1 # 1000) <= a \/ b <= d - (1 # 1000)).
