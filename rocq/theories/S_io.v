(* S_io.v: what the helper functions of io.py should do. *)
From Verif Require Import Np M_io.
From Coq Require Import Ascii String List Qpower.
Import ListNotations.
Open Scope Q_scope.

(* i and f are the parts of x before and after the k-th decimal *)
Definition parts_at (k : Z) (x i f : Q) : Prop :=
  i + f == x /\ (exists z : Z, i * Qpower 10 k == inject_Z z) /\ -(1) < f * Qpower 10 k < 1 /\
  (0 <= x -> 0 <= i /\ 0 <= f) /\ (x <= 0 -> i <= 0 /\ f <= 0).

(* the values given, and how they are given (M_io.v) *)
Definition values_of (n : numbers) : list Q :=
  match n with Number x => [x] | FloatList l | FloatArray l => l | IntList l | IntArray l => map inject_Z l end.
Definition is_int (n : numbers) : bool := match n with IntList _ | IntArray _ => true | _ => false end.
Definition is_array (n : numbers) : bool := match n with FloatArray _ | IntArray _ => true | _ => false end.

(* letters that two strings of the same length have at the same positions *)
Fixpoint letters_in_common (a b : list ascii) : list ascii :=
  match a, b with
  | x :: a', y :: b' => if ascii_dec x y then x :: letters_in_common a' b' else letters_in_common a' b'
  | _, _ => []
  end.
Definition mark (c : ascii) : Prop := c = "_"%char \/ c = "-"%char.
(* r is s without some marks at both ends *)
Definition trimmed (s r : list ascii) : Prop := exists pre suf, s = pre ++ r ++ suf /\ Forall mark pre /\ Forall mark suf.
Definition starts_by (P : ascii -> Prop) (s : list ascii) : Prop := exists c s', s = c :: s' /\ P c.
Definition ends_by (P : ascii -> Prop) (s : list ascii) : Prop := exists c s', s = s' ++ [c] /\ P c.

(* p is somewhere in s *)
Definition occurs (p s : list ascii) : Prop := exists a b, s = a ++ p ++ b.
Definition dot : ascii := "."%char.
Definition slash : ascii := "/"%char.
Definition gz : list ascii := list_ascii_of_string ".gz".
(* the last component of the path r has a character that is not a dot *)
Definition has_name (r : list ascii) : Prop := exists a c b, r = a ++ c :: b /\ c <> dot /\ c <> slash /\ ~ In slash b.
(* a name without extension: its last component has dots only at the beginning *)
Definition no_extension (f : list ascii) : Prop :=
  exists dir d x, f = dir ++ d ++ x /\ (dir = [] \/ ends_by (fun c => c = slash) dir) /\ Forall (fun c => c = dot) d /\ ~ In dot x /\ ~ In slash x.
