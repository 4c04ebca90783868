(* S_dyn.v: what the methods of a dynamical spectrum should compute. *)
From Verif Require Import Np S_lc.
Open Scope Q_scope.

(* a table with one list per time, all of length L *)
Definition table (L : nat) (cols : list (list Q)) : Prop := Forall (fun c => length c = L) cols.
(* entry f of column c *)
Definition entry (cols : list (list Q)) (c f : nat) : Q := nth f (nth c cols []) 0.
(* sum of entry f over k consecutive columns, from column c *)
Definition run_sum (cols : list (list Q)) (c k f : nat) : Q := sum_of (map (fun j => entry cols (c + j) f) (seq 0 k)).
Definition time_sum (time : list Q) (c k : nat) : Q := sum_of (map (fun j => nth (c + j) time 0) (seq 0 k)).

(* the frequencies inside a band *)
Definition in_band (freq : list Q) (lo hi : Q) (i : nat) : Prop := (i < length freq)%nat /\ lo <= nth i freq 0 /\ nth i freq 0 <= hi.
(* power number i is the largest one of the band *)
Definition band_maximum (freq : list Q) (lo hi : Q) (ps : list Q) (v : Q) : Prop :=
  (exists i, in_band freq lo hi i /\ v = nth i ps 0) /\ forall j, in_band freq lo hi j -> nth j ps 0 <= v.
(* sum of m consecutive entries of column c, from entry f *)
Definition freq_run (cols : list (list Q)) (c f m : nat) : Q := sum_of (map (fun j => entry cols c (f + j)) (seq 0 m)).
(* values placed at equal distances *)
Definition equally_spaced (x0 d : Q) (x : list Q) : Prop := forall i, (i < length x)%nat -> nth i x 0 == x0 + inject_Z (Z.of_nat i) * d.
