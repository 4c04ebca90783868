(* S_base.v: what operations on time series should do, independent of the code. *)
From Verif Require Import Np S_gti S_seg.
From Coq Require Import Permutation.
Open Scope Q_scope.

(* The samples whose flag is set. *)
Fixpoint keep {A} (m : list bool) (l : list A) : list A :=
  match m, l with
  | b :: m', a :: l' => if b then a :: keep m' l' else keep m' l'
  | _, _ => []
  end.
(* Two lists of numbers, or of intervals, are equal value by value. *)
Definition same_values (a b : list Q) : Prop := Forall2 Qeq a b.
Definition same_intervals (a b : list (Q * Q)) : Prop := Forall2 (fun x y => fst x == fst y /\ snd x == snd y) a b.
(* Moved in time. *)
Definition moved_times (d : Q) (a b : list Q) : Prop := Forall2 (fun x y => y == x + d) a b.
Definition moved_intervals (d : Q) (a b : list (Q * Q)) : Prop :=
  Forall2 (fun x y => fst y == fst x + d /\ snd y == snd x + d) a b.
(* From MJD reference [m], time t is this many seconds. *)
Definition absolute (m t : Q) : Q := m * 86400 + t.
(* Sample by sample combination. *)
Definition combined (f : Q -> Q -> Q) (a b r : list Q) : Prop :=
  length r = length a /\ length r = length b /\
  forall i x y, nth_error a i = Some x -> nth_error b i = Some y -> nth_error r i = Some (f x y).
(* The bin of width d centred on t lies in one of the intervals, up to a tolerance. *)
Definition bin_in (g : list (Q * Q)) (tol d t : Q) : Prop :=
  exists a b, In (a, b) g /\ a - tol <= t - d / 2 /\ t + d / 2 <= b + tol.
(* m flags exactly the samples with property P. *)
Definition flags (P : Q -> Prop) (time : list Q) (m : list bool) : Prop :=
  length m = length time /\ forall i t, nth_error time i = Some t -> (nth_error m i = Some true <-> P t).
(* Value of named column k. *)
Fixpoint column {A} (k : nat) (cols : list (nat * A)) : option A :=
  match cols with [] => None | (k', v) :: c => if Nat.eqb k' k then Some v else column k c end.
(* Every interval holds the bin of at least one sample. *)
Definition all_hold_bins (g : list (Q * Q)) (tol d : Q) (time : list Q) : Prop :=
  forall a b, In (a, b) g -> exists t, In t time /\ a - tol <= t - d / 2 /\ t + d / 2 <= b + tol.
(* The array attributes of r are those of s at the flagged samples. *)
Definition all_of_length {A} (n : nat) (c : list (nat * list A)) : Prop := forall k v, In (k, v) c -> length v = n.
(* The bin of width d centred on t lies in [a, b], up to a tolerance, as a test. *)
Definition bin_test (tol d : Q) (iv : Q * Q) (t : Q) : bool := (qle (fst iv - tol) (t - d / 2) && qle (t + d / 2) (snd iv + tol))%bool.
(* An argsort: a permutation of the positions that puts the values in order. *)
Definition is_argsort (f : list Q -> list nat) : Prop :=
  forall l, Permutation (f l) (seq 0 (length l)) /\ nondecreasing (map (fun i => nth i l 0) (f l)).
Definition nonincreasing (l : list Q) : Prop := nondecreasing (rev l).
(* r = v[i:j:step] *)
Definition strided {A} (i j step : nat) (v r : list A) : Prop :=
  forall k, nth_error r k = if (i + k * step <? j)%nat then nth_error v (i + k * step) else None.
Definition strided_cols {A} (i j step : nat) (c c' : list (nat * list A)) : Prop :=
  Forall2 (fun p q => fst p = fst q /\ strided i j step (snd p) (snd q)) c c'.
(* The bins of width d centred on the samples do not overlap; union of these bins. *)
Definition apart (d : Q) (l : list Q) : Prop :=
  forall i j x y, (i < j)%nat -> nth_error l i = Some x -> nth_error l j = Some y -> d <= y - x.
Definition covered_bins (d : Q) (l : list Q) (t : Q) : Prop := exists x, In x l /\ x - d / 2 <= t /\ t < x + d / 2.
(* No interval starts where a bin ends or ends where a bin starts. *)
Definition off_bins (d : Q) (g : list (Q * Q)) (l : list Q) : Prop :=
  forall a b x, In (a, b) g -> In x l -> ~ b == x - d / 2 /\ ~ a == x + d / 2.
(* Which instants a slice covers: with unit step everything between its ends, otherwise only the bins kept. *)
Definition slice_cover (d : Q) (step : nat) (sel : list Q) (t : Q) : Prop :=
  if Nat.eqb step 1 then exists f l, nth_error sel 0 = Some f /\ nth_error sel (length sel - 1) = Some l /\ f - d / 2 <= t /\ t < l + d / 2
  else covered_bins d sel t.
