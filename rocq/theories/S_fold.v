(* S_fold.v: what folding functions should compute. *)
From Verif Require Import Np S_lc.
Open Scope Q_scope.

(* ---- frequencies from periods ---- *)
(* binomial coefficients by Pascal's triangle *)
Fixpoint choose (n k : nat) : Z :=
  match n, k with
  | _, O => 1
  | O, S _ => 0
  | S n', S k' => choose n' k' + choose n' (S k')
  end%Z.
(* m-th derivative of the product of two functions with given derivatives (Leibniz) *)
Definition product_derivative (f p : list Q) (m : nat) : Q :=
  sum_of (map (fun k => inject_Z (choose m k) * nth k f 0 * nth (m - k) p 0) (seq 0 (S m))).
(* f is the reciprocal of p up to the derivatives given: (f p) = 1, (f p)' = (f p)'' = ... = 0 *)
Definition reciprocal (f p : list Q) : Prop :=
  length f = length p /\
  forall m, (m < length p)%nat -> product_derivative f p m == if Nat.eqb m 0 then 1 else 0.

(* ---- phases ---- *)
(* Taylor series of the phase, f0 t + f1 t^2/2 + ..., by nested integration: t/1 (f0 + t/2 (f1 + t/3 (f2 + ...))) *)
Fixpoint nested (k : positive) (fs : list Q) (t : Q) : Q :=
  match fs with
  | [] => 0
  | f :: fs' => t / inject_Z (Zpos k) * (f + nested (Pos.succ k) fs' t)
  end.
Definition turns (fs : list Q) (t : Q) : Q := nested 1 fs t.
(* p is the fractional part of x *)
Definition fractional (x p : Q) : Prop := 0 <= p /\ p < 1 /\ exists k : Z, x == p + inject_Z k.

(* ---- profiles ---- *)
(* phase x lies in bin j of nbin: floor(x nbin) = j *)
Definition bin_of (nbin : nat) (x : Q) : Z := Qfloor (x * inject_Z (Z.of_nat nbin)).
(* the folded points: phase between 0 and 1 of each time, with its weight *)
Definition frac (x : Q) : Q := x - inject_Z (Qfloor x).
Definition folded (times fs w : list Q) (ref : Q) : list (Q * Q) :=
  combine (map (fun t => frac (turns fs (t - ref))) times) w.
(* weights of the points falling in bin j *)
Definition weights_in (nbin j : nat) (l : list (Q * Q)) : list Q :=
  map snd (filter (fun p => (bin_of nbin (fst p) =? Z.of_nat j)%Z) l).
(* sum of squared deviations from the mean *)
Definition scatter (l : list Q) (s : Q) : Prop :=
  exists m, average_is l m /\ s == sum_of (map (fun x => (x - m) * (x - m)) l).

(* ---- exposure ---- *)
Definition clamp (lo hi x : Q) : Q := qmin hi (qmax lo x).
(* turns spent in bin j of nbin while the phase grows from 0 to x (negative when x is negative) *)
Definition exposure_upto (nbin j : nat) (x : Q) : Q :=
  let n := inject_Z (Z.of_nat nbin) in
  inject_Z (Qfloor x) / n + clamp 0 (1 / n) (x - inject_Z (Qfloor x) - inject_Z (Z.of_nat j) / n).
(* the part of an interval inside [a, b] *)
Definition clip (a b : Q) (g : Q * Q) : Q * Q := (qmax a (fst g), qmin b (snd g)).
Definition touches (a b : Q) (g : Q * Q) : bool := (qlt (fst g) b && qlt a (snd g))%bool.
Definition exposure_in (nbin j : nat) (period : Q) (g : Q * Q) : Q :=
  exposure_upto nbin j (snd g / period) - exposure_upto nbin j (fst g / period).

(* number of phases in bin j *)
Definition number_in (nbin j : nat) (phases : list Q) : nat := length (filter (fun x => (bin_of nbin x =? Z.of_nat j)%Z) phases).
(* phases of the ends of an interval *)
Definition phase_ivl (fs : list Q) (ref : Q) (g : Q * Q) : Q * Q := (turns fs (fst g - ref), turns fs (snd g - ref)).
(* what storing a float in an array does: nothing, or truncation when the array is of integers *)
Definition idq (x : Q) : Q := x.
Definition to_int (x : Q) : Q := inject_Z (py_int x).
(* events of the k-th window of the given size; whether they span a fifth of it *)
Definition window_events (size : Q) (k : nat) (times : list Q) : list Q :=
  filter (fun t => (qle (inject_Z (Z.of_nat k) * size) t && qlt t ((inject_Z (Z.of_nat k) + 1) * size))%bool) times.
Definition spans_fifth (size : Q) (ts : list Q) : bool :=
  match ts with [] => false | a :: _ => qle (size / 5) (last ts 0 - a) end.
