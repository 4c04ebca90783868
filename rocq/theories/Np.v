(* Np.v: vocabulary shared by all model files: Python exceptions as values and the
   numpy primitives used by stingray, as total list functions.
   numpy itself is not in /repo; each definition says which primitive it stands for. *)
From Coq Require Export List Arith ZArith QArith Qround Qabs Bool Lia.
Export ListNotations.

(* Python exceptions raised by the modelled code. *)
Inductive exn := ValueError | TypeError | IndexError | KeyError | AssertionError
               | AttributeError | StingrayError | UnboundLocalError | ZeroDivisionError | RuntimeError
               | IncorrectParameterError | PriorUndefinedError | LikelihoodUndefinedError | OutOfFuel.

(* Outcome of a Python call: a value, or the exception it raises. *)
Inductive result (A : Type) := Ok (a : A) | Err (e : exn).
Arguments Ok {A} a.
Arguments Err {A} e.

Definition bind {A B} (x : result A) (f : A -> result B) : result B :=
  match x with Ok a => f a | Err e => Err e end.
Notation "'let!' x ':=' a 'in' b" := (bind a (fun x => b))
  (at level 200, x name, a at level 100, b at level 200).

(* Python comparisons on numbers (exact rationals). *)
Definition qle (a b : Q) : bool := Qle_bool a b.
Definition qlt (a b : Q) : bool := negb (Qle_bool b a).
Definition qeq (a b : Q) : bool := Qeq_bool a b.
Definition qmax (a b : Q) : Q := if qle a b then b else a.
Definition qmin (a b : Q) : Q := if qle a b then a else b.

(* Element access x[i] for 0 <= i: IndexError outside. *)
Definition get {A} (l : list A) (i : nat) : result A :=
  match nth_error l i with Some a => Ok a | None => Err IndexError end.

(* x[i:j] with 0 <= i, 0 <= j: Python/numpy slices clamp silently. *)
Definition slice {A} (l : list A) (i j : nat) : list A := firstn (j - i) (skipn i l).

(* l[-1] *)
Definition get_last {A} (l : list A) : result A :=
  match rev l with a :: _ => Ok a | [] => Err IndexError end.

(* np.argmax: index of the first maximum; ValueError on an empty array. *)
Fixpoint argmax_from (i best : nat) (vbest : Q) (l : list Q) : nat :=
  match l with
  | [] => best
  | x :: l' => if qlt vbest x then argmax_from (S i) i x l' else argmax_from (S i) best vbest l'
  end.
Definition argmax (l : list Q) : result nat :=
  match l with [] => Err ValueError | x :: l' => Ok (argmax_from 1 0 x l') end.

(* np.searchsorted(a, v, "left"): number of leading elements < v.  On a sorted array this is
   the number of elements < v, which is what binary search returns. *)
Fixpoint searchsorted_left (a : list Q) (v : Q) : nat :=
  match a with
  | [] => 0
  | x :: a' => if qlt x v then S (searchsorted_left a' v) else 0
  end.
(* np.searchsorted(a, v, "right"). *)
Fixpoint searchsorted_right (a : list Q) (v : Q) : nat :=
  match a with
  | [] => 0
  | x :: a' => if qle x v then S (searchsorted_right a' v) else 0
  end.

(* np.arange(start, stop, step): ceil((stop-start)/step) values start + i*step; empty if negative.
   (step > 0 in all uses; step = 0 raises ZeroDivisionError in numpy.) *)
Definition arange_len (start stop step : Q) : nat := Z.to_nat (Qceiling ((stop - start) / step)).
Definition arange (start stop step : Q) : list Q :=
  map (fun i => start + inject_Z (Z.of_nat i) * step) (seq 0 (arange_len start stop step)).

(* np.sum *)
Definition qsum (l : list Q) : Q := fold_right Qplus 0 l.

(* np.rint: round half to even. *)
Definition rint (x : Q) : Z :=
  let f := Qfloor x in
  let d := x - inject_Z f in
  if qlt d (1 # 2) then f
  else if qlt (1 # 2) d then (f + 1)%Z
  else if Z.even f then f else (f + 1)%Z.

(* int(x): truncation towards zero. *)
Definition py_int (x : Q) : Z := if qle 0 x then Qfloor x else Qceiling x.

(* Stable sort by a key (np.sort; also the concrete instance of np.argsort in examples: numpy does not
   fix the order of equal keys, so models take the argsort as a parameter). *)
Fixpoint insert_by {A} (key : A -> Q) (x : A) (l : list A) : list A :=
  match l with
  | [] => [x]
  | y :: l' => if qle (key x) (key y) then x :: l else y :: insert_by key x l'
  end.
Definition isort_by {A} (key : A -> Q) (l : list A) : list A := fold_right (insert_by key) [] l.
Definition np_sort (l : list Q) : list Q := isort_by (fun x => x) l.

(* Boolean mask selection l[mask] *)
Fixpoint select {A} (l : list A) (m : list bool) : list A :=
  match l, m with
  | a :: l', b :: m' => if b then a :: select l' m' else select l' m'
  | _, _ => []
  end.
