(* M_als.v: model of the asymmetric least squares baseline, stingray/utils.py and Lightcurve.baseline in stingray/lightcurve.py. *)
From Verif Require Import Np Cplx M_gti M_seg M_base.
From Coq Require Import Reals List Arith Bool QArith Lia Lra.
Import ListNotations.
Open Scope R_scope.

(* scipy.sparse.linalg.spsolve (library): size, matrix and right-hand side to the solution *)
Definition solver := nat -> (nat -> nat -> R) -> list R -> list R.

(* utils.py:1040-1045 the matrix of second differences, column k holds 1, -2, 1 in the rows k, k + 1, k + 2 *)
Definition second (i k : nat) : R :=
  if Nat.eqb i k then 1 else if Nat.eqb i (k + 1) then -2 else if Nat.eqb i (k + 2) then 1 else 0.

(* utils.py:1049-1050 W + lam * D.dot(D.transpose()) *)
Definition als_matrix (n : nat) (lam : R) (w : list R) (i j : nat) : R :=
  (if Nat.eqb i j then nth i w 0 else 0) + lam * rs (n - 2) (fun k => second i k * second j k).

(* utils.py:1052 p * (y > z) + (1 - p) * (y < z) *)
Definition als_weight (p y z : R) : R := p * (if Rlt_dec z y then 1 else 0) + (1 - p) * (if Rlt_dec y z then 1 else 0).
Definition als_weights (p : R) (y z : list R) : list R := map (fun c => als_weight p (fst c) (snd c)) (combine y z).

(* utils.py:1048-1053 the loop; [z] is the baseline of the previous turn *)
Fixpoint als_loop (solve : solver) (lam p : R) (y w z : list R) (niter : nat) : list R :=
  match niter with
  | O => z
  | S m => let z' := solve (length y) (als_matrix (length y) lam w) (map (fun c => fst c * snd c) (combine w y)) in
           als_loop solve lam p y (als_weights p y z') z' m
  end.

(* utils.py:1001-1053 _als; np.tile refuses a negative number of repetitions, z is not assigned when niter is zero *)
Definition als (solve : solver) (lam p : R) (y : list R) (niter : nat) : result (list R) :=
  if Nat.ltb (length y) 2 then Err ValueError
  else if Nat.eqb niter 0 then Err UnboundLocalError
  else Ok (als_loop solve lam p y (repeat 1 (length y)) [] niter).

(* utils.py:1101-1165 baseline_als with return_baseline=True; [mad] and [fit] (offset_fit, utils.py:980-998, a curve_fit of a
   constant) are library functions; x has the length of y and is used for nothing else; the warning is not modelled *)
Definition offset_points (mad : list R -> R) (ysub : list R) : list R :=
  let good := filter (fun v => if Rlt_dec (Rabs v) (10 * mad ysub) then true else false) ysub in
  if Nat.ltb (length good) 10 then ysub else good.
Definition baseline_als (solve : solver) (mad fit : list R -> R) (y : list R) (lam p : option R) (niter : nat) (offset_correction : bool)
  : result (list R * list R) :=
  let lam' := match lam with Some l => l | None => 100000000000 end in
  let p' := match p with Some q => q | None => 1 / 1000 end in
  let! z := als solve lam' p' y niter in
  let ysub := map (fun c => fst c - snd c) (combine y z) in
  let offset := if offset_correction then fit (offset_points mad ysub) else 0 in
  Ok (map (fun v => v - offset) ysub, map (fun v => v + offset) z).

(* numpy (library): baseline[good] = values *)
Fixpoint put {A} (l : list A) (m : list bool) (v : list A) : list A :=
  match l, m with
  | a :: l', true :: m' => match v with x :: v' => x :: put l' m' v' | [] => a :: put l' m' [] end
  | a :: l', false :: m' => a :: put l' m' v
  | _, _ => l
  end.

(* lightcurve.py:776-815 Lightcurve.baseline *)
Definition baseline_one (numba : bool) (solve : solver) (mad fit : list R -> R) (times : list Q) (counts : list R) (dt : Q)
  (lam p : R) (niter : nat) (oc : bool) (acc : list R) (g : ivl) : result (list R) :=
  let! good := create_gti_mask numba times [g] (0, 0)%Q 0%Q (Some dt) gti_eps in
  let! r := baseline_als solve mad fit (select counts (fst good)) (Some lam) (Some p) niter oc in
  Ok (put acc (fst good) (snd r)).
Fixpoint baseline_loop (numba : bool) (solve : solver) (mad fit : list R -> R) (times : list Q) (counts : list R) (dt : Q)
  (lam p : R) (niter : nat) (oc : bool) (acc : list R) (gti : gtis) : result (list R) :=
  match gti with
  | [] => Ok acc
  | g :: rest => let! acc' := baseline_one numba solve mad fit times counts dt lam p niter oc acc g in
                 baseline_loop numba solve mad fit times counts dt lam p niter oc acc' rest
  end.
Definition lc_baseline (numba : bool) (solve : solver) (mad fit : list R -> R) (times : list Q) (counts : list R) (dt : Q) (gti : gtis)
  (lam p : R) (niter : nat) (oc : bool) : result (list R) :=
  baseline_loop numba solve mad fit times counts dt lam p niter oc (map (fun _ => 0) times) gti.
