(* S_search.v: what pulsation searches should compute. *)
From Coq Require Import Reals Qreals.
From Verif Require Import Np S_lc S_fold Cplx S_fourier S_zn.
From Coq Require Import List Bool Arith Permutation.
Import ListNotations.
Open Scope Q_scope.

(* events: (time since the first one, weight) *)
Definition events_of (t0 : Q) (times w : list Q) : list (Q * Q) := combine (map (fun t => t - t0) times) w.
(* events of the k-th window [k len, (k + 1) len) *)
Definition window (len : Q) (k : nat) (ev : list (Q * Q)) : list (Q * Q) :=
  filter (fun e => (qle (inject_Z (Z.of_nat k) * len) (fst e) && qlt (fst e) ((inject_Z (Z.of_nat k) + 1) * len))%bool) ev.
(* the windows that are used: those whose events span at least a fifth of the length *)
Definition windows (len : Q) (n : nat) (ev : list (Q * Q)) : list (list (Q * Q)) :=
  filter (fun w => spans_fifth len (map fst w)) (map (fun k => window len k ev) (seq 0 n)).
(* the length of the windows; n is the number of windows that begin before the last event *)
Definition window_length (size : option Q) (span : Q) : Q := match size with Some s => qmin s span | None => span end.
Definition covers (n : nat) (len span : Q) : Prop := forall k, (k < n)%nat <-> inject_Z (Z.of_nat k) * len < span.

(* the points folded with frequency f and derivative fd; sum of the weights in each bin *)
Definition folded_events (f fd : Q) (ev : list (Q * Q)) : list (Q * Q) := map (fun e => (frac (turns [f; fd] (fst e)), snd e)) ev.
Definition profile_of (nbin : nat) (f fd : Q) (ev : list (Q * Q)) : list R :=
  map (fun j => Q2R (sum_of (weights_in nbin j (folded_events f fd ev)))) (seq 0 nbin).
(* chi squared of a profile against a constant, with Poisson variance *)
Definition flat_chi2 (p : list R) : R := let m := (rlsum p / INR (length p))%R in rlsum (map (fun x => ((x - m) ^ 2 / m)%R) p).
(* average over the windows; undefined when there is none *)
Definition window_average (g : list (Q * Q) -> R) (ws : list (list (Q * Q))) : option R :=
  match ws with [] => None | _ => Some (rlsum (map g ws) / INR (length ws))%R end.

(* sum of the squared deviations from the mean, and the ratio of the variance inside the bins to the total variance *)
Definition squares (l : list Q) : Q := let m := sum_of l / inject_Z (Z.of_nat (length l)) in sum_of (map (fun x => (x - m) * (x - m)) l).
Definition dispersion (nbin : nat) (f fd : Q) (ev : list (Q * Q)) : Q :=
  sum_of (map (fun j => squares (weights_in nbin j (folded_events f fd ev))) (seq 0 nbin)) / inject_Z (Z.of_nat (length ev) - Z.of_nat nbin) /
  (squares (map snd ev) / inject_Z (Z.of_nat (length ev) - 1)).

(* the first position of the maximum of l in [a, b) *)
Definition first_maximum (l : list Q) (a b i : nat) : Prop :=
  (a <= i < b)%nat /\ (forall j, (a <= j < b)%nat -> nth j l 0 <= nth i l 0) /\ (forall j, (a <= j < i)%nat -> nth j l 0 < nth i l 0).
(* order is a permutation that sorts l *)
Definition sorts (argsort : list Q -> list nat) : Prop := forall l, Permutation (argsort l) (seq 0 (length l)) /\
  forall i j, (i < j < length l)%nat -> nth (nth i (argsort l) 0%nat) l 0 <= nth (nth j (argsort l) 0%nat) l 0.

(* phaseogram: events are (phase, time, weight); time bin i of n between lo and hi, the last one closed *)
Definition time_bin (lo hi : Q) (n i : nat) (t : Q) : Prop :=
  let e := fun j => lo + inject_Z (Z.of_nat j) * ((hi - lo) / inject_Z (Z.of_nat n)) in
  e i <= t /\ (t < e (S i) \/ (S i = n /\ t == hi)).
Definition phased_events (times w : list Q) (fs : list Q) (epoch ph0 : Q) (axis : Q -> Q) : list ((Q * Q) * Q) :=
  combine (map (fun t => (frac (ph0 + turns fs (t - epoch)), axis t)) times) w.
(* the weight of the events that satisfy a condition; v is that sum *)
Inductive weight_where {A} (P : A -> Prop) : list (A * Q) -> Q -> Prop :=
| ww_nil : weight_where P [] 0
| ww_in : forall a w l v, P a -> weight_where P l v -> weight_where P ((a, w) :: l) (w + v)
| ww_out : forall a w l v, ~ P a -> weight_where P l v -> weight_where P ((a, w) :: l) v.
