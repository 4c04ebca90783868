(* S_lcops.v: what splitting at gaps, checks of values, and colors and intensities of segments mean. *)
From Coq Require Import Reals.
From Verif Require Import Np S_gti S_seg S_base M_base.
Open Scope Q_scope.

(* the runs of a list of times: cut wherever two neighbours are mg or more apart *)
Fixpoint runs (mg : Q) (l : list Q) : list (list Q) :=
  match l with
  | [] => []
  | a :: l' =>
    match runs mg l' with
    | (b :: r) :: rest => if Qlt_le_dec (b - a) mg then (a :: b :: r) :: rest else [a] :: (b :: r) :: rest
    | rest => [a] :: rest
    end
  end.
(* neighbours of a list *)
Definition neighbours (l : list Q) (a b : Q) : Prop := exists k, nth_error l k = Some a /\ nth_error l (S k) = Some b.
(* the smallest distance of neighbours *)
Definition smallest_step (l : list Q) (d : Q) : Prop :=
  (exists a b, neighbours l a b /\ b - a == d) /\ forall a b, neighbours l a b -> d <= b - a.
(* every value that is not finite is at a time with property P *)
Definition bad_only (P : Q -> Prop) (time : list Q) (v : list (option Q)) : Prop :=
  forall i t, nth_error time i = Some t -> nth_error v i = Some None -> P t.
(* how many samples have a time in [lo, hi) and a value in [e0, e1) *)
Definition events_between (lo hi : Q) (r : Q * Q) (times energies : list Q) : nat :=
  length (filter (fun p => qle lo (fst p) && qlt (fst p) hi && qle (fst r) (snd p) && qlt (snd p) (snd r))%bool (combine times energies)).
(* ratio of two numbers of events, its error; None: not defined *)
Definition ratio_of (n1 n2 : nat) : option R := if (Nat.eqb n1 0 || Nat.eqb n2 0)%bool then None else Some (INR n2 / INR n1)%R.
Definition ratio_error (n1 n2 : nat) : option R :=
  if (Nat.eqb n1 0 || Nat.eqb n2 0)%bool then None else Some (INR n2 / INR n1 * (/ sqrt (INR n1) + / sqrt (INR n2)))%R.
(* the light curve of the interval iv, with n bins: how many of the given times are in each bin *)
Definition curve_of (times : list Q) (dt : Q) (iv : Q * Q) (n : nat) (time counts : list Q) : Prop :=
  length time = n /\ length counts = n /\
  (forall i t, nth_error time i = Some t -> t == fst iv + inject_Z (Z.of_nat i) * dt + dt / 2) /\
  (forall i c, nth_error counts i = Some c -> c = inject_Z (Z.of_nat (length (filter
     (fun t => qle (fst iv + inject_Z (Z.of_nat i) * dt) t && qlt t (fst iv + inject_Z (Z.of_nat (S i)) * dt))%bool times)))).
