(* S_lc.v: what light curves and their properties should be, independent of the code. *)
From Verif Require Import Np.
Open Scope Q_scope.

Definition within (lo hi t : Q) : bool := (qle lo t && qlt t hi)%bool.
(* Average of a non-empty list. *)
Fixpoint sum_of (l : list Q) : Q := match l with [] => 0 | a :: l' => a + sum_of l' end.
Definition average_is (l : list Q) (m : Q) : Prop := m * inject_Z (Z.of_nat (length l)) == sum_of l.

(* The data of a light curve as the user knows them: the last values assigned, as counts or as count rates. *)
Inductive given := Counts (l : list Q) | Rates (l : list Q).
Definition as_counts (dt : Q) (d : given) : list Q := match d with Counts c => c | Rates r => map (fun v => v * dt) r end.
Definition as_rates (dt : Q) (d : given) : list Q := match d with Counts c => map (fun v => v / dt) c | Rates r => r end.
Definition given_length (d : given) : nat := match d with Counts c => length c | Rates r => length r end.

(* t appears among the samples with exactly these values. *)
Definition value_at {A} (l : list (Q * A)) (t : Q) (v : A) : Prop := exists t', In (t', v) l /\ t' == t.
Definition no_value_at {A} (l : list (Q * A)) (t : Q) : Prop := forall t' v, In (t', v) l -> ~ t' == t.
Definition distinct_times {A} (l : list (Q * A)) : Prop :=
  forall i j a b, nth_error l i = Some a -> nth_error l j = Some b -> fst a == fst b -> i = j.
(* m is a smallest / largest element. *)
Definition smallest (l : list Q) (m : Q) : Prop := In m l /\ forall e, In e l -> m <= e.
Definition largest (l : list Q) (m : Q) : Prop := In m l /\ forall e, In e l -> e <= m.
(* All edges of a list of intervals. *)
Fixpoint interval_edges (g : list (Q * Q)) : list Q := match g with [] => [] | (a, b) :: g' => a :: b :: interval_edges g' end.
(* Start and duration of the light curve: as requested, or those of the GTIs, or those of the photons. *)
Definition start_is (toa : list Q) (gti : option (list (Q * Q))) (tstart : option Q) (s : Q) : Prop :=
  match tstart, gti with
  | Some t, _ => s = t
  | None, Some g => smallest (interval_edges g) s
  | None, None => smallest toa s
  end.
Definition duration_is (toa : list Q) (gti : option (list (Q * Q))) (tseg : option Q) (s d : Q) : Prop :=
  match tseg, gti with
  | Some t, _ => d = t
  | None, Some g => exists e, largest (interval_edges g) e /\ d = e - s
  | None, None => exists e, largest toa e /\ d = e - s
  end.
(* Left edge of bin i. *)
Definition bin_edge (s dt : Q) (i : nat) : Q := s + inject_Z (Z.of_nat i) * dt.
(* One event per count, at the time stamp of its bin. *)
Fixpoint one_event_per_count (l : list (Q * Z)) : list Q :=
  match l with [] => [] | (t, c) :: l' => repeat t (Z.to_nat c) ++ one_event_per_count l' end.
