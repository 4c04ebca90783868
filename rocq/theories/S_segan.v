(* S_segan.v: pieces of time series. *)
From Coq Require Import Qabs.
From Verif Require Import Np S_gti S_seg S_base S_flux M_base.
Open Scope Q_scope.

(* t in [lo, hi), t in [lo, hi] *)
Definition in_window (lo hi t : Q) : bool := (qle lo t && qlt t hi)%bool.
Definition in_closed (lo hi t : Q) : bool := (qle lo t && qle t hi)%bool.
(* the samples of s that are flagged, with GTIs g.  A light curve also gets a new start time and length. *)
Definition keep_cols (m : list bool) (c : list (nat * list Q)) : list (nat * list Q) := map (fun p => (fst p, keep m (snd p))) c.
Definition piece_of (lc : bool) (m : list bool) (g : list (Q * Q)) (s : series) : series :=
  let t := keep m (s_time s) in
  mkSeries t (keep_cols m (s_cols s)) (keep_cols m (s_errs s)) (s_dt s) (Some g) (s_mjdref s)
    (if lc then match t with [] => None | a :: _ => Some (a - (1 # 2) * s_dt s) end else s_tstart s)
    (if lc then match t with [] => None | a :: _ => Some (last t a - a + s_dt s) end else s_tseg s).
(* the samples in [lo, hi) *)
Definition cut_window (lc : bool) (s : series) (lo hi : Q) : series := piece_of lc (map (in_window lo hi) (s_time s)) [(lo, hi)] s.
(* the samples at positions i <= k < j *)
Definition range_flags (n i j : nat) : list bool := map (fun k => Nat.leb i k && Nat.ltb k j)%bool (seq 0 n).
(* every column has one value per sample *)
Definition regular (s : series) : Prop :=
  all_of_length (length (s_time s)) (s_cols s) /\ all_of_length (length (s_time s)) (s_errs s).
Definition samples_in (times : list Q) (lo hi : Q) : nat := length (filter (in_window lo hi) times).
(* sum over [lo, hi): the number of samples, or the sum of the column [counts] when there is one *)
Definition window_sum (counts : nat) (s : series) (lo hi : Q) : Q :=
  match column counts (s_cols s) with
  | Some c => qsum (keep (map (in_window lo hi) (s_time s)) c)
  | None => inject_Z (Z.of_nat (samples_in (s_time s) lo hi))
  end.
(* cutting g in segments of this size: all segments with two samples or more have a sum of at least mc; some of them has less *)
Definition enough_at (counts : nat) (s : series) (g : list (Q * Q)) (mc size : Q) : Prop :=
  exists st, segment_grid g size (1 # 100000) st /\
  (exists a, In a st /\ (2 <= samples_in (s_time s) a (a + size))%nat) /\
  forall a, In a st -> (2 <= samples_in (s_time s) a (a + size))%nat -> mc <= window_sum counts s a (a + size).
Definition short_at (counts : nat) (s : series) (g : list (Q * Q)) (mc size : Q) : Prop :=
  exists st a, segment_grid g size (1 # 100000) st /\ In a st /\ (2 <= samples_in (s_time s) a (a + size))%nat /\ window_sum counts s a (a + size) < mc.
(* what is assumed of the random numbers: uniform numbers lie between the bounds, a choice takes elements of the list *)
Definition uniform_in (u : nat -> Q -> Q -> nat -> list Q) : Prop := forall k lo hi n, lo <= hi -> forall x, In x (u k lo hi n) -> lo <= x /\ x <= hi.
Definition choice_in (c : nat -> nat -> list Q -> nat -> list Q) : Prop := forall k name a n, a <> [] \/ n = 0%nat -> length (c k name a n) = n /\ incl (c k name a n) a.
(* (a, b) is a gap of g *)
Definition a_gap (g : list (Q * Q)) (a b : Q) : Prop := a < b /\ forall t, a <= t -> t < b -> ~ covered g t.
(* the elements of l in a given order *)
Definition reordered (order : list nat) (l : list Q) : list Q := map (fun i => nth i l 0) order.
(* column c' holds the flagged values of c and new values taken among those of c, in a given order *)
Definition filled_col (m : list bool) (order : list nat) (nnew : nat) (c c' : nat * list Q) : Prop :=
  fst c' = fst c /\ exists nv, length nv = nnew /\ incl nv (snd c) /\ snd c' = reordered order (keep m (snd c) ++ nv).
(* the segments of an interval that start every [step], with tolerance eps *)
Definition steps_of (size step eps : Q) (iv : Q * Q) (l : list Q) : Prop :=
  (forall k, (k < length l)%nat <-> fst iv + inject_Z (Z.of_nat k) * step + size < snd iv + eps) /\
  (forall k s, nth_error l k = Some s -> s == fst iv + inject_Z (Z.of_nat k) * step).
Definition step_grid (g : list (Q * Q)) (size step eps : Q) (st : list Q) : Prop :=
  exists ls, Forall2 (steps_of size step eps) g ls /\ st = concat ls.
(* equal lists of intervals, up to a millisecond *)
Definition near_lists (h g : list (Q * Q)) : Prop :=
  Forall2 (fun a b => Qabs (fst a - fst b) < 1 # 1000 /\ Qabs (snd a - snd b) < 1 # 1000) h g.
