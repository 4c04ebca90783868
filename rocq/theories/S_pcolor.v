(* S_pcolor.v: power colours and hues. *)
From Coq Require Import Reals Qreals.
From Verif Require Import Np M_power S_power.
Open Scope Q_scope.

(* the bins follow each other without holes *)
Fixpoint contiguous (rows : list pbin) : Prop :=
  match rows with
  | a :: ((b :: _) as l) => right_edge a == left_edge b /\ contiguous l
  | _ => True
  end.
(* [lo, hi] lies in the range of the bins and is at least as wide as each bin *)
Definition wide_range (rows : list pbin) (lo hi : Q) : Prop :=
  exists r0 l, rows = r0 :: l /\ left_edge r0 <= lo /\ hi <= right_edge (last l r0) /\ lo < hi /\ forall r, In r rows -> b_df r <= hi - lo.
(* a bin of the given frequency range *)
Definition strictly_inside (lo hi : Q) (r : pbin) : Prop := lo < left_edge r /\ right_edge r < hi.
(* p is the power of the first bin with frequency f or more *)
Definition power_from (rows : list pbin) (f p : Q) : Prop :=
  exists i r, nth_error rows i = Some r /\ b_p r = p /\ f <= b_f r /\ forall j r', (j < i)%nat -> nth_error rows j = Some r' -> b_f r' < f.
(* r' is r with another power *)
Definition same_bin (r r' : pbin) : Prop := b_f r' = b_f r /\ b_df r' = b_df r /\ b_noise r' = b_noise r /\ b_err r' = b_err r.
(* rows' is rows with the powers in (lo, hi) replaced with the mean of the two neighbouring powers *)
Definition bridged (lo hi : Q) (rows rows' : list pbin) : Prop :=
  exists p0 p1, power_from rows lo p0 /\ power_from rows hi p1 /\
  Forall2 (fun r r' => same_bin r r' /\ (strictly_inside lo hi r -> b_p r' == (p0 + p1) / 2) /\ (~ strictly_inside lo hi r -> r' = r)) rows rows'.
Inductive bridged_all : list (Q * Q) -> list pbin -> list pbin -> Prop :=
| ba_nil rows : bridged_all [] rows rows
| ba_cons lo hi l rows rows1 rows2 : bridged lo hi rows rows1 -> bridged_all l rows1 rows2 -> bridged_all ((lo, hi) :: l) rows rows2.
(* variance of one power: given, or power/sqrt(m) squared *)
Definition power_var (m : option Q) (r : pbin) : Q := match m with Some m => b_p r * b_p r / m | None => b_err r * b_err r end.
(* standard deviation of the integrated power *)
Definition std_dev (m : option Q) (rows : list pbin) (lo hi : Q) : R := sqrt (Q2R (integral_var (power_var m) rows lo hi)).
(* linear propagation of the errors on x and y to x / y, all contributions added up *)
Definition propagated (x ex y ey : R) : R := (ex / y + x * ey / (y * y))%R.
(* all powers and noise levels times c *)
Definition scale_bin (c : Q) (r : pbin) : pbin := {| b_f := b_f r; b_df := b_df r; b_p := c * b_p r; b_noise := c * b_noise r; b_err := c * b_err r |}.
(* the point is at angle [hue], clockwise, from the direction at 135 degrees seen from the centre *)
Definition at_hue (x y cx cy hue : R) : Prop :=
  exists r : R, (0 < r /\ x = cx + r * cos (3 / 4 * PI - hue) /\ y = cy + r * sin (3 / 4 * PI - hue))%R.
