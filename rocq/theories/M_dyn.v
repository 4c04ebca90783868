(* M_dyn.v: model of DynamicalCrossspectrum in stingray/crossspectrum.py.  Numbers are exact rationals. *)
From Verif Require Import Np M_utils.
Open Scope Q_scope.

(* the attributes; d_cols is dyn_ps.T, one list of powers for each time *)
Record dynspec := mkDyn { d_freq : list Q; d_time : list Q; d_cols : list (list Q); d_dt : Q; d_m : Q }.

(* replace element i of a list *)
Definition put {A} (i : nat) (v : A) (l : list A) : list A := firstn i l ++ v :: skipn (S i) l.
(* a + b for arrays *)
Definition add_arrays (a b : list Q) : result (list Q) :=
  if Nat.eqb (length a) (length b) then Ok (map (fun p => fst p + snd p) (combine a b)) else Err ValueError.

(* state of the loop in rebin_by_n_intervals.  bin_counts is a view of column rs_start of self.dyn_ps, so += and /= change
   self.dyn_ps (rs_cols); dynspec_new is a list of such views (rs_out). *)
Record rstate := mkRS { rs_cols : list (list Q); rs_count : nat; rs_start : nat; rs_time : Q; rs_out : list nat; rs_times : list Q }.

(* crossspectrum.py:2433-2449 the body of the loop *)
Definition rebin_step (n : nat) (average : bool) (time : list Q) (st : rstate) (i : nat) : result rstate :=
  let! t := get time i in
  let! data := get (rs_cols st) i in
  let! st := if Nat.eqb (i mod n) 0 then Ok (mkRS (rs_cols st) 1 i t (rs_out st) (rs_times st))
             else
               let! bin_counts := get (rs_cols st) (rs_start st) in
               let! sum := add_arrays bin_counts data in
               Ok (mkRS (put (rs_start st) sum (rs_cols st)) (S (rs_count st)) (rs_start st) (rs_time st + t) (rs_out st) (rs_times st)) in
  if Nat.eqb (rs_count st) n then
    let! bin_counts := get (rs_cols st) (rs_start st) in
    let cols := if average then put (rs_start st) (map (fun x => x / inject_Z (Z.of_nat n)) bin_counts) (rs_cols st) else rs_cols st in
    Ok (mkRS cols (rs_count st) (rs_start st) (rs_time st / inject_Z (Z.of_nat n)) (rs_out st ++ [rs_start st])
             (rs_times st ++ [rs_time st / inject_Z (Z.of_nat n)]))
  else Ok st.
Fixpoint rebin_cols (n : nat) (average : bool) (time : list Q) (st : rstate) (l : list nat) : result rstate :=
  match l with
  | [] => Ok st
  | i :: l' => let! st := rebin_step n average time st i in rebin_cols n average time st l'
  end.
(* crossspectrum.py:2397-2457 rebin_by_n_intervals, integer n, float powers; average is method in ["mean", "average"].  The
   result is the new object and self after the call. *)
Definition rebin_by_n_intervals (d : dynspec) (n : Z) (average : bool) : result (dynspec * dynspec) :=
  if (n =? 1)%Z then Ok (d, d)
  else if (n <? 1)%Z then Err ValueError
  else
    let n := Z.to_nat n in
    let! st := rebin_cols n average (d_time d) (mkRS (d_cols d) 0 0 0 [] []) (seq 0 (length (d_cols d))) in
    let! new := map_result (get (rs_cols st)) (rs_out st) in
    let q := inject_Z (Z.of_nat n) in
    Ok (mkDyn (d_freq d) (rs_times st) new (d_dt d * q) (q * d_m d),
        mkDyn (d_freq d) (d_time d) (rs_cols st) (d_dt d) (d_m d)).

(* np.where(ps == v)[0][0] *)
Fixpoint first_equal (i : nat) (v : Q) (l : list Q) : result nat :=
  match l with
  | [] => Err IndexError
  | x :: l' => if qeq x v then Ok i else first_equal (S i) v l'
  end.
(* crossspectrum.py:2459-2490 trace_maximum, for one column; ps[indices] keeps the powers at frequencies within the limits *)
Definition trace_column (freq : list Q) (min_freq max_freq : Q) (ps : list Q) : result nat :=
  if negb (Nat.eqb (length freq) (length ps)) then Err IndexError
  else
    let! max_power := qmax_list (map snd (filter (fun p => (qle (fst p) max_freq && qle min_freq (fst p))%bool) (combine freq ps))) in
    first_equal 0 max_power ps.
Definition trace_maximum (d : dynspec) (min_freq max_freq : option Q) : result (list nat) :=
  let! lo := match min_freq with Some f => Ok f | None => qmin_list (d_freq d) end in
  let! hi := match max_freq with Some f => Ok f | None => qmax_list (d_freq d) end in
  map_result (trace_column (d_freq d) lo hi) (d_cols d).
