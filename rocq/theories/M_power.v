(* M_power.v: model of stingray/fourier.py integrate_power_in_frequency_range and the shift-and-add
   functions.  Floating point numbers are replaced by exact rationals. *)
From Verif Require Import Np.
Open Scope Q_scope.

(* One row of the arrays frequency, df, power, poisson_power and power_err (equally long;
   scalars df and poisson_power are repeated, fourier.py:70-75). *)
Record pbin := { b_f : Q; b_df : Q; b_p : Q; b_noise : Q; b_err : Q }.

(* x[0] = v and x[-1] = v on a non-empty array *)
Definition put_first (v : Q) (l : list Q) : list Q := match l with [] => [] | _ :: r => v :: r end.
Definition put_last (v : Q) (l : list Q) : list Q := match l with [] => [] | _ => removelast l ++ [v] end.

(* fourier.py:28-108 integrate_power_in_frequency_range, real powers.  [m]: Some m if power_err is
   None, and then each error is power/sqrt(m); None if power_err is given.  The second component
   of the result is the square of the returned error. *)
Definition integrate_power (rows : list pbin) (lo hi : Q) (m : option Q) : result (Q * Q) :=
  let sel := filter (fun r => qlt lo (b_f r + b_df r / 2) && qlt (b_f r - b_df r / 2) hi) rows in
  let ones := map (fun _ => 1) sel in
  let! r0 := get sel 0 in
  let c := put_first ((b_f r0 + (1#2) * b_df r0 - lo) / b_df r0) ones in
  let! rl := get_last sel in
  let c := put_last ((hi - b_f rl + (1#2) * b_df rl) / b_df rl) c in
  let dfs := map (fun rc => b_df (fst rc) * snd rc) (combine sel c) in
  let err2 := fun r => match m with Some m => b_p r * b_p r / m | None => b_err r * b_err r end in
  Ok (qsum (map (fun rd => (b_p (fst rd) - b_noise (fst rd)) * snd rd) (combine sel dfs)),
      qsum (map (fun rd => err2 (fst rd) * (snd rd * snd rd)) (combine sel dfs))).

(* fourier.py:1371-1425 _safe_array_slice_indices: (input_slice, output_slice) *)
Definition safe_slice (input_size center nbins : Z) : (Z * Z) * (Z * Z) :=
  let minbin := (center - nbins / 2)%Z in
  let maxbin := (minbin + nbins)%Z in
  if (minbin <? 0)%Z then ((0%Z, (minbin + nbins)%Z), ((- minbin)%Z, Z.min nbins (input_size - minbin)))
  else if (input_size <? maxbin)%Z then ((minbin, input_size), (0%Z, (nbins - (maxbin - input_size))%Z))
  else ((minbin, maxbin), (0%Z, nbins)).

(* fourier.py:1429-1468 extract_pds_slice_around_freq; nan is None.  Assigning a slice of another
   length is a ValueError (the broadcasting of one element is not modelled). *)
Definition extract_slice (freqs powers : list Q) (f0 : Q) (nbins : nat) : result (list (option Q)) :=
  let chunk := repeat (@None Q) nbins in
  let s := safe_slice (Z.of_nat (length powers)) (Z.of_nat (searchsorted_left freqs f0)) (Z.of_nat nbins) in
  let vals := slice powers (Z.to_nat (fst (fst s))) (Z.to_nat (snd (fst s))) in
  let o0 := Z.to_nat (fst (snd s)) in
  let o1 := Z.to_nat (snd (snd s)) in
  if Nat.eqb (length vals) (length (slice chunk o0 o1))
  then Ok (firstn o0 chunk ++ map Some vals ++ skipn o1 chunk)
  else Err ValueError.

(* out[k] += v on a numpy array, 0 <= k; compiled code does not check the bounds: an index outside
   the array is modelled as IndexError. *)
Definition zget (l : list Q) (k : Z) : result Q :=
  if (k <? 0)%Z then Err IndexError else get l (Z.to_nat k).
Definition zadd (l : list Q) (k : Z) (v : Q) : result (list Q) :=
  let! x := zget l k in
  Ok (firstn (Z.to_nat k) l ++ (x + v) :: skipn (S (Z.to_nat k)) l).

(* fourier.py:1498-1501: inner loop, i = i0, i0+1, ..., cnt iterations *)
Fixpoint sa_inner (cnt : nat) (i : Z) (arr : list Q) (w : Q) (in0 out0 : Z) (out sow : list Q)
  : result (list Q * list Q) :=
  match cnt with
  | O => Ok (out, sow)
  | S c =>
      let! x := zget arr (in0 + i) in
      let! out := zadd out (out0 + i) (x * w) in
      let! sow := zadd sow (out0 + i) w in
      sa_inner c (i + 1)%Z arr w in0 out0 out sow
  end.
(* fourier.py:1495-1501: outer loop *)
Fixpoint sa_outer (input_size nbins : Z) (l : list (Z * (list Q * Q))) (out sow : list Q)
  : result (list Q * list Q) :=
  match l with
  | [] => Ok (out, sow)
  | (idx, (arr, w)) :: l' =>
      let s := safe_slice input_size idx nbins in
      let! os := sa_inner (Z.to_nat (snd (fst s) - fst (fst s))) 0%Z arr w (fst (fst s)) (fst (snd s)) out sow in
      sa_outer input_size nbins l' (fst os) (snd os)
  end.
(* fourier.py:1471-1505 _shift_and_average_core; output_array / sum_of_weights is nan (None) where
   the weights are 0. *)
Definition shift_and_average_core (arrs : list (list Q)) (ws : list Q) (centers : list Z) (nbins : nat)
  : result (list (option Q) * list Q) :=
  let! first := get arrs 0 in
  let zeros := repeat 0 nbins in
  let! os := sa_outer (Z.of_nat (length first)) (Z.of_nat nbins) (combine centers (combine arrs ws)) zeros zeros in
  Ok (map (fun p => if qeq (snd p) 0 then None else Some (fst p / snd p)) (combine (fst os) (snd os)), snd os).

(* fourier.py:1508-1586 shift_and_add with rebin=None; ws is M as an array. *)
Definition shift_and_add (freqs : list Q) (powers : list (list Q)) (f0s : list Q) (nbins : nat)
  (ws : list Q) (df : option Q) : result (list Q * list (option Q) * list Q) :=
  let centers := map (fun f => Z.of_nat (searchsorted_left freqs f)) f0s in
  let! r := shift_and_average_core powers ws centers nbins in
  let! df := match df with
             | Some d => Ok d
             | None => let! f1 := get freqs 1 in let! f0 := get freqs 0 in Ok (f1 - f0)
             end in
  let n := Z.of_nat nbins in
  let grid := firstn nbins (map (fun i => inject_Z (- n / 2 + Z.of_nat i)%Z * df)
                              (seq 0 (Z.to_nat (n / 2 + 1 - (- n / 2))))) in
  let! g0 := get grid 0 in
  let! gl := get_last grid in
  let mean := qsum f0s / inject_Z (Z.of_nat (length f0s)) in
  Ok (map (fun f => f - (g0 + gl) / 2 + mean) grid, fst r, snd r).
