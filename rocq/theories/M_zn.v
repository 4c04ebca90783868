(* M_zn.v: model of the pulsation statistics of stingray/pulse/pulsar.py.  Numbers are exact reals; floating-point
   rounding is not modelled. *)
From Verif Require Import Np Cplx.
Open Scope R_scope.

(* pulsar.py:348-370 ef_profile_stat with err=None; np.mean of an empty array is nan: the theorems exclude it. *)
Definition ef_profile_stat (profile : list R) : R :=
  let mean := rlsum profile / INR (length profile) in
  let err := sqrt mean in
  rlsum (map (fun p => (p - mean) ^ 2 / err ^ 2) profile).

(* pulsar.py:399-435 _cached_sin_harmonics and _cached_cos_harmonics (f is sin or cos); the lru_cache is not modelled (the
   table is never written to).  np.arange(dph/2, 1, dph) has ceil((1 - dph/2)/dph) = nbin entries. *)
Definition cached_harmonics (f : R -> R) (nbin z_n_n : nat) : result (list R) :=
  if Nat.eqb nbin 0 then Err ZeroDivisionError
  else
    let dph := 1 / INR nbin in
    let twopiphases := map (fun i => PI * 2 * (dph / 2 + INR i * dph)) (seq 0 nbin) in
    Ok (concat (repeat (map f twopiphases) z_n_n)).

(* x[:stop:step] *)
Definition strided (x : list R) (stop step : nat) : list R :=
  map (fun i => nth (i * step) x 0) (filter (fun i => Nat.ltb (i * step) (Nat.min stop (length x))) (seq 0 (length x))).

(* product of two arrays; ValueError when the lengths differ (broadcasting of one-element arrays is not modelled, the
   lengths always agree here) *)
Definition array_mul (a b : list R) : result (list R) :=
  if Nat.eqb (length a) (length b) then Ok (map (fun p => fst p * snd p) (combine a b)) else Err ValueError.

(* pulsar.py:438-465 _z_n_fast_cached_sums_unnorm: the loop over ks.  ks is 1,2,..n, so all_zs[k - 1] = total_sum fills the
   output in order. *)
Fixpoint z_n_sums (prof : list R) (ks : list nat) (cached_sin cached_cos : list R) (total_sum : R) : result (list R) :=
  match ks with
  | [] => Ok []
  | k :: ks' =>
    let N := length prof in
    let! c := array_mul (strided cached_cos (N * k) k) prof in
    let! s := array_mul (strided cached_sin (N * k) k) prof in
    let total_sum := total_sum + (rlsum c ^ 2 + rlsum s ^ 2) in
    let! rest := z_n_sums prof ks' cached_sin cached_cos total_sum in
    Ok (total_sum :: rest)
  end.

(* pulsar.py:468-498 z_n_binned_events_all *)
Definition z_n_binned_events_all (profile : list R) (nmax : nat) : result (list nat * list R) :=
  let! cached_sin := cached_harmonics sin (length profile) nmax in
  let! cached_cos := cached_harmonics cos (length profile) nmax in
  let ks := seq 1 nmax in
  let total := rlsum profile in
  if Req_EM_T total 0 then Ok (ks, repeat 0 nmax)
  else
    let! all_zs := z_n_sums profile ks cached_sin cached_cos 0 in
    Ok (ks, map (fun z => z * 2 / total) all_zs).

(* pulsar.py:501-528 z_n_gauss_all *)
Definition z_n_gauss_all (profile : list R) (err : R) (nmax : nat) : result (list nat * list R) :=
  let! cached_sin := cached_harmonics sin (length profile) nmax in
  let! cached_cos := cached_harmonics cos (length profile) nmax in
  let ks := seq 1 nmax in
  let! all_zs := z_n_sums profile ks cached_sin cached_cos 0 in
  Ok (ks, map (fun z => z * (2 / INR (length profile) / err ^ 2)) all_zs).

(* pulsar.py:531-560 z_n_events_all *)
Fixpoint z_n_events_sums (phase : list R) (ks : list nat) (total_sum : R) : list R :=
  match ks with
  | [] => []
  | k :: ks' =>
    let total_sum := total_sum + (rlsum (map (fun p => cos (INR k * p)) phase) ^ 2 + rlsum (map (fun p => sin (INR k * p)) phase) ^ 2) in
    total_sum :: z_n_events_sums phase ks' total_sum
  end.
Definition z_n_events_all (phase : list R) (nmax : nat) : result (list nat * list R) :=
  let ks := seq 1 nmax in
  let nphot := length phase in
  let phase := map (fun p => p * 2 * PI) phase in
  let all_zs := z_n_events_sums phase ks 0 in
  if Nat.eqb nphot 0 then Err ZeroDivisionError
  else Ok (ks, map (fun z => 2 / INR nphot * z) all_zs).

(* x[-1] *)
Definition last_of (x : list R) : result R :=
  match rev x with [] => Err IndexError | a :: _ => Ok a end.
(* pulsar.py:563-580, 583-602, 605-622 z_n_binned_events, z_n_gauss, z_n_events *)
Definition z_n_binned_events (profile : list R) (n : nat) : result R :=
  let! r := z_n_binned_events_all profile n in last_of (snd r).
Definition z_n_gauss (profile : list R) (err : R) (n : nat) : result R :=
  let! r := z_n_gauss_all profile err n in last_of (snd r).
Definition z_n_events (phase : list R) (n : nat) : result R :=
  let! r := z_n_events_all phase n in last_of (snd r).

(* the datatype argument; OtherData is any other string *)
Inductive datatype := Binned | Events | Gauss | OtherData.
(* pulsar.py:625-685 z_n; the deprecated argument norm is None *)
Definition z_n (data : list R) (n : nat) (dtype : datatype) (err : option R) : result R :=
  if Nat.eqb (length data) 0 then Ok 0
  else match dtype with
       | Binned => z_n_binned_events data n
       | Events => z_n_events data n
       | Gauss => match err with None => Err ValueError | Some e => z_n_gauss data e n end
       | OtherData => Err ValueError
       end.

(* np.argmax: the first position of the largest value *)
Fixpoint argmax_from (best : nat) (bv : R) (i : nat) (x : list R) : nat :=
  match x with
  | [] => best
  | a :: x' => if Rlt_dec bv a then argmax_from i a (S i) x' else argmax_from best bv (S i) x'
  end.
Definition argmax (x : list R) : result nat :=
  match x with [] => Err ValueError | a :: x' => Ok (argmax_from 0 a 1 x') end.

(* pulsar.py:688-737 htest *)
Definition htest (data : list R) (nmax : nat) (dtype : datatype) (err : option R) : result (nat * R) :=
  let! r := match dtype with
            | Binned => z_n_binned_events_all data nmax
            | Events => z_n_events_all data nmax
            | Gauss => match err with None => Err ValueError | Some e => z_n_gauss_all data e nmax end
            | OtherData => Err ValueError
            end in
  let Hs := map (fun p => snd p - 4 * INR (fst p) + 4) (combine (fst r) (snd r)) in
  let! bestidx := argmax Hs in
  Ok (nth bestidx (fst r) 0%nat, nth bestidx Hs 0).
