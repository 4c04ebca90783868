(* M_bispec.v: model of stingray/bispectrum.py.  Real numbers are exact. *)
From Verif Require Import Np M_utils Cplx M_fourier M_corr M_window.
Open Scope R_scope.

(* two-dimensional arrays, as lists of rows *)
Definition mat {A} (r c : nat) (f : nat -> nat -> A) : list (list A) := map (fun i => map (f i) (seq 0 c)) (seq 0 r).
Definition at2 {A} (d : A) (m : list (list A)) (i j : nat) : A := nth j (nth i m []) d.
(* scipy.linalg.toeplitz (library): first column c, first row r, whose first element is not used *)
Definition toeplitz {A} (d : A) (c r : list A) : list (list A) :=
  mat (length c) (length r) (fun i j => if Nat.leb j i then nth (i - j) c d else nth (j - i) r d).
(* x[i] with an integer that may be negative *)
Definition np_index {A} (l : list A) (i : Z) : result A :=
  let n := Z.of_nat (length l) in
  if (0 <=? i)%Z then get l (Z.to_nat i) else if (- n <=? i)%Z then get l (Z.to_nat (i + n)) else Err IndexError.

(* bispectrum.py:227-261 _cumulant3.  The two factors of np.multiply must have equally many columns; the cases in which numpy would
   stretch one of them end in an IndexError before. *)
Definition cumulant3 (signal : list R) (maxlag : nat) : result (list (list R)) :=
  let n := length signal in
  let nz := Z.of_nat n in
  let lz := Z.of_nat maxlag in
  let! sig := map_result (np_index signal) (zrange (nz - lz - 1) nz) in
  let col := sig ++ repeat 0 maxlag in
  let rev_signal := rev signal in
  let! rs_t := map_result (np_index rev_signal) (zrange lz nz) in
  let row := rs_t ++ repeat 0 maxlag in
  let toep := toeplitz 0 col row in
  if negb (Nat.eqb (length row) n) then Err ValueError
  else
    let prod := mat (2 * maxlag + 1) n (fun i j => at2 0 toep i j * nth j rev_signal 0) in
    Ok (mat (2 * maxlag + 1) (2 * maxlag + 1) (fun i k => rs n (fun j => at2 0 prod i j * at2 0 toep k j))).

(* bispectrum.py:276-310 the matrix of the unbiased scaling.  maxlag <= n here. *)
Definition scaling_matrix (n maxlag : nat) : list (list Z) :=
  let maxlag1 := S maxlag in
  let nz := Z.of_nat n in
  let upper := mat maxlag1 maxlag1 (fun k j => if Nat.leb k j then (nz - Z.of_nat (maxlag1 - S k))%Z else 0%Z) in
  let scal := mat maxlag1 maxlag1 (fun i j => (at2 0%Z upper i j + (if Nat.ltb j i then at2 0%Z upper j i else 0))%Z) in
  let maxlag1ind := rev (seq 0 maxlag) in
  let lagdiff := (nz - Z.of_nat maxlag1)%Z in
  let col := zrange lagdiff (nz - 1) in
  let row := map (fun i => (lagdiff - Z.of_nat i)%Z) (seq 0 maxlag) in
  let toep := toeplitz 0%Z col row in
  let conc := map (fun q => at2 0%Z scal maxlag q) maxlag1ind in
  let join := toep ++ [conc] in
  let scal := map (fun p => fst p ++ snd p) (combine scal join) in
  let co_mat := map (fun q => map (fun c => at2 0%Z scal q c) (rev (seq 0 (2 * maxlag + 1)))) maxlag1ind in
  map (map (fun v => if (v <? 1)%Z then 1%Z else v)) (scal ++ co_mat).
(* bispectrum.py:263-310 _normalize_cumulant3 *)
Definition normalize_cumulant3 (biased : bool) (n maxlag : nat) (cum3 : list (list R)) : list (list R) :=
  let d := (2 * maxlag + 1)%nat in
  if biased then map (map (fun v => v / INR n)) cum3
  else mat d d (fun i j => at2 0 cum3 i j / IZR (at2 0%Z (scaling_matrix n maxlag) i j)).

(* bispectrum.py:200-225 _get_window, with the values of create_window *)
Definition bispec_window (maxlag : nat) (window_even : list R) : list (list R) :=
  let N := (2 * maxlag + 1)%nat in
  let window2d := repeat window_even N in
  let w := skipn maxlag window_even ++ repeat 0 maxlag in
  let w := firstn maxlag w ++ repeat 0 (N - maxlag) in
  let row := nth 0 w 0 :: repeat 0 (2 * maxlag) in
  let toep := toeplitz 0 w row in
  let toep := mat N N (fun i j => at2 0 toep i j + (if Nat.ltb i j then at2 0 toep j i else 0)) in
  mat N N (fun i j => at2 0 toep i (N - 1 - j) * at2 0 window2d i j * at2 0 window2d j i).

(* numpy.fft.fftshift and ifftshift (library) of one axis of n elements: where element i comes from *)
Definition shifted (n i : nat) : nat := ((i + (n - n / 2)) mod n)%nat.
Definition unshifted (n i : nat) : nat := ((i + n / 2) mod n)%nat.
(* fftshift(fft2(ifftshift(m))) for a square matrix of size n *)
Definition centred_fft2 (n : nat) (m : list (list R)) : list (list cx) :=
  let s := mat n n (fun i j => at2 0 m (unshifted n i) (unshifted n j)) in
  let F := mat n n (fun a b => cs n (fun u => cs n (fun v =>
             cmul (rtoc (at2 0 s u v)) (cmul (cis n (- Z.of_nat (a * u))) (cis n (- Z.of_nat (b * v))))))) in
  mat n n (fun a b => at2 c0 F (shifted n a) (shifted n b)).

(* the attributes; a frequency is None when it is not a number *)
Record bispectrum := mkBi { bi_maxlag : nat; bi_lags : list R; bi_cum3 : list (list R); bi_freq : list (option R); bi_bispec : list (list cx) }.
(* every value of a window that has no nan *)
Definition window_reals (l : list (option R)) : option (list R) :=
  fold_right (fun v acc => match v, acc with Some x, Some xs => Some (x :: xs) | _, _ => None end) (Some []) l.
(* bispectrum.py:122-198, 312-332.  counts and dt of the light curve; a window with nan (maxlag = 0) is outside the model, shown by OutOfFuel *)
Definition make_bispectrum (counts : list R) (dt : R) (maxlag : option Z) (window : option window_type) (biased : bool) : result bispectrum :=
  let n := length counts in
  let L := match maxlag with None => (n / 2)%nat | Some l => Z.abs_nat l end in
  let! w := match window with
            | None => Ok None
            | Some t => let! l := create_window (Z.of_nat (2 * L + 1)) t in
                        match window_reals l with Some v => Ok (Some (bispec_window L v)) | None => Err OutOfFuel end
            end in
  let mean := rlsum counts / INR n in
  let signal := map (fun c => c - mean) counts in
  let! cum3 := cumulant3 signal L in
  let cum3 := normalize_cumulant3 biased n L cum3 in
  let lagindex := zrange (- Z.of_nat L) (Z.of_nat L + 1) in
  let lags := map (fun k => IZR k * dt) lagindex in
  let d := (2 * L + 1)%nat in
  let freq := map (fun lag => if Nat.eqb L 0 then None else Some (1 / 2 * (1 / dt) * (lag / dt) / INR L)) lags in
  let windowed := match w with None => cum3 | Some w => mat d d (fun i j => at2 0 cum3 i j * at2 0 w i j) end in
  Ok (mkBi L lags cum3 freq (centred_fft2 d windowed)).
