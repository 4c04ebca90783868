(* M_sim.v: model of stingray/simulator/base.py (random values from a histogram), of stingray/simulator/transfer.py and of the impulse
   responses of stingray/simulator/simulator.py.  Numbers are exact rationals; None is nan.  Random numbers are parameters: lists of
   numbers from [0, 1). *)
From Verif Require Import Np Lib M_gti M_seg M_utils.
From Coq Require Import ZArith QArith List Bool Arith.
Import ListNotations.
Open Scope Q_scope.

(* np.cumsum *)
Fixpoint qcumsum (acc : Q) (l : list Q) : list Q := match l with [] => [] | a :: l' => (acc + a) :: qcumsum (acc + a) l' end.
(* np.linspace(a, b, n + 1) *)
Definition even_edges (a b : Q) (n : nat) : list Q :=
  match n with O => [a] | _ => map (fun i => a + inject_Z (Z.of_nat i) * ((b - a) / inject_Z (Z.of_nat n))) (seq 0 (S n)) end.
(* scipy.interpolate.interp1d, kind "linear" (library): the interval on the left or, with np.interp (newer versions), on the right of a
   repeated abscissa.  0 / 0 is nan.  Values outside the range do not occur. *)
Definition interp (right : bool) (xs ys : list Q) (v : Q) : option Q :=
  let i := if right then searchsorted_right xs v else searchsorted_left xs v in
  let i := Nat.min (Nat.max i 1) (length xs - 1) in
  let x0 := nth (i - 1) xs 0 in
  let x1 := nth i xs 0 in
  let y0 := nth (i - 1) ys 0 in
  let y1 := nth i ys 0 in
  if qeq x0 x1 then None else Some ((y1 - y0) / (x1 - x0) * (v - x0) + y0).
(* simulator/base.py:144-252 simulate_with_inverse_cdf, interp_kind "linear"; us are the N numbers of np.random.uniform(0, 1, N), and
   np.random.uniform(a, b, N) is a + (b - a) u *)
Definition simulate_with_inverse_cdf (right : bool) (binned_pdf us : list Q) (x_range : option (Q * Q)) (sorted : bool) (edges : option (list Q))
  : result (list (option Q)) :=
  let x_range := match x_range with Some r => r | None => (0, 1) end in
  let edges := match edges with Some e => e | None => even_edges (fst x_range) (snd x_range) (length binned_pdf) end in
  if existsb (fun p => qlt p 0) binned_pdf then Err ValueError
  else if Nat.eqb (length binned_pdf) 1 then
    let vals := map (fun u => fst x_range + (snd x_range - fst x_range) * u) us in
    Ok (map Some (if sorted then np_sort vals else vals))
  else
    let cdf := qcumsum 0 (0 :: binned_pdf) in
    if negb (Nat.eqb (length cdf) (length edges)) then Err ValueError
    else
      let! total := get_last cdf in
      let cdf_vals := if sorted then np_sort us else us in
      if qeq total 0 then Ok (map (fun _ => None) cdf_vals)
      else Ok (map (interp right (map (fun c => c / total) cdf) edges) cdf_vals).
(* simulator/base.py:63-141 simulate_times_from_count_array, use_spline False; draws i: the numbers drawn for interval i, as many as the
   Poisson variable of mean sum(counts) *)
Definition simulate_one (right : bool) (counts us : list Q) (g : Q * Q) : result (list (option Q)) := simulate_with_inverse_cdf right counts us (Some g) true None.
Definition simulate_times (right : bool) (time counts : list Q) (gti : gtis) (dt : Q) (draws : nat -> list Q) : result (list (option Q)) :=
  if existsb (fun c => qlt c 0) counts then Err ValueError
  else match gti with
  | [] => Err IndexError
  | [g] => simulate_one right counts (draws 0%nat) g
  | _ => let! bins := gti_border_bins gti time dt (1 # 1000) in
         let! l := map_result (fun p => simulate_one right (slice counts (fst (snd (fst p))) (snd (snd (fst p)))) (draws (snd p)) (fst (fst p))) (combine (combine gti bins) (seq 0 (length gti))) in
         Ok (concat l)
  end.
(* events.py:456-494 EventList.simulate_energies: energies and fluxes of the spectrum, one number for each event *)
Definition simulate_energies (right : bool) (energy fluxes us : list Q) : result (list (option Q)) :=
  let! edges := if Nat.eqb (length energy) (length fluxes) then
                  let! e1 := get energy 1 in
                  let! e0 := get energy 0 in
                  let! last := get_last energy in
                  let de := e1 - e0 in
                  Ok (map (fun e => e - de / 2) energy ++ [last + de / 2])
                else Ok energy in
  simulate_with_inverse_cdf right fluxes us None false (Some edges).

(* scipy.signal.fftconvolve(s, h) (library): the full discrete convolution; nothing if one of them is empty *)
Definition conv_at (s h : list Q) (k : nat) : Q :=
  fold_left Qplus (map (fun j => nth j s 0 * nth (k - j) h 0) (seq 0 (S k))) 0.
Definition fftconvolve (s h : list Q) : list Q :=
  match s, h with [], _ => [] | _, [] => [] | _, _ => map (conv_at s h) (seq 0 (length s + length h - 1)) end.
(* any other mode: nothing is cut *)
Inductive ir_mode := ModeSame | ModeFiltered | ModeFull.
(* simulator/simulator.py:502-537 _simulate_impulse_response: times and counts *)
Definition simulate_impulse_response (dt tstart : Q) (s h : list Q) (mode : ir_mode) : list (Q * Q) :=
  let lc := fftconvolve s h in
  let k := (Z.of_nat (length h) - 1)%Z in
  let lc := match mode with
            | ModeSame => zslice lc 0 (- k)
            | ModeFiltered => zslice lc k (- k)
            | ModeFull => lc
            end in
  combine (map (fun i => dt * ((1 # 2) + inject_Z (Z.of_nat i)) + tstart) (seq 0 (length lc))) lc.
(* simulator/simulator.py:64: times of the simulated light curves *)
Definition sim_time (dt tstart : Q) (n : nat) : list Q := map (fun i => dt * inject_Z (Z.of_nat i) + tstart) (seq 0 n).
(* simulator/simulator.py:255-283 simple_ir, simulator/transfer.py:225-258; np.zeros of a negative number fails *)
Definition simple_ir (dt start width intensity : Q) : result (list Q) :=
  if qeq dt 0 then Err ZeroDivisionError
  else let a := py_int (start / dt) in
       let b := py_int (width / dt) in
       if ((a <? 0) || (b <? 0))%Z%bool then Err ValueError else Ok (repeat 0 (Z.to_nat a) ++ repeat intensity (Z.to_nat b)).

(* simulator/transfer.py:51-64 TransferFunction: rows are energies, columns are times *)
Record transfer := mkTr { tr_data : list (list Q); tr_dt : Q; tr_de : Q; tr_tstart : Q; tr_estart : Q }.
Definition new_transfer (data : list (list Q)) (dt de tstart estart : Q) : result transfer :=
  let! row := get data 0 in
  if (Nat.ltb (length row) 2 || Nat.ltb (length data) 2)%bool then Err ValueError else Ok (mkTr data dt de tstart estart).
(* np.mean over the rows; nan for no row *)
Definition mean_rows (ncols : nat) (rows : list (list Q)) : list (option Q) :=
  map (fun j => match rows with [] => None | _ => Some (fold_left Qplus (map (fun r => nth j r 0) rows) 0 / inject_Z (Z.of_nat (length rows))) end) (seq 0 ncols).
(* simulator/transfer.py:66-104 time_response; self.data[:][0] is the first row *)
Definition time_response (t : transfer) (e0 e1 : option Q) : result (list (option Q)) :=
  let! row := get (tr_data t) 0 in
  let ncols := length row in
  let start := match e0 with None => 0%Z | Some e => py_int (tr_estart t + e / tr_de t) end in
  let stop := match e1 with None => (Z.of_nat ncols - 1)%Z | Some e => py_int (tr_estart t + e / tr_de t) end in
  if ((start <? 0) || (stop <? 0))%Z%bool then Err ValueError
  else if ((Z.of_nat ncols <? start) || (Z.of_nat ncols <? stop))%Z%bool then Err ValueError
  else if (start =? stop)%Z then Err ValueError
  else Ok (mean_rows ncols (slice (tr_data t) (Z.to_nat start) (Z.to_nat stop))).
(* simulator/transfer.py:106-116 energy_response *)
Definition energy_response (t : transfer) : list Q := map (fun r => fold_left Qplus r 0 / inject_Z (Z.of_nat (length r))) (tr_data t).
