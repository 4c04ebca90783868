(* M_fold.v: model of the folding functions of stingray/pulse/pulsar.py and stingray/pulse/search.py.  Times, phases and
   weights are exact rationals. *)
From Verif Require Import Np Lib S_gti M_gti M_utils M_lc.
Open Scope Q_scope.

(* pulsar.py:47-88 p_to_f.  cast is the conversion of np.zeros_like(period_derivatives)[i] = ...: the identity when any
   argument is a float, truncation when all are integers.  A zero period raises ZeroDivisionError (numpy scalars give inf
   with a warning instead: not modelled).  The list returned for no argument and the array are both lists.  Derivatives above
   the third stay 0 (with a warning). *)
Definition p_to_f (cast : Q -> Q) (period_derivatives : list Q) : result (list Q) :=
  match period_derivatives with
  | [] => Ok []
  | p :: rest =>
    if qeq p 0 then Err ZeroDivisionError
    else
      let f0 := cast (1 / p) in
      let f1 := fun pd => cast (- (1) / p ^ 2 * pd) in
      let f2 := fun pd pdd => cast (2 / p ^ 3 * pd ^ 2 - 1 / p ^ 2 * pdd) in
      let f3 := fun pd pdd pddd => cast (- (6) / p ^ 4 * pd ^ 3 + 6 / p ^ 3 * pd * pdd - 1 / p ^ 2 * pddd) in
      Ok (match rest with
          | [] => [f0]
          | [pd] => [f0; f1 pd]
          | [pd; pdd] => [f0; f1 pd; f2 pd pdd]
          | pd :: pdd :: pddd :: higher => f0 :: f1 pd :: f2 pd pdd :: f3 pd pdd pddd :: map (fun _ => 0) higher
          end)
  end.

(* pulsar.py:117-120: for i_f, f in enumerate(frequency_derivatives): ph += 1/(i_f+1)! * t**(i_f+1) * f, at one time *)
Fixpoint add_terms (i_f : nat) (fs : list Q) (t ph : Q) : Q :=
  match fs with
  | [] => ph
  | f :: fs' =>
    add_terms (S i_f) fs' t (ph + 1 / inject_Z (Z.of_nat (fact (i_f + 1))) * t ^ Z.of_nat (i_f + 1) * f)
  end.
(* pulsar.py:91-125 pulse_phase, elementwise over times *)
Definition pulse_phase (times fs : list Q) (ph0 : Q) (to_1 : bool) : list Q :=
  map (fun t => let ph := add_terms 0 fs t ph0 in if to_1 then ph - inject_Z (Qfloor ph) else ph) times.

(* np.fmod(x, 1): the remainder has the sign of x *)
Definition fmod1 (x : Q) : Q := x - inject_Z (py_int x).
(* np.linspace(0, 1, nbin + 1) *)
Definition phase_edges (nbin : nat) : list Q := map (fun i => inject_Z (Z.of_nat i) / inject_Z (Z.of_nat nbin)) (seq 0 (nbin + 1)).

(* pulsar.py:189-206: exposure added to bin [p0, p1] by the limits [l0, l1] *)
Definition add_limit (l : Q * Q) (b : (Q * Q) * Q) : (Q * Q) * Q :=
  let '((p0, p1), e) := b in
  let '(l0, l1) := l in
  if (qle p0 l1 && qle l0 p1)%bool then ((p0, p1), e + (qmin p1 l1 - qmax p0 l0)) else b.
(* pulsar.py:160-206: the body of the loop over GTIs; bins are ((phs0, phs1), expo) *)
Definition add_gti (start_time stop_time period : Q) (nbin : nat) (bins : list ((Q * Q) * Q)) (g : Q * Q) : list ((Q * Q) * Q) :=
  let g0 := if qlt (fst g) start_time then start_time else fst g in
  let g1 := if qlt stop_time (snd g) then stop_time else snd g in
  let nraw := (g1 - g0) / period in
  let nper := py_int nraw in
  let bins := map (fun b => (fst b, snd b + inject_Z nper / inject_Z (Z.of_nat nbin))) bins in
  let start_phase := fmod1 (g0 / period) in
  let end_phase := nraw - inject_Z nper + start_phase in
  let limits := if qlt 1 end_phase then [(0, end_phase - 1); (start_phase, 1)] else [(start_phase, end_phase)] in
  fold_left (fun bins l => map (add_limit l) bins) limits bins.
(* pulsar.py:128-206: phase_exposure before the normalization; gti=None means [[start_time, stop_time]] *)
Definition phase_exposure_raw (start_time stop_time period : Q) (nbin : nat) (gti : option gtis) : list Q :=
  let gti := match gti with None => [(start_time, stop_time)] | Some g => g end in
  let phs := phase_edges nbin in
  let bins := map (fun b => (b, 0)) (combine (removelast phs) (tl phs)) in
  let good := filter (fun g => (qlt (fst g) stop_time && qlt start_time (snd g))%bool) gti in
  map snd (fold_left (add_gti start_time stop_time period nbin) good bins).
(* pulsar.py:209: expo / np.max(expo); a zero maximum (nan in numpy) is None *)
Definition phase_exposure (start_time stop_time period : Q) (nbin : nat) (gti : option gtis) : result (option (list Q)) :=
  let expo := phase_exposure_raw start_time stop_time period nbin gti in
  let! m := qmax_list expo in
  Ok (if qeq m 0 then None else Some (map (fun e => e / m) expo)).

(* np.histogram(a, bins=edges, weights=w): sum of the weights in each bin, the last bin closed *)
Fixpoint np_histogram_weights (edges : list Q) (l : list (Q * Q)) : list Q :=
  match edges with
  | a :: ((b :: rest) as edges') =>
    let inb := match rest with [] => fun p : Q * Q => (qle a (fst p) && qle (fst p) b)%bool | _ => fun p => (qle a (fst p) && qlt (fst p) b)%bool end in
    qsum (map snd (filter inb l)) :: np_histogram_weights edges' l
  | _ => []
  end.
(* bins[:-1] + np.diff(bins) / 2 *)
Definition bin_centres (edges : list Q) : list Q := map (fun p => fst p + (snd p - fst p) / 2) (combine (removelast edges) (tl edges)).

(* the weights argument: one value or one per time *)
Inductive weightarg := WScalar (w : Q) | WArray (l : list Q).
Definition weight_list (times : list Q) (w : weightarg) : list Q :=
  match w with WScalar w => map (fun _ => w) times | WArray l => l end.

(* pulsar.py:212-345 fold_events with mode "ef".  The result is the phases, the profile and the SQUARE of the profile errors
   (np.sqrt is not rational); a bin with zero exposure (inf or nan in numpy) is None.  np.histogram refuses weights of another
   length. *)
Definition fold_events (times fs : list Q) (nbin : nat) (weights : weightarg) (gti : option gtis) (ref_time : Q) (expocorr : bool)
  : result (list Q * list (option Q) * list (option Q)) :=
  let! t_first := get times 0 in
  let! t_last := get_last times in
  let gti := match gti with None => [(t_first, t_last)] | Some g => g end in
  let weights := weight_list times weights in
  let gti := map (fun g => (fst g - ref_time, snd g - ref_time)) gti in
  let times := map (fun t => t - ref_time) times in
  let! t1 := get times 1 in
  let! t0 := get times 0 in
  let! tl := get_last times in
  let dt := Qabs (t1 - t0) in
  let start_time := t0 in
  let stop_time := tl + dt in
  let phases := pulse_phase times fs 0 true in
  let gti_phases := map (fun g => (add_terms 0 fs (fst g) 0, add_terms 0 fs (snd g) 0)) gti in
  let start_phase := add_terms 0 fs start_time 0 in
  let stop_phase := add_terms 0 fs stop_time 0 in
  let bins := phase_edges nbin in
  if negb (Nat.eqb (length weights) (length phases)) then Err ValueError
  else
    let raw_profile := np_histogram_weights bins (combine phases weights) in
    let! expo_norm :=
      if expocorr then
        let! e := phase_exposure start_phase stop_phase 1 nbin (Some gti_phases) in
        Ok (match e with None => map (fun _ => None) raw_profile | Some l => map (fun x => if qeq x 0 then None else Some x) l end)
      else Ok (map (fun _ => Some 1) raw_profile) in
    let rows := combine raw_profile expo_norm in
    Ok (bin_centres bins,
        map (fun r => match snd r with None => None | Some e => Some (fst r / e) end) rows,
        map (fun r => match snd r with None => None | Some e => Some (fst r / (e * e)) end) rows).

(* np.var of an array; nan (None) when it is empty *)
Definition np_var (l : list Q) : option Q :=
  match l with
  | [] => None
  | _ => let n := inject_Z (Z.of_nat (length l)) in
         let m := qsum l / n in
         Some (qsum (map (fun x => (x - m) * (x - m)) l) / n)
  end.
(* scipy.stats.binned_statistic(phases, weights, np.var, bins): like np.histogram, with the values of each bin *)
Fixpoint binned_values (edges : list Q) (l : list (Q * Q)) : list (list Q) :=
  match edges with
  | a :: ((b :: rest) as edges') =>
    let inb := match rest with [] => fun p : Q * Q => (qle a (fst p) && qle (fst p) b)%bool | _ => fun p => (qle a (fst p) && qlt (fst p) b)%bool end in
    map snd (filter inb l) :: binned_values edges' l
  | _ => []
  end.
(* np.allclose(weights, 1.0): |w - 1| <= 1e-8 + 1e-5 *)
Definition allclose1 (l : list Q) : bool := forallb (fun w => qle (Qabs (w - 1)) ((1 # 100000000) + (1 # 100000))) l.
(* pulsar.py:316-336 fold_events with mode "pdm", given the phases: variance times the number of points in each bin *)
Definition fold_pdm (phases weights : list Q) (nbin : nat) : result (list (option Q)) :=
  if allclose1 weights then Err ValueError
  else if negb (Nat.eqb (length weights) (length phases)) then Err ValueError
  else Ok (map (fun vals => option_map (fun v => v * inject_Z (Z.of_nat (length vals))) (np_var vals)) (binned_values (phase_edges nbin) (combine phases weights))).
(* np.sum of an array that may contain nan *)
Fixpoint sum_opt (l : list (option Q)) : option Q :=
  match l with
  | [] => Some 0
  | x :: l' => match x, sum_opt l' with Some a, Some b => Some (a + b) | _, _ => None end
  end.
(* pulsar.py:373-396 pdm_profile_stat *)
Definition pdm_profile_stat (profile : list (option Q)) (sample_var : Q) (nsample : nat) : option Q :=
  option_map (fun s => s / (inject_Z (Z.of_nat nsample) - inject_Z (Z.of_nat (length profile))) / sample_var) (sum_opt profile).

(* search.py:22-27 _pulse_phase_fast (buffer_array is overwritten entirely) *)
Definition pulse_phase_fast (time : list Q) (f fdot : Q) : list Q :=
  map (fun t => let b := t * f + (1 # 2) * t ^ 2 * fdot in b - inject_Z (Qfloor b)) time.

(* search.py:73-88 _bincount_fast and _profile_fast *)
Definition profile_fast (phase : list Q) (nbin : nat) : result (list Z) :=
  let phase_bin := map (fun p => Qfloor (p * inject_Z (Z.of_nat nbin))) phase ++ [0; Z.of_nat nbin - 1]%Z in
  let! bc := bincount phase_bin 0 in
  let bc := map Z.of_nat bc in
  let bc := match bc with [] => [] | a :: r => (a - 1)%Z :: r end in
  Ok (match rev bc with [] => [] | a :: r => rev ((a - 1)%Z :: r) end).

(* search.py:30-47 _folding_search: the events used in each segment, before the statistic is computed.  segment_size None is
   np.inf; a zero length or segment size raises ZeroDivisionError in np.arange. *)
Definition folding_segments (times : list Q) (segment_size : option Q) : result (list (list Q)) :=
  let! t0 := get times 0 in
  let times := map (fun t => t - t0) times in
  let! length := get_last times in
  let segment_size := match segment_size with None => length | Some s => if qlt length s then length else s end in
  let! first := get times 0 in
  if qeq segment_size 0 then Err ZeroDivisionError
  else
    let start_times := arange first length segment_size in
    let all := map (fun s => filter (fun t => (qle s t && qlt t (s + segment_size))%bool) times) start_times in
    Ok (filter (fun ts => match ts with
                          | [] => false
                          | a :: _ => negb (qlt (last ts 0 - a) ((2 # 10) * segment_size))
                          end) all).
