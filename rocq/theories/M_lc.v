(* M_lc.v: model of stingray/lightcurve.py and stingray/events.py: light curves from photon lists and back, cached
   properties, joining.  Times and counts are exact rationals. *)
From Verif Require Import Np Lib S_gti M_gti M_seg M_utils.
Open Scope Q_scope.

(* ---------- from photons to light curves ---------- *)
(* np.histogram(a, bins=edges) with increasing edges: bin i counts e_i <= v < e_{i+1}, the last one e_i <= v <= e_{i+1}. *)
Fixpoint np_histogram_edges (edges l : list Q) : list nat :=
  match edges with
  | a :: ((b :: rest) as edges') =>
    let inb := match rest with [] => fun v => (qle a v && qle v b)%bool | _ => fun v => (qle a v && qlt v b)%bool end in
    length (filter inb l) :: np_histogram_edges edges' l
  | _ => []
  end.
(* np.bincount(l, minlength=n): negative entries or a negative minlength raise ValueError. *)
Definition bincount (l : list Z) (minlength : Z) : result (list nat) :=
  if (minlength <? 0)%Z || existsb (fun z => z <? 0)%Z l then Err ValueError
  else
    let n := fold_left Z.max (map (fun z => z + 1)%Z l) minlength in
    Ok (map (fun i => length (filter (fun z => z =? Z.of_nat i)%Z l)) (seq 0 (Z.to_nat n))).

(* What make_lightcurve hands to the Lightcurve constructor.  stingray/lightcurve.py:255-256: with an empty time array
   the constructor returns before setting the GTIs. *)
Record lightcurve := mkLC { lc_time : list Q; lc_counts : list Q; lc_gti : option gtis; lc_dt : Q }.
Definition new_lightcurve (time counts : list Q) (gti : option gtis) (dt : Q) : lightcurve :=
  mkLC time counts (match time with [] => None | _ => gti end) dt.

(* stingray/lightcurve.py:817-904 make_lightcurve; interpret_times (astropy times) is the identity on numbers;
   np.min(gti), np.max(gti) over all edges; `//` is floor division; dt > 0. *)
Definition make_lightcurve (toa : list Q) (dt : Q) (tseg tstart : option Q) (gti : option gtis) (use_hist : bool)
  : result lightcurve :=
  let toa := np_sort toa in
  let! tstart := match tstart with
                 | Some t => Ok t
                 | None => let! t0 := get toa 0 in
                           match gti with Some g => qmin_list (flatten g) | None => Ok t0 end
                 end in
  let! tseg := match tseg with
               | Some t => Ok t
               | None => let! tl := get_last toa in
                         match gti with
                         | Some g => let! m := qmax_list (flatten g) in Ok (m - tstart)
                         | None => Ok (tl - tstart) end
               end in
  let timebin := py_int (tseg / dt) in
  let timebin := if qle (99 # 100) (tseg / dt - inject_Z timebin) then (timebin + 1)%Z else timebin in
  let tend := tstart + inject_Z timebin * dt in
  let good := filter (fun t => qle tstart t && qlt t tend)%bool toa in
  if use_hist then
    let histbins := arange tstart (tend + dt) dt in
    let counts := np_histogram_edges histbins good in
    Ok (new_lightcurve (map (fun t => t + (1 # 2) * dt) (removelast histbins)) (map (fun c => inject_Z (Z.of_nat c)) counts) gti dt)
  else
    let! counts := bincount (map (fun t => Qfloor ((t - tstart) / dt)) good) timebin in
    let time := map (fun a => tstart + a * dt) (arange (1 # 2) ((1 # 2) + inject_Z (Z.of_nat (length counts))) 1) in
    Ok (new_lightcurve time (map (fun c => inject_Z (Z.of_nat c)) counts) gti dt).

(* x[i:j] = v (one value broadcast), 0 <= i, j. *)
Definition fill_slice (l : list Q) (i j : nat) (v : Q) : list Q :=
  firstn i l ++ repeat v (length (slice l i j)) ++ skipn (Nat.max i j) l.
(* stingray/events.py:28-52 _from_lc_numba; [val] is unbound before the first positive count (run as Python). *)
Fixpoint from_lc_loop (tc : list (Q * Z)) (last : nat) (val : option nat) (buf : list Q) : list Q * option nat :=
  match tc with
  | [] => (buf, val)
  | (t, c) :: tc' =>
    if (c <=? 0)%Z then from_lc_loop tc' last val buf
    else let v := (Z.to_nat c + last)%nat in from_lc_loop tc' v (Some v) (fill_slice buf last v t)
  end.
(* stingray/events.py:55-80 simple_events_from_lc (also EventList.from_lc, 399-417). *)
Definition from_lc (lc : lightcurve) : result (list Q) :=
  let counts := map py_int (lc_counts lc) in
  let all := int_sum_non_zero (map inject_Z counts) in
  let r := from_lc_loop (combine (lc_time lc) counts) 0 None (repeat 0 (Z.to_nat all)) in
  match snd r with
  | None => Err UnboundLocalError
  | Some v => Ok (firstn v (fst r))
  end.

(* stingray/events.py:676-701 suggest_compatible_dt; np.isclose(own, dt, rtol=1e-4) with its default atol=1e-8:
   |own - dt| <= atol + rtol*|dt|. *)
Definition np_isclose (rtol atol a b : Q) : bool := qle (Qabs (a - b)) (atol + rtol * Qabs b).
Definition suggest_compatible_dt (own dt : Q) : Q :=
  if qlt 0 own && negb (np_isclose (1 # 10000) (1 # 100000000) own dt)
  then own * inject_Z (Z.max (rint (dt / own)) 1) else dt.
(* stingray/events.py:267-291 to_lc *)
Definition to_lc (events : list Q) (own : Q) (gti : option gtis) (dt : Q) (tstart tseg : option Q) : result lightcurve :=
  make_lightcurve events (suggest_compatible_dt own dt) tseg tstart gti false.
(* stingray/events.py:657-674 get_energy_mask *)
Definition get_energy_mask (energies : list Q) (r : Q * Q) : list bool :=
  map (fun e => qle (fst r) e && qlt e (snd r))%bool energies.
(* stingray/events.py:293-340 to_binned_timeseries: counts and, for each attribute, the weighted histogram ([numba]
   backend of utils.histogram).  Returns times, counts and the binned attributes. *)
Definition to_binned_timeseries (events : list Q) (attrs : list (list Q)) (gti : gtis) (dt : Q)
  : result (list Q * list Q * list (list Q)) :=
  let! first := get gti 0 in
  let! lst := get_last gti in
  let lo := fst first in
  let nbins := Z.to_nat (py_int ((snd lst - lo) / dt)) in
  let r := (lo, lo + inject_Z (Z.of_nat nbins) * dt) in
  Ok (arange (lo + dt * (1 # 2)) (snd r) dt, hist1d events nbins r,
      map (fun w => hist1d_weight (fun v => v) events w nbins r) attrs).

(* ---------- cached properties (stingray/lightcurve.py:358-484) ---------- *)
(* dt is a number; the mask is the one implied by the GTIs; [perr] is poisson_symmetrical_errors;
   [st_poisson] tells err_dist == "poisson". *)
Record lcstate := mkSt {
  st_time : list Q; st_dt : Q; st_mask : list bool; st_low_memory : bool; st_poisson : bool; st_input_counts : bool;
  st_counts : option (list Q); st_counts_err : option (list Q); st_rate : option (list Q); st_rate_err : option (list Q);
  st_meanrate : option Q; st_meancounts : option Q; st_bin_lo : option (list Q); st_bin_hi : option (list Q) }.

Definition set_counts_cache s v := mkSt (st_time s) (st_dt s) (st_mask s) (st_low_memory s) (st_poisson s) (st_input_counts s)
  v (st_counts_err s) (st_rate s) (st_rate_err s) (st_meanrate s) (st_meancounts s) (st_bin_lo s) (st_bin_hi s).
Definition set_counts_err_cache s v := mkSt (st_time s) (st_dt s) (st_mask s) (st_low_memory s) (st_poisson s) (st_input_counts s)
  (st_counts s) v (st_rate s) (st_rate_err s) (st_meanrate s) (st_meancounts s) (st_bin_lo s) (st_bin_hi s).
Definition set_rate_cache s v := mkSt (st_time s) (st_dt s) (st_mask s) (st_low_memory s) (st_poisson s) (st_input_counts s)
  (st_counts s) (st_counts_err s) v (st_rate_err s) (st_meanrate s) (st_meancounts s) (st_bin_lo s) (st_bin_hi s).
Definition set_rate_err_cache s v := mkSt (st_time s) (st_dt s) (st_mask s) (st_low_memory s) (st_poisson s) (st_input_counts s)
  (st_counts s) (st_counts_err s) (st_rate s) v (st_meanrate s) (st_meancounts s) (st_bin_lo s) (st_bin_hi s).
Definition set_means s mr mc := mkSt (st_time s) (st_dt s) (st_mask s) (st_low_memory s) (st_poisson s) (st_input_counts s)
  (st_counts s) (st_counts_err s) (st_rate s) (st_rate_err s) mr mc (st_bin_lo s) (st_bin_hi s).
Definition set_bins s lo hi := mkSt (st_time s) (st_dt s) (st_mask s) (st_low_memory s) (st_poisson s) (st_input_counts s)
  (st_counts s) (st_counts_err s) (st_rate s) (st_rate_err s) (st_meanrate s) (st_meancounts s) lo hi.
Definition set_input s b := mkSt (st_time s) (st_dt s) (st_mask s) (st_low_memory s) (st_poisson s) b
  (st_counts s) (st_counts_err s) (st_rate s) (st_rate_err s) (st_meanrate s) (st_meancounts s) (st_bin_lo s) (st_bin_hi s).
Definition set_time_mask s t m := mkSt t (st_dt s) m (st_low_memory s) (st_poisson s) (st_input_counts s)
  (st_counts s) (st_counts_err s) (st_rate s) (st_rate_err s) (st_meanrate s) (st_meancounts s) (st_bin_lo s) (st_bin_hi s).

(* 384-393 counts getter; None when neither array is set. *)
Definition get_counts (s : lcstate) : lcstate * option (list Q) :=
  match st_counts s, st_rate s with
  | None, Some r =>
    let c := map (fun v => v * st_dt s) r in
    ((if (negb (st_low_memory s) || st_input_counts s)%bool then set_counts_cache s (Some c) else s), Some c)
  | c, _ => (s, c)
  end.
(* 430-439 countrate getter *)
Definition get_countrate (s : lcstate) : lcstate * option (list Q) :=
  match st_rate s, st_counts s with
  | None, Some c =>
    let r := map (fun v => v / st_dt s) c in
    ((if (negb (st_low_memory s) || negb (st_input_counts s))%bool then set_rate_cache s (Some r) else s), Some r)
  | r, _ => (s, r)
  end.
(* 404-421 counts_err getter.  (self.counts is None only for an empty light curve: poisson_symmetrical_errors(None) and
   np.zeros_like(None) are not modelled, TypeError here.) *)
Definition get_counts_err (perr : list Q -> list Q) (s : lcstate) : lcstate * result (list Q) :=
  match st_counts_err s with
  | Some e => (s, Ok e)
  | None =>
    let r := match st_rate_err s with
             | Some e => (s, Ok (map (fun v => v * st_dt s) e))
             | None => let g := get_counts s in
                       (fst g, match snd g with
                               | Some c => Ok (if st_poisson s then perr c else map (fun _ => 0) c)
                               | None => Err TypeError end)
             end in
    match snd r with
    | Ok e => ((if (negb (st_low_memory s) || st_input_counts s)%bool then set_counts_err_cache (fst r) (Some e) else fst r), Ok e)
    | Err x => (fst r, Err x)
    end
  end.
(* 451-465 countrate_err getter *)
Definition get_countrate_err (s : lcstate) : lcstate * list Q :=
  match st_rate_err s with
  | Some e => (s, e)
  | None =>
    let e := match st_counts_err s with
             | Some e => map (fun v => v / st_dt s) e
             | None => map (fun _ => 0) (st_time s) end in
    ((if (negb (st_low_memory s) || negb (st_input_counts s))%bool then set_rate_err_cache s (Some e) else s), e)
  end.
(* 372-382 meanrate, meancounts: np.mean(x[mask]) (the mean of an empty selection, nan with a warning, is 0 here). *)
Definition get_meanrate (s : lcstate) : lcstate * result Q :=
  match st_meanrate s with
  | Some m => (s, Ok m)
  | None => let g := get_countrate s in
            match snd g with
            | Some r => let m := mean (select r (st_mask s)) in (set_means (fst g) (Some m) (st_meancounts (fst g)), Ok m)
            | None => (fst g, Err TypeError) end
  end.
Definition get_meancounts (s : lcstate) : lcstate * result Q :=
  match st_meancounts s with
  | Some m => (s, Ok m)
  | None => let g := get_counts s in
            match snd g with
            | Some c => let m := mean (select c (st_mask s)) in (set_means (fst g) (st_meanrate (fst g)) (Some m), Ok m)
            | None => (fst g, Err TypeError) end
  end.
(* 474-484 bin_lo, bin_hi *)
Definition get_bin_lo (s : lcstate) : lcstate * list Q :=
  match st_bin_lo s with
  | Some b => (s, b)
  | None => let b := map (fun t => t - (1 # 2) * st_dt s) (st_time s) in (set_bins s (Some b) (st_bin_hi s), b)
  end.
Definition get_bin_hi (s : lcstate) : lcstate * list Q :=
  match st_bin_hi s with
  | Some b => (s, b)
  | None => let b := map (fun t => t + (1 # 2) * st_dt s) (st_time s) in (set_bins s (st_bin_lo s) (Some b), b)
  end.

(* Setters: new state and outcome.  _validate_and_format (stingray/base.py:1295-1340): the new array must have the length
   of the array it is compared with, otherwise ValueError.  The comparison calls the getter of that array (which may fill
   its cache). *)
Definition same_length (v w : list Q) : bool := Nat.eqb (length v) (length w).
(* 395-402 counts setter: forgets _countrate, _meancounts and _meancountrate (an attribute nobody reads). *)
Definition set_counts (v : list Q) (s : lcstate) : lcstate * result unit :=
  if same_length v (st_time s)
  then (set_input (set_means (set_rate_cache (set_counts_cache s (Some v)) None) (st_meanrate s) None) true, Ok tt)
  else (s, Err ValueError).
(* 441-449 countrate setter *)
Definition set_countrate (v : list Q) (s : lcstate) : lcstate * result unit :=
  if same_length v (st_time s)
  then (set_input (set_means (set_counts_cache (set_rate_cache s (Some v)) None) (st_meanrate s) None) false, Ok tt)
  else (s, Err ValueError).
(* 423-428 counts_err setter, compared with self.counts *)
Definition set_counts_err (v : list Q) (s : lcstate) : lcstate * result unit :=
  let g := get_counts s in
  match snd g with
  | Some c => if same_length v c then (set_rate_err_cache (set_counts_err_cache (fst g) (Some v)) None, Ok tt)
              else (fst g, Err ValueError)
  | None => (fst g, Err ValueError)
  end.
(* 467-472 countrate_err setter, compared with self.countrate *)
Definition set_countrate_err (v : list Q) (s : lcstate) : lcstate * result unit :=
  let g := get_countrate s in
  match snd g with
  | Some c => if same_length v c then (set_counts_err_cache (set_rate_err_cache (fst g) (Some v)) None, Ok tt)
              else (fst g, Err ValueError)
  | None => (fst g, Err ValueError)
  end.
(* 362-370 time setter: only bin_lo and bin_hi are forgotten (the GTI mask is not recomputed). *)
Definition set_time (v : list Q) (s : lcstate) : lcstate * result unit :=
  if same_length v (st_time s) then (set_bins (set_time_mask s v (st_mask s)) None None, Ok tt) else (s, Err ValueError).
(* stingray/base.py:1254-1261 gti setter: only the mask is forgotten; [m] is the mask of the new GTIs. *)
Definition set_gti_mask (m : list bool) (s : lcstate) : lcstate := set_time_mask s (st_time s) m.

(* A freshly built light curve (211-356). *)
Definition fresh (time : list Q) (dt : Q) (mask : list bool) (low_memory poisson input_counts : bool) (values : list Q)
  (err : option (list Q)) : lcstate :=
  if input_counts then mkSt time dt mask low_memory poisson true (Some values) err None None None None None None
  else mkSt time dt mask low_memory poisson false None None (Some values) err None None None None.

(* Histories of reads and writes. *)
Inductive op :=
| RdCounts | RdRate | RdCountsErr | RdRateErr | RdMeanRate | RdMeanCounts | RdBinLo | RdBinHi
| WrCounts (v : list Q) | WrRate (v : list Q) | WrCountsErr (v : list Q) | WrRateErr (v : list Q) | WrTime (v : list Q)
| WrGti (m : list bool).
(* A failed assignment raises; the history goes on after it. *)
Definition step (perr : list Q -> list Q) (o : op) (s : lcstate) : lcstate :=
  match o with
  | RdCounts => fst (get_counts s) | RdRate => fst (get_countrate s)
  | RdCountsErr => fst (get_counts_err perr s) | RdRateErr => fst (get_countrate_err s)
  | RdMeanRate => fst (get_meanrate s) | RdMeanCounts => fst (get_meancounts s)
  | RdBinLo => fst (get_bin_lo s) | RdBinHi => fst (get_bin_hi s)
  | WrCounts v => fst (set_counts v s) | WrRate v => fst (set_countrate v s)
  | WrCountsErr v => fst (set_counts_err v s) | WrRateErr v => fst (set_countrate_err v s)
  | WrTime v => fst (set_time v s) | WrGti m => set_gti_mask m s
  end.
Definition run (perr : list Q -> list Q) (h : list op) (s : lcstate) : lcstate := fold_left (fun s o => step perr o s) h s.

(* ---------- joining two light curves ---------- *)
(* stingray/lightcurve.py:1063-1088: dictionary of (counts, squared errors) keyed by time, in insertion order; float keys
   are equal when the numbers are. *)
Fixpoint dict_set (d : list (Q * (Q * Q))) (k : Q) (v : Q * Q) : list (Q * (Q * Q)) :=
  match d with
  | [] => [(k, v)]
  | (k', v') :: d' => if qeq k' k then (k', v) :: d' else (k', v') :: dict_set d' k v
  end.
Fixpoint dict_get (d : list (Q * (Q * Q))) (k : Q) : option (Q * Q) :=
  match d with [] => None | (k', v) :: d' => if qeq k' k then Some v else dict_get d' k end.
(* One light curve: (time, (counts, squared error)) samples.  [first] starts earlier (1031-1036).  Same err_dist assumed
   (otherwise the errors are zero); 1038: np.intersect1d non-empty. *)
Definition lc_join_samples (first second : list (Q * (Q * Q))) : list (Q * (Q * Q)) :=
  if existsb (fun s => existsb (fun s' => qeq (fst s) (fst s')) second) first then
    let d := fold_left (fun d s => dict_set d (fst s) (snd s)) first [] in
    fold_left (fun d s => match dict_get d (fst s) with
                          | Some (c, e) => dict_set d (fst s) ((c + fst (snd s)) / 2, (e + snd (snd s)) / 2)
                          | None => dict_set d (fst s) (snd s) end) second d
  else first ++ second.
(* 985-1110 join with equal mjdref and dt; [start_a], [start_b] are the tstart attributes.  The new light curve may sort
   the samples by time; they are returned in the order of construction. *)
Definition lc_join (s_start : gtis -> gtis) (s_edge : list edge -> list edge)
  (a b : list (Q * (Q * Q))) (start_a start_b : Q) (ga gb : gtis) : result (list (Q * (Q * Q)) * gtis) :=
  let samples := if qlt start_a start_b then lc_join_samples a b else lc_join_samples b a in
  let! g := join_gtis s_start s_edge ga gb in
  Ok (samples, g).
