(* M_flux.v: model of the functions of stingray/fourier.py that go from event lists and light curves to averaged
   spectra.  Times and fluxes are exact rationals; they become real numbers where the Fourier transforms start. *)
From Coq Require Import Reals Qreals.
From Verif Require Import Np M_gti M_seg M_utils Cplx M_fourier.
Open Scope Q_scope.

Notation segment_indices := (list (Q * Q * (nat * nat))).
(* gti.py:1573-1646 generate_indices_of_segment_boundaries_unbinned with check_sorted=False (fourier.py:1214-1218).  On
   unsorted times numpy's binary search is not modelled. *)
Definition segments_unbinned (times : list Q) (g : gtis) (seg : Q) : result segment_indices :=
  let! ss := time_intervals_from_gtis g seg 1 (1 # 100000) in
  Ok (map (fun p : Q * Q => (p, (searchsorted_left times (fst p), searchsorted_left times (snd p)))) (combine (fst ss) (snd ss))).

(* fourier.py:1230-1280 get_average_ctrate; for binned data dt is the median time step (gti.py:1342-1343; nan for less than
   two times is left out: ValueError here) *)
Definition get_average_ctrate (times : list Q) (g : gtis) (seg : Q) (counts : option (list Q)) : result Q :=
  let! l := match counts with
            | None => segments_unbinned times g seg
            | Some _ => match median (diffs times) with
                        | Some dt => generate_indices_of_segment_boundaries_binned times g seg dt
                        | None => Err ValueError
                        end
            end in
  let n_ph := fold_left (fun acc s => acc + match counts with
                                            | None => inject_Z (Z.of_nat (snd (snd s)) - Z.of_nat (fst (snd s)))
                                            | Some c => qsum (slice c (fst (snd s)) (snd (snd s)))
                                            end) l 0 in
  Ok (n_ph / (inject_Z (Z.of_nat (length l)) * seg)).

(* what get_flux_iterable_from_segments yields *)
Notation flux_item := (option (list Q * option (list Q))).
(* fourier.py:1283-1367 get_flux_iterable_from_segments, dt given for binned data; the generator is the list of the things
   it yields.  numba selects the histogram function (utils.py:2254-2278).  With segment_size=None the GTI array is not
   empty (gti[-1, 1]: IndexError). *)
Definition get_flux_iterable (numba : bool) (times : list Q) (g : gtis) (segment_size : option Q) (n_bin : option nat) (dt : Q)
  (fluxes errors : option (list Q)) : result (list flux_item) :=
  match fluxes, n_bin with
  | None, None => Err ValueError
  | _, _ =>
    let! sl := match segment_size with
               | None => let! g0 := get g 0 in
                         let! g1 := get_last g in
                         Ok (snd g1 - fst g0, [(fst g0, snd g1, (0%nat, length times))])
               | Some seg => let! l := match fluxes with
                                       | None => segments_unbinned times g seg
                                       | Some _ => generate_indices_of_segment_boundaries_binned times g seg dt
                                       end in
                             Ok (seg, l)
               end in
    Ok (map (fun s : Q * Q * (nat * nat) =>
               let '(start, _, (idx0, idx1)) := s in
               if (Z.of_nat idx1 - Z.of_nat idx0 <? 2)%Z then None
               else match fluxes with
                    | None => Some (histogram numba (map (fun t => t - start) (slice times idx0 idx1))
                                              (match n_bin with Some n => n | None => 0%nat end) (0, fst sl), None)
                    | Some f => Some (slice f idx0 idx1, option_map (fun e => slice e idx0 idx1) errors)
                    end) (snd sl))
  end.

(* an element of the flux iterable, as real numbers *)
Definition real_item (f : flux_item) : option seg :=
  option_map (fun fe => {| s_flux := map Q2R (fst fe); s_err := option_map (map Q2R) (snd fe) |}) f.

(* fourier.py:2337-2343, 2450-2457: segment size and number of bins *)
Definition segment_and_bins (g : gtis) (segment_size : option Q) (dt : Q) (fluxes : option (list Q)) : result (option Q * nat) :=
  match segment_size, fluxes with
  | Some seg, _ => let sn := fix_segment_size seg dt (1 # 100) in Ok (Some (fst sn), Z.to_nat (snd sn))
  | None, Some f => Ok (None, length f)
  | None, None => let! hi := qmax_list (flatten g) in
                  let! lo := qmin_list (flatten g) in
                  Ok (None, Z.to_nat (snd (fix_segment_size (hi - lo) dt (1 # 100))))
  end.
(* fourier.py:2271-2358 avg_pds_from_timeseries *)
Definition avg_pds_from_timeseries (numba : bool) (times : list Q) (g : gtis) (segment_size : option Q) (dt : Q) (norm : normt)
  (use_common_mean : bool) (fluxes errors : option (list Q)) (return_subcs : bool) : result (option pds_table) :=
  let! sn := segment_and_bins g segment_size dt fluxes in
  let! it := get_flux_iterable numba times g (fst sn) (Some (snd sn)) dt fluxes errors in
  avg_pds (map real_item it) (Q2R dt) norm use_common_mean return_subcs.
(* fourier.py:2368-2495 avg_cs_from_timeseries *)
Definition avg_cs_from_timeseries (numba : bool) (times1 times2 : list Q) (g : gtis) (segment_size : option Q) (dt : Q) (norm : normt)
  (use_common_mean fullspec silent : bool) (power_type : ptype) (fluxes1 fluxes2 errors1 errors2 : option (list Q))
  (return_auxil return_subcs : bool) : result (option cs_table) :=
  let binned := match fluxes1, fluxes2 with Some _, Some _ => true | _, _ => false end in
  let! sn := segment_and_bins g segment_size dt (if binned then fluxes1 else None) in
  let! it1 := get_flux_iterable numba times1 g (fst sn) (Some (snd sn)) dt fluxes1 errors1 in
  let! it2 := get_flux_iterable numba times2 g (fst sn) (Some (snd sn)) dt fluxes2 errors2 in
  let is_events := match fluxes1, fluxes2, errors1, errors2 with None, None, None, None => true | _, _, _, _ => false end in
  if (is_events && silent && use_common_mean && match power_type with PAll => true | _ => false end && negb fullspec
      && negb return_auxil && negb return_subcs)%bool
  then avg_cs_quick (map real_item it1) (map real_item it2) (Q2R dt) norm
  else avg_cs (map real_item it1) (map real_item it2) (Q2R dt) norm use_common_mean fullspec power_type return_auxil return_subcs.
