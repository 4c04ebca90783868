(* M_search.v: model of the searches of stingray/pulse/search.py.  Times, frequencies and phases are exact rationals, statistics are
   exact reals, nan is None.  Plots are left out. *)
From Coq Require Import Reals Qreals.
From Verif Require Import Np Lib M_gti M_utils M_lc M_seg M_fold Cplx M_zn.
From Coq Require Import List Bool Arith.
Import ListNotations.
Open Scope Q_scope.

(* arithmetic with nan *)
Definition oadd (a b : option R) : option R := match a, b with Some x, Some y => Some (x + y)%R | _, _ => None end.
(* stats / count *)
Definition mean_of (count : nat) (x : option R) : option R := if Nat.eqb count 0 then None else option_map (fun v => (v / INR count)%R) x.
(* times[good] *)
Definition select {A} (good : list bool) (l : list A) : list A := map snd (filter fst (combine good l)).

(* what _folding_search returns: two flat arrays when there is one row of frequency derivatives, three grids otherwise *)
Inductive search_result := Flat (f : list Q) (s : list (option R)) | Grid (f fd : list (list Q)) (s : list (list (option R))).

(* search.py:34-48: times since the first one and the mask of each segment that is used *)
Definition search_masks (times : list Q) (segment_size : option Q) : result (list Q * list (list bool)) :=
  let! t0 := get times 0 in
  let times := map (fun t => t - t0) times in
  let! length := get_last times in
  let segment_size := match segment_size with None => length | Some s => if qlt length s then length else s end in
  let! first := get times 0 in
  if qeq segment_size 0 then Err ZeroDivisionError
  else
    let start_times := arange first length segment_size in
    let all := map (fun s => map (fun t => (qle s t && qlt t (s + segment_size))%bool) times) start_times in
    Ok (times, filter (fun good => match select good times with
                                   | [] => false
                                   | a :: _ => negb (qlt (last (select good times) 0 - a) ((2 # 10) * segment_size))
                                   end) all).
(* search.py:50-66: the loops over the grid, for one segment; cells are ((f, fd), stats[i, j]) *)
Definition add_segment (stat : Q -> Q -> result (option R)) (cells : list (list ((Q * Q) * option R))) : result (list (list ((Q * Q) * option R))) :=
  map_result (map_result (fun c => let! v := stat (fst (fst c)) (snd (fst c)) in Ok (fst c, oadd (snd c) v))) cells.
Fixpoint add_segments {A} (stat : A -> Q -> Q -> result (option R)) (segs : list A) (cells : list (list ((Q * Q) * option R))) : result (list (list ((Q * Q) * option R))) :=
  match segs with [] => Ok cells | s :: rest => let! cells := add_segment (stat s) cells in add_segments stat rest cells end.
(* search.py:30-71 _folding_search; stat receives the times since the first one and the mask of the segment *)
Definition folding_search (stat : list Q -> list bool -> Q -> Q -> result (option R)) (times frequencies : list Q) (segment_size : option Q) (fdots : list Q) : result search_result :=
  let cells := map (fun fd => map (fun f => ((f, fd), Some 0%R)) frequencies) fdots in
  let! m := search_masks times segment_size in
  let! cells := add_segments (stat (fst m)) (snd m) cells in
  let count := length (snd m) in
  match cells with
  | [row] => Ok (Flat (map (fun c => fst (fst c)) row) (map (fun c => mean_of count (snd c)) row))
  | _ => Ok (Grid (map (map (fun c => fst (fst c))) cells) (map (map (fun c => snd (fst c))) cells) (map (map (fun c => mean_of count (snd c))) cells))
  end.

(* statistics of a profile with nan: ef_profile_stat(profile), z_n(profile, n=nharm, datatype="binned") *)
Fixpoint all_some (l : list (option Q)) : option (list R) :=
  match l with [] => Some [] | Some a :: l' => option_map (cons (Q2R a)) (all_some l') | None :: _ => None end.
Inductive search_kind := EpochFolding | ZSearch (nharm : nat).
Definition profile_stat (k : search_kind) (profile : list R) : result R :=
  match k with EpochFolding => Ok (ef_profile_stat profile) | ZSearch nharm => z_n profile nharm Binned None end.
(* search.py:163-169, 331-337: the fast statistic *)
Definition fast_stat (k : search_kind) (nbin : nat) (times : list Q) (good : list bool) (f fd : Q) : result (option R) :=
  let! profile := profile_fast (pulse_phase_fast (select good times) f fd) nbin in
  let! v := profile_stat k (map IZR profile) in
  Ok (Some v).
(* search.py:55-62: keyword arguments as long as the times are masked (arrays) *)
Definition masked_weights (times : list Q) (good : list bool) (w : weightarg) : weightarg :=
  match w with WArray l => if Nat.eqb (length l) (length times) then WArray (select good l) else w | WScalar _ => w end.
Definition masked_gti (times : list Q) (good : list bool) (g : option gtis) : option gtis :=
  match g with Some l => if Nat.eqb (length l) (length times) then Some (select good l) else g | None => None end.
(* search.py:141-161, 313-329: the statistic of fold_events *)
Definition slow_stat (k : search_kind) (nbin : nat) (weights : weightarg) (gti : option gtis) (expocorr : bool) (times : list Q) (good : list bool) (f fd : Q) : result (option R) :=
  let! p := fold_events (select good times) [f; fd] nbin (masked_weights times good weights) (masked_gti times good gti) 0 expocorr in
  match all_some (snd (fst p)) with
  | None => Ok None
  | Some profile => let! v := profile_stat k profile in Ok (Some v)
  end.
(* search.py:91-169 epoch_folding_search and 248-337 z_n_search *)
Definition pulsation_search (numba : bool) (k : search_kind) (times frequencies : list Q) (nbin : nat) (segment_size : option Q) (expocorr : bool) (gti : option gtis) (weights : weightarg) (fdots : list Q)
  : result search_result :=
  if (expocorr || negb numba || match weights with WArray _ => true | WScalar _ => false end)%bool then
    if (expocorr && match gti with None => true | Some _ => false end)%bool then Err ValueError
    else folding_search (slow_stat k nbin weights gti expocorr) times frequencies segment_size fdots
  else folding_search (fast_stat k nbin) times frequencies segment_size fdots.

(* search.py:174-245 phase_dispersion_search: flux is an array; the exposure correction of fold_events with mode "pdm" (a product
   with the exposure) is not modelled, expocorr is False.  A sample of one point would divide by zero: nan. *)
Definition pdm_stat (nbin : nat) (flux : list Q) (times : list Q) (good : list bool) (f fd : Q) : result (option R) :=
  let ts := select good times in
  let weights := if Nat.eqb (length flux) (length times) then select good flux else flux in
  let! profile := fold_pdm (pulse_phase ts [f; fd] 0 true) weights nbin in
  let len_flux := length weights in
  match np_var weights with
  | None => Ok None
  | Some v => if Nat.eqb len_flux 1 then Ok None
              else let sigma := v * inject_Z (Z.of_nat len_flux) / inject_Z (Z.of_nat len_flux - 1) in
                   Ok (option_map Q2R (pdm_profile_stat profile sigma len_flux))
  end.
Definition phase_dispersion_search (times frequencies flux : list Q) (nbin : nat) (segment_size : option Q) (fdots : list Q) : result search_result :=
  folding_search (pdm_stat nbin flux) times frequencies segment_size fdots.

(* search.py:343-411 search_best_peaks; np.argmax gives the first position of the maximum *)
Fixpoint qargmax_from (best : nat) (bv : Q) (i : nat) (l : list Q) : nat :=
  match l with [] => best | a :: l' => if qlt bv a then qargmax_from i a (S i) l' else qargmax_from best bv (S i) l' end.
Definition qargmax (l : list Q) : result nat := match l with [] => Err ValueError | a :: l' => Ok (qargmax_from 0 a 1 l') end.
Definition peak_of (x stat : list Q) (r : nat * nat) : result (Q * Q) :=
  let stat_filt := slice stat (fst r) (snd r) in
  let x_filt := slice x (fst r) (snd r) in
  let! max_arg := qargmax stat_filt in
  let! s := get stat_filt max_arg in
  let! v := get x_filt max_arg in
  Ok (v, s).
(* argsort is np.argsort (not stable) *)
Definition search_best_peaks (argsort : list Q -> list nat) (x stat : list Q) (threshold : Q) : result (list Q * list Q) :=
  let! regions := contiguous_regions (map (fun s => qle threshold s) stat) in
  match regions with
  | [] => Ok ([], [])
  | _ =>
      let! best := map_result (peak_of x stat) regions in
      let order := rev (argsort (map snd best)) in
      let! bx := map_result (get (map fst best)) order in
      let! bs := map_result (get (map snd best)) order in
      Ok (bx, bs)
  end.

(* np.histogram2d with given edges: the last bins are closed *)
Fixpoint bin_tests (edges : list Q) : list (Q -> bool) :=
  match edges with
  | a :: ((b :: rest) as edges') =>
    (match rest with [] => fun v => (qle a v && qle v b)%bool | _ => fun v => (qle a v && qlt v b)%bool end) :: bin_tests edges'
  | _ => []
  end.
Definition histogram2d (xedges yedges : list Q) (pts : list ((Q * Q) * Q)) : list (list Q) :=
  map (fun bx => map (fun by_ => qsum (map snd (filter (fun p => (bx (fst (fst p)) && by_ (snd (fst p)))%bool) pts))) (bin_tests yedges)) (bin_tests xedges).
(* np.linspace(a, b, n + 1) *)
Definition linspace (a b : Q) (n : nat) : list Q := map (fun i => a + inject_Z (Z.of_nat i) * ((b - a) / inject_Z (Z.of_nat n))) (seq 0 (n + 1)).
Inductive phweights := PNone | PScalar (w : Q) | PArray (l : list Q).
(* search.py:500-625 phaseogram without plots; a scalar weight is refused by np.histogram2d *)
Definition phaseogram (times : list Q) (f fdot fddot : Q) (nph nt : nat) (ph0 : Q) (mjdref pepoch : option Q) (weights : phweights) : result (list (list Q) * list Q * list Q) :=
  let! first := get times 0 in
  let! last := get_last times in
  let pepoch := match pepoch with Some p => p | None => let m := (last + first) / 2 in match mjdref with Some _ => m / 86400 | None => m end end in
  let pepoch := match mjdref with Some r => (pepoch - r) * 86400 | None => pepoch end in
  let phases := pulse_phase (map (fun t => t - pepoch) times) [f; fdot; fddot] ph0 true in
  let allphases := phases ++ map (fun p => p + 1) phases in
  let allts := times ++ times in
  let! w := match weights with
            | PNone => Ok (map (fun _ => 1) allts)
            | PScalar _ => Err ValueError
            | PArray l => if Nat.eqb (length l) (length times) then Ok (l ++ l) else Err ValueError
            end in
  let allts := match mjdref with Some r => map (fun t => t / 86400 + r) allts | None => allts end in
  let! lo := qmin_list allts in
  let! hi := qmax_list allts in
  let xe := linspace 0 2 (nph * 2) in
  let ye := linspace lo hi nt in
  Ok (histogram2d xe ye (combine (combine allphases allts) w), xe, ye).
