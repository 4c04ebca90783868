(* M_fad.v: model of stingray/deadtime/fad.py.  Numbers are exact reals; a division by 0 is Coq's (theorems exclude it).  Plots and
   messages are left out. *)
From Coq Require Import Reals Qreals.
From Verif Require Import Np M_gti M_utils Cplx M_fourier M_flux.
From Coq Require Import Reals List Bool Arith.
Import ListNotations.
Open Scope R_scope.

(* product and quotient of arrays that have the same length here *)
Definition divl (x y : list R) : list R := map (fun p => fst p / snd p) (combine x y).
Definition cdivl (x : list cx) (y : list R) : list cx := map (fun p => cscal (fst p) (/ snd p)) (combine x y).

(* one element of the flux generator: None, or the fluxes and (light curves that are not Poisson) their errors *)
Record fad_sums := mkSums {
  f_pds1 : list R; f_pds2 : list R; f_ptot : list R; f_cs : list cx;
  f_pds1u : list R; f_pds2u : list R; f_ptotu : list R; f_csu : list cx;
  f_diff : list cx; f_diffu : list cx }.
(* fad.py:134-147 and the loop variables *)
Record fad_state := mkFad { d_len : option R; d_grid : option ((nat * nat) * list R); d_sums : option fad_sums; d_m : nat; d_nph1 : R; d_nph2 : R; d_nph : R }.

Definition add_sums (a : option fad_sums) (b : fad_sums) : result fad_sums :=
  match a with
  | None => Ok b
  | Some a =>
      let! pds1u := vmap2 Rplus (f_pds1u a) (f_pds1u b) in
      let! pds2u := vmap2 Rplus (f_pds2u a) (f_pds2u b) in
      let! ptotu := vmap2 Rplus (f_ptotu a) (f_ptotu b) in
      let! csu := vmap2 cadd (f_csu a) (f_csu b) in
      let! ptot := vmap2 Rplus (f_ptot a) (f_ptot b) in
      let! pds1 := vmap2 Rplus (f_pds1 a) (f_pds1 b) in
      let! pds2 := vmap2 Rplus (f_pds2 a) (f_pds2 b) in
      let! cs := vmap2 cadd (f_cs a) (f_cs b) in
      let! diff := vmap2 cadd (f_diff a) (f_diff b) in
      let! diffu := vmap2 cadd (f_diffu a) (f_diffu b) in
      Ok (mkSums pds1 pds2 ptot cs pds1u pds2u ptotu csu diff diffu)
  end.

(* fad.py:154-216, one turn of the loop.  gaussian is gaussian_filter1d(array, sigma) *)
Definition fad_step (gaussian : list R -> R -> list R) (gauss_alg : bool) (dt : R) (norm : normt) (st : fad_state)
    (fluxes : option seg * option seg) : result fad_state :=
  match fluxes with
  | (Some s1, Some s2) =>
      match s_err s1, s_err s2 with
      | None, None =>
        let flux1 := s_flux s1 in let flux2 := s_flux s2 in
        let n := List.length flux1 in
        let segment_size := INR n * dt in
        let len := match d_len st with Some l => l | None => segment_size * 3 end in
        let grid := match d_grid st with Some g => g | None => (positive_fft_bins n false, cut (fftfreq n dt) (positive_fft_bins n false)) end in
        let fgt0 := fst grid in
        let nph1 := rlsum flux1 in
        let nph2 := rlsum flux2 in
        let nphtot := nph1 + nph2 in
        let f1 := cut (fft (map rtoc flux1)) fgt0 in
        let f2 := cut (fft (map rtoc flux2)) fgt0 in
        let! total := vmap2 Rplus flux1 flux2 in
        let ftot := cut (fft (map rtoc total)) fgt0 in
        let! fourier_diff := vmap2 csub (cmulr f1 (sqrt (2 / nph1))) (cmulr f2 (sqrt (2 / nph2))) in
        if negb gauss_alg then Err ValueError
        else
          let smooth_real := gaussian (map (fun z => re z * re z) fourier_diff) len in
          let p1 := rmul (divl (map (fun z => re (cmul z (cconj z))) f1) smooth_real) 2 in
          let p2 := rmul (divl (map (fun z => re (cmul z (cconj z))) f2) smooth_real) 2 in
          let pt := rmul (divl (map (fun z => re (cmul z (cconj z))) ftot) smooth_real) 2 in
          let! c := vmap2 cmul f2 (map cconj f1) in
          let c := cmulr (cdivl c smooth_real) 2 in
          let nphgeom := sqrt (nph1 * nph2) in
          let! power1 := normalize rmul p1 dt n (Some (nph1 / INR n)) (Some nph1) None 0 norm in
          let! power2 := normalize rmul p2 dt n (Some (nph2 / INR n)) (Some nph2) None 0 norm in
          let! power_tot := normalize rmul pt dt n (Some (nphtot / INR n)) (Some nphtot) None 0 norm in
          let! cs_power := normalize cmulr c dt n (Some (nphgeom / INR n)) (Some nphgeom) None 0 norm in
          let diff := cmulr (cdivl fourier_diff (map sqrt smooth_real)) (sqrt 2) in
          let! sums := add_sums (d_sums st) (mkSums power1 power2 power_tot cs_power p1 p2 pt c diff fourier_diff) in
          Ok (mkFad (Some len) (Some grid) (Some sums) (S (d_m st)) (d_nph1 st + nph1) (d_nph2 st + nph2) (d_nph st + nphtot))
      | _, _ => Err AttributeError
      end
  | _ => Ok st
  end.

(* np.std of a complex array *)
Definition cmean (l : list cx) : cx := cscal (clsum l) (/ INR (List.length l)).
Definition cstd (l : list cx) : R := sqrt (rlsum (map (fun z => cnorm2 (csub z (cmean l))) l) / INR (List.length l)).

Record fad_table := mkTable {
  t_freq : list R; t_pds1 : list R; t_pds2 : list R; t_cs : list cx; t_ptot : list R;
  t_pds1u : list R; t_pds2u : list R; t_csu : list cx; t_ptotu : list R; t_fad : list cx;
  t_delta : R; t_compliant : bool; t_m : nat; t_dt : R; t_nph1 : R; t_nph2 : R; t_nph : R; t_norm : normt; t_len : option R; t_df : R }.
Definition rmul_inv (l : list R) (m : R) : list R := map (fun x => x / m) l.
Definition cmul_inv (l : list cx) (m : R) : list cx := map (fun z => cscal z (/ m)) l.
(* np.mean(np.diff(freq)) *)
Definition rdiffs (l : list R) : list R := map (fun p => snd p - fst p) (combine l (tl l)).
Definition mean_step (l : list R) : R := rlsum (rdiffs l) / INR (List.length (rdiffs l)).

(* fad.py:122-288 FAD, from the fluxes of the segments; with no segment at all (average_diff / M) is 0 / 0 *)
Definition fad (gaussian : list R -> R -> list R) (gauss_alg : bool) (len : option R) (tolerance : R) (strict : bool) (dt : R) (norm : normt)
    (segs1 segs2 : list (option seg)) : result fad_table :=
  let! st := loop (fad_step gaussian gauss_alg dt norm) (mkFad len None None 0 0 0 0) (combine segs1 segs2) in
  match d_sums st, d_grid st with
  | Some s, Some g =>
      let m := INR (d_m st) in
      let std := cstd (cmul_inv (f_diff s) m) in
      let stdtheor := 2 / sqrt m in
      let compliant := if Rlt_dec (Rabs ((std - stdtheor) / stdtheor)) tolerance then true else false in
      if (strict && negb compliant)%bool then Err RuntimeError
      else Ok (mkTable (snd g) (rmul_inv (f_pds1 s) m) (rmul_inv (f_pds2 s) m) (cmul_inv (f_cs s) m) (rmul_inv (f_ptot s) m)
                 (rmul_inv (f_pds1u s) m) (rmul_inv (f_pds2u s) m) (cmul_inv (f_csu s) m) (rmul_inv (f_ptotu s) m) (cmul_inv (f_diff s) m)
                 ((std - stdtheor) / stdtheor) compliant (d_m st) dt (d_nph1 st / m) (d_nph2 st / m) (d_nph st / m) norm (d_len st)
                 (mean_step (snd g)))
  | _, _ => Err ZeroDivisionError
  end.

(* fad.py:122-123: the good times of the intersection are stored in both inputs *)
Definition fad_gtis (argsort_by_end : list tagged -> list tagged) (g1 g2 : gtis) : result (gtis * gtis) :=
  let! g := cross_two_gtis argsort_by_end g1 g2 in Ok (g, g).
(* crossspectrum.py:107-125 get_flux_generator for an EventList *)
Definition flux_generator_events (numba : bool) (times : list Q) (g : gtis) (segment_size dt : Q) : result (list flux_item) :=
  get_flux_iterable numba times g (Some segment_size) (Some (Z.to_nat (rint (segment_size / dt)%Q))) 0%Q None None.
(* fad.py with two event lists: 122-288, after the crossing of the GTIs *)
Definition fad_events (numba : bool) (gaussian : list R -> R -> list R) (len : option R) (tolerance : R) (strict : bool) (norm : normt)
    (times1 times2 : list Q) (g : gtis) (segment_size dt : Q) : result fad_table :=
  let! it1 := flux_generator_events numba times1 g segment_size dt in
  let! it2 := flux_generator_events numba times2 g segment_size dt in
  fad gaussian true len tolerance strict (Q2R dt) norm (map real_item it1) (map real_item it2).

(* fad.py:412-461 get_periodograms_from_FAD_results.  kinds: "pds1", "pds2", "ptot", "cs" *)
Inductive fad_kind := KPds1 | KPds2 | KPtot | KCs | KUnknown.
Record periodogram := mkPer { g_freq : list R; g_power : list cx; g_unnorm : list cx; g_err : list cx; g_unnorm_err : list cx; g_nphots : R * R; g_m : nat; g_df : R; g_dt : R; g_n : nat; g_norm : normt }.
Definition periodogram_of (t : fad_table) (power unnorm : list cx) (nphots : R * R) : periodogram :=
  mkPer (t_freq t) power unnorm (map (fun _ => c0) power) (map (fun _ => c0) unnorm) nphots (t_m t) (t_df t) (t_dt t) (List.length (t_freq t) * 2) (t_norm t).
(* nphots of a power spectrum is its number of photons twice, of a cross spectrum nphots1 and nphots2 *)
Definition periodograms_from_fad (t : fad_table) (kind : fad_kind) : result periodogram :=
  match kind with
  | KPds1 => Ok (periodogram_of t (map rtoc (t_pds1 t)) (map rtoc (t_pds1u t)) (t_nph1 t, t_nph1 t))
  | KPds2 => Ok (periodogram_of t (map rtoc (t_pds2 t)) (map rtoc (t_pds2u t)) (t_nph2 t, t_nph2 t))
  | KPtot => Ok (periodogram_of t (map rtoc (t_ptot t)) (map rtoc (t_ptotu t)) (t_nph t, t_nph t))
  | KCs => Ok (periodogram_of t (t_cs t) (t_csu t) (t_nph1 t, t_nph2 t))
  | KUnknown => Err ValueError
  end.
