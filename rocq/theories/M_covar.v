(* M_covar.v: model of stingray/covariancespectrum.py.  Times, energies and counts are exact rationals, results are exact reals; None is a
   value that is not finite (nan, inf).  Warnings are left out. *)
From Coq Require Import Reals Qreals.
From Verif Require Import Np Lib M_gti M_utils M_lc M_exvar.
From Coq Require Import List Bool Arith.
Import ListNotations.
Open Scope R_scope.

Definition rcounts (lc : lightcurve) : list R := map Q2R (lc_counts lc).
(* np.mean(lc), np.var(lc): numpy reads a light curve as the sequence of its counts (base.py:1039-1047 __len__, lightcurve.py:744-745
   __getitem__); nan for no bin *)
Definition omean (l : list R) : option R := match l with [] => None | _ => Some (rmean l) end.
Definition ovar (l : list R) : option R := match l with [] => None | _ => Some (rvar l) end.
(* np.cov(x, y)[0][1]: the mean product of the differences, divided by n - 1; nan for fewer than two bins *)
Definition np_cov (x y : list R) : result (option R) :=
  if Nat.eqb (length x) (length y) then
    Ok (if Nat.leb (length x) 1 then None
        else Some (rsum (map (fun p => (fst p - rmean x) * (snd p - rmean y)) (combine x y)) / INR (length x - 1)))
  else Err ValueError.

Inductive stdarg := StdNone | StdNumber (s : R) | StdList (l : list R).
(* covariancespectrum.py:409-418 _calculate_std *)
Definition calculate_std (std : stdarg) (lc : lightcurve) : option R :=
  match std with
  | StdNone => flet m := omean (rcounts lc) in fsqrt m
  | StdList l => omean l
  | StdNumber s => Some s
  end.
(* covariancespectrum.py:404-407 _calculate_excess_variance *)
Definition calculate_excess_variance (std : stdarg) (lc : lightcurve) : option R :=
  flet s := calculate_std std lc in flet v := ovar (rcounts lc) in Some (v - s ^ 2).
(* covariancespectrum.py:420-422 _compute_covariance *)
Definition compute_covariance (lc1 lc2 : lightcurve) : result (option R) := np_cov (rcounts lc1) (rcounts lc2).
(* covariancespectrum.py:424-445 _calculate_covariance_error; mm is 1 or nbins *)
Definition calculate_covariance_error (std : stdarg) (mm : R) (lc_x lc_y : lightcurve) : option R :=
  flet xs_x := calculate_excess_variance std lc_x in
  flet err_y := calculate_std std lc_y in
  flet xs_y := calculate_excess_variance std lc_y in
  flet err_x := calculate_std std lc_x in
  let nn := INR (length (lc_time lc_x)) in
  let num := xs_x * err_y + xs_y * err_x + err_x * err_y in
  let denom := nn * mm * xs_y in
  flet q := fdiv num denom in fsqrt q.

(* self.ref_band_lcs: one light curve or a list *)
Inductive refs := RefOne (lc : lightcurve) | RefList (l : list lightcurve).
(* np.size of a list of light curves: numpy makes an array of their counts; lists of different lengths are refused *)
Definition size_of (l : list lightcurve) : result nat :=
  match l with
  | [] => Ok 0%nat
  | a :: _ => if forallb (fun b => Nat.eqb (length (lc_counts b)) (length (lc_counts a))) l then Ok (length l * length (lc_counts a))%nat else Err ValueError
  end.
(* covariancespectrum.py:305-308: the reference of band i; a list is used as a light curve if it holds one number (no attribute counts) *)
Definition reference (r : refs) (i : nat) : result lightcurve :=
  match r with
  | RefOne lc => Ok lc
  | RefList l => let! s := size_of l in if Nat.eqb s 1 then Err AttributeError else get l i
  end.
(* what the constructor leaves: unnorm_covar, covar, covar_error *)
Record spectrum := mkSp { sp_unnorm : list (option R); sp_covar : list (option R); sp_error : list (option R) }.
(* covariancespectrum.py:328-334: covar / xs_var**0.5; each row is (covariance, error, excess variance) *)
Definition finish (rows : list (option R * option R * option R)) : spectrum :=
  mkSp (map (fun r => fst (fst r)) rows)
       (map (fun r => flet c := fst (fst r) in flet x := snd r in flet s := fsqrt x in fdiv c s) rows)
       (map (fun r => snd (fst r)) rows).
(* covariancespectrum.py:291-337 _construct_covar *)
Definition construct_covar (std : stdarg) (lcs : list lightcurve) (r : refs) : result spectrum :=
  let! rows := map_result (fun i =>
    let! lc := get lcs i in
    let! lc_ref := reference r i in
    let! cv := compute_covariance lc lc_ref in
    Ok (cv, calculate_covariance_error std 1 lc lc_ref, calculate_excess_variance std lc_ref)) (seq 0 (length lcs)) in
  Ok (finish rows).

Open Scope Q_scope.
(* np.unique *)
Fixpoint dedup (l : list Q) : list Q :=
  match l with a :: ((b :: _) as l') => if qeq a b then dedup l' else a :: dedup l' | l => l end.
Definition np_unique (l : list Q) : list Q := dedup (np_sort l).
(* covariancespectrum.py:375-402 _create_band_interest *)
Definition create_band_interest (energies : list Q) : result (list (Q * Q)) :=
  let unique := np_unique energies in
  let diffs := map (fun p => snd p - fst p) (combine unique (tl unique)) in
  let! last := get_last unique in
  let! dlast := get_last diffs in
  Ok (map (fun p => (fst p - (1 # 2) * snd p, fst p + (1 # 2) * snd p)) (combine unique diffs) ++ [(last - (1 # 2) * dlast, last + (1 # 2) * dlast)]).
(* Lightcurve.make_lightcurve is given the rows (time, energy) that are selected: np.sort sorts each row, the mask picks from both
   columns, and np.bincount counts the numbers it picked *)
Definition flat_rows (data : list (Q * Q)) : list Q := flat_map (fun p => [fst p; snd p]) data.
Definition rows_lightcurve (rows : list (Q * Q)) (dt tstart tseg : Q) : result lightcurve := make_lightcurve (flat_rows rows) dt (Some tseg) (Some tstart) None false.
(* covariancespectrum.py:356-373 _make_lightcurves; also tstart and tseg *)
Definition make_lightcurves (data bands : list (Q * Q)) (dt : Q) : result (list lightcurve * Q * Q) :=
  let! tstart := qmin_list (map fst data) in
  let! tend := qmax_list (map fst data) in
  let tseg := tend - tstart in
  let! lcs := map_result (fun b => rows_lightcurve (filter (fun p => (qle (fst b) (snd p) && qle (snd p) (snd b))%bool) data) dt tstart tseg) bands in
  Ok (lcs, tstart, tseg).
(* covariancespectrum.py:217-247 _make_reference_bands_from_event_data; the constructor never gives bounds *)
Definition reference_from_events (data bands : list (Q * Q)) (dt tstart tseg : Q) : result refs :=
  let! lo := qmin_list (map snd data) in
  let! hi := qmax_list (map snd data) in
  let! blo := qmin_list (map fst bands) in
  let! bhi := qmax_list (map snd bands) in
  if (qle hi blo || qle bhi lo)%bool then
    let! lc := rows_lightcurve (filter (fun p => (qle lo (snd p) && qle (snd p) hi)%bool) data) dt tstart tseg in Ok (RefOne lc)
  else
    let! l := map_result (fun b =>
      let emask1 := filter (fun p => (qle (snd p) (fst b) && qle lo (snd p))%bool) data in
      let emask2 := filter (fun p => (qle (snd p) hi && qle (snd b) (snd p))%bool) data in
      rows_lightcurve (emask1 ++ emask2) dt tstart tseg) bands in
    Ok (RefList l).
(* counts += lcs[j].counts *)
Definition add_counts (a b : list Q) : result (list Q) :=
  if Nat.eqb (length a) (length b) then Ok (map (fun p => fst p + snd p) (combine a b)) else Err ValueError.
(* covariancespectrum.py:267-289 _make_reference_bands_from_lightcurves.  With bounds, searchsorted on the array of pairs raises
   ValueError.  Arrays of one bin (which numpy would broadcast) and integer arrays to which fractions are added are left out. *)
Definition reference_from_lightcurves (lcs : list lightcurve) (bands : list (Q * Q)) (bounds : option (Q * Q)) : result refs :=
  match bounds with
  | Some _ => Err ValueError
  | None =>
      let! first := get lcs 0 in
      let! l := map_result (fun i =>
        let! counts := fold_left (fun acc j => let! acc := acc in
                                               if Nat.eqb i j then Ok acc else let! lc := get lcs j in add_counts acc (lc_counts lc))
                                 (seq 0 (length bands)) (Ok (map (fun _ => 0) (lc_counts first))) in
        Ok (new_lightcurve (lc_time first) counts None (lc_dt first))) (seq 0 (length bands)) in
      Ok (RefList l)
  end.

Inductive input := Events (data : list (Q * Q)) | Curves (lcs : list lightcurve).
Inductive refarg := RefNothing | RefCurve (lc : lightcurve) | RefCurves (l : list lightcurve) | RefPair (lo hi : Q) | RefNumber (x : Q).
Fixpoint sorted_rows (data : list (Q * Q)) : bool :=
  match data with a :: ((b :: _) as l') => (qle (fst a) (fst b) && sorted_rows l')%bool | _ => true end.
(* covariancespectrum.py:103-194 __init__ until _construct_covar: the light curves and the references.  argsort sorts the rows by time
   (in no given order when times are equal).  The bands are a list of pairs (one pair or fewer than two numbers: see np.size). *)
Definition prepare (argsort : list (Q * Q) -> list (Q * Q)) (data : input) (dt : option Q) (band_interest : option (list (Q * Q))) (ref : refarg)
  : result (list lightcurve * refs) :=
  let! _ := match data with Events d => let! _ := get d 0 in Ok tt | Curves l => let! _ := get l 0 in Ok tt end in
  let! bands := match band_interest with
                | None => match data with
                          | Events d => create_band_interest (map snd d)
                          | Curves l => Ok (map (fun i => (inject_Z (Z.of_nat i), inject_Z (Z.of_nat (i + 1)))) (seq 0 (length l)))
                          end
                | Some b => match b with [] => Err ValueError | _ => Ok b end
                end in
  match data with
  | Curves lcs =>
      match ref with
      | RefNothing => let! r := reference_from_lightcurves lcs bands None in Ok (lcs, r)
      | RefCurve lc => Ok (lcs, RefOne lc)
      | RefNumber _ => Err ValueError
      | RefPair lo hi => let! r := reference_from_lightcurves lcs bands (Some (lo, hi)) in Ok (lcs, r)
      | RefCurves l => let! s := size_of l in
                       if Nat.eqb s 1 then Err ValueError
                       else let! _ := get l 0 in if Nat.eqb (length l) (length lcs) then Ok (lcs, RefList l) else Err AssertionError
      end
  | Events d =>
      let! dt := match dt with None => Err ValueError | Some x => if qeq x 0 then Err ValueError else Ok x end in
      let d := if sorted_rows d then d else argsort d in
      let! m := make_lightcurves d bands dt in
      let lcs := fst (fst m) in
      let tstart := snd (fst m) in
      let tseg := snd m in
      match ref with
      | RefNothing => let! r := reference_from_events d bands dt tstart tseg in Ok (lcs, r)
      | RefCurve lc => Ok (lcs, RefOne lc)
      | RefNumber _ => Err ValueError
      | RefPair _ _ => let! r := reference_from_events d bands dt tstart tseg in Ok (lcs, r)
      | RefCurves l => let! s := size_of l in
                       if Nat.eqb s 1 then Err ValueError
                       else let! _ := get l 0 in if Nat.eqb (length l) (length lcs) then Ok (lcs, RefList l) else Err AssertionError
      end
  end.
(* covariancespectrum.py:103-194 Covariancespectrum *)
Definition covariancespectrum (argsort : list (Q * Q) -> list (Q * Q)) (data : input) (dt : option Q) (band_interest : option (list (Q * Q))) (ref : refarg) (std : stdarg)
  : result spectrum :=
  let! p := prepare argsort data dt band_interest ref in construct_covar std (fst p) (snd p).

(* lc.truncate(start, stop) on time and counts (base.py:1793-1810): an empty result has no first time.  The good time intervals of the
   light curve are taken to cover it. *)
Definition truncate_lc (lc : lightcurve) (start stop : nat) : result lightcurve :=
  let t := slice (lc_time lc) start stop in
  match t with [] => Err IndexError | _ => Ok (mkLC t (slice (lc_counts lc) start stop) (lc_gti lc) (lc_dt lc)) end.
(* covariancespectrum.py:543-546: no test for a light curve here; one with several bins is indexed as its counts, and a number cannot be truncated *)
Definition reference_averaged (r : refs) (i : nat) : result lightcurve :=
  match r with
  | RefOne lc => if Nat.eqb (length (lc_counts lc)) 1 then Ok lc else let! _ := get (lc_counts lc) i in Err AttributeError
  | RefList l => let! s := size_of l in if Nat.eqb s 1 then Err AttributeError else get l i
  end.
(* covariancespectrum.py:555-576: the loop over segments; sums of (cv, cv_err, xs) *)
Definition oplus (a b : option R) : option R := flet x := a in flet y := b in Some (x + y)%R.
Fixpoint segment_loop (std : stdarg) (nbins : R) (lc lc_ref : lightcurve) (size : Q) (k : nat) (tstart tend : Q) (acc : option R * option R * option R)
  : result (option R * option R * option R) :=
  match k with
  | O => Ok acc
  | S k => let start_ind := searchsorted_left (lc_time lc) tstart in
           let end_ind := searchsorted_left (lc_time lc) tend in
           let! lc_seg := truncate_lc lc start_ind end_ind in
           let! lc_ref_seg := truncate_lc lc_ref start_ind end_ind in
           let! cv := compute_covariance lc_seg lc_ref_seg in
           segment_loop std nbins lc lc_ref size k (tstart + size) (tend + size)
             (oplus (fst (fst acc)) cv, oplus (snd (fst acc)) (calculate_covariance_error std nbins lc_seg lc_ref_seg), oplus (snd acc) (calculate_excess_variance std lc_ref_seg))
  end.
(* covariancespectrum.py:528-587 AveragedCovariancespectrum._construct_covar *)
Definition construct_averaged (std : stdarg) (size : Q) (lcs : list lightcurve) (r : refs) : result spectrum :=
  let! first := get lcs 0 in
  let! start_time := get (lc_time first) 0 in
  let! rows := map_result (fun i =>
    let! lc := get lcs i in
    let! lc_ref := reference_averaged r i in
    let tend := start_time + size in
    let! nbins := if qeq size 0 then Err ValueError else Ok (py_int ((tend - start_time) / size)) in
    let nb := IZR nbins in
    let! acc := segment_loop std nb lc lc_ref size (Z.to_nat nbins) start_time tend (Some 0%R, Some 0%R, Some 0%R) in
    let by_n := fun o : option R => flet v := o in fdiv v nb in
    Ok (by_n (fst (fst acc)), by_n (snd (fst acc)), by_n (snd acc))) (seq 0 (length lcs)) in
  Ok (finish rows).
(* covariancespectrum.py:514-526 AveragedCovariancespectrum *)
Definition averaged_covariancespectrum (argsort : list (Q * Q) -> list (Q * Q)) (data : input) (size : Q) (dt : option Q) (band_interest : option (list (Q * Q))) (ref : refarg) (std : stdarg)
  : result spectrum :=
  let! p := prepare argsort data dt band_interest ref in construct_averaged std size (fst p) (snd p).
