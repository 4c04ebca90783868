(* M_lctab.v: model of the conversion of light curves to and from astropy tables and lightkurve objects
   (stingray/lightcurve.py).  The arrays and caches of a light curve are the lcstate of M_lc; numbers are exact. *)
From Coq Require Import String.
From Verif Require Import Np Lib M_gti M_seg M_lc.
From Coq Require Import ZArith QArith List Bool Arith.
Import ListNotations.
Open Scope Q_scope.

(* A light curve with its other attributes.  [f_st] has dt and the time. *)
Record lcfull := mkFull { f_st : lcstate; f_gti : option (list (Q * Q)); f_mjdref : Q; f_instr : option string; f_mission : option string; f_dist : string }.
(* Values of the meta dictionary of a table *)
Inductive mval := VNum (x : Q) | VText (s : string) | VGti (g : list (Q * Q)) | VArr (a : list Q) | VBool (b : bool) | VNone.
Definition dict := list (string * mval).
Definition look (k : string) (d : dict) : option mval := option_map snd (find (fun p => String.eqb k (fst p)) d).
Fixpoint put (k : string) (v : mval) (d : dict) : dict :=
  match d with
  | [] => [(k, v)]
  | (k', v') :: r => if String.eqb k k' then (k, v) :: r else (k', v') :: put k v r
  end.
(* astropy.table.Table, or TimeSeries (its times are TimeDelta objects, in seconds): columns by name, and the meta dictionary *)
Record table := mkTable { t_time : list Q; t_counts : option (list Q); t_counts_err : option (list Q); t_rate : option (list Q); t_rate_err : option (list Q);
  t_bin_lo : option (list Q); t_bin_hi : option (list Q); t_meta : dict }.
Definition put_opt (k : string) (v : option mval) (d : dict) : dict := match v with Some x => put k x d | None => d end.

(* stingray/lightcurve.py:1455-1518 _to_astropy_object, no_longdouble False; kind is "table" or "timeseries" (the same columns).
   _meancountrate is never set to anything but None (395-402, 441-449). *)
Definition to_table (f : lcfull) : table :=
  let s := f_st f in
  let m := put_opt "gti" (option_map VGti (f_gti f)) [] in
  let m := put "mjdref" (VNum (f_mjdref f)) m in
  let m := put_opt "meancounts" (option_map VNum (st_meancounts s)) m in
  let m := put_opt "instr" (option_map VText (f_instr f)) m in
  let m := put_opt "mission" (option_map VText (f_mission f)) m in
  let m := put "dt" (VNum (st_dt s)) m in
  let m := put "err_dist" (VText (f_dist f)) m in
  mkTable (st_time s) (st_counts s) (st_counts_err s) (st_rate s) (st_rate_err s) (st_bin_lo s) (st_bin_hi s) m.

(* The names of the parameters of Lightcurve (stingray/lightcurve.py:211-230); the others give a warning (244-245) *)
Definition parameters : list string :=
  ["time"; "counts"; "err"; "input_counts"; "gti"; "err_dist"; "bg_counts"; "bg_ratio"; "frac_exp"; "mjdref"; "dt"; "skip_checks"; "low_memory"; "mission"; "instr"; "header"]%string.
Definition unrecognized (d : dict) : list string := filter (fun k => negb (existsb (String.eqb k) parameters)) (map fst d).
(* stingray/lightcurve.py:42 and 278-283: the statistics that are accepted, in lower case (None has no lower()) *)
Definition valid_dist (lower : string -> string) (d : string) : bool := (String.eqb (lower d) "poisson" || String.eqb (lower d) "gauss")%bool.
(* stingray/lightcurve.py:257-356 of Lightcurve.__init__ with skip_checks and times that are numbers, not empty; low_memory False.
   [mask_of] is the mask of the GTIs, [lower] is str.lower.  One time without dt: dt = 1. *)
Definition lc_init (lower : string -> string) (mask_of : option (list (Q * Q)) -> list Q -> list bool) (time counts : list Q) (err : option (list Q)) (input_counts : bool)
  (gti : option (list (Q * Q))) (dist : string) (mjdref : Q) (dt : option Q) (mission instr : option string) : result lcfull :=
  if negb (Nat.eqb (List.length time) (List.length counts)) then Err StingrayError
  else if negb (valid_dist lower dist) then Err StingrayError
  else
    let d := match dt with Some d => d | None => match median (diffs time) with Some d => d | None => 1 end end in
    let c := if input_counts then Some counts else None in
    let r := if input_counts then None else Some counts in
    let ce := if input_counts then err else None in
    let re := if input_counts then None else err in
    Ok (mkFull (mkSt time d (mask_of gti time) false (String.eqb (lower dist) "poisson") input_counts c ce r re None None None None) gti mjdref instr mission dist).
Definition as_num (d : option mval) : result (option Q) := match d with Some (VNum x) => Ok (Some x) | None | Some VNone => Ok None | _ => Err TypeError end.
Definition as_text (d : option mval) : result (option string) := match d with Some (VText x) => Ok (Some x) | None | Some VNone => Ok None | _ => Err TypeError end.
Definition as_gti (d : option mval) : result (option (list (Q * Q))) := match d with Some (VGti x) => Ok (Some x) | None | Some VNone => Ok None | _ => Err TypeError end.
(* stingray/lightcurve.py:1529-1568 _from_astropy_object, skip_checks True: the table afterwards (kwargs is its meta dictionary), and
   the light curve with the keywords it complains about.  Meta entries of a type that to_table does not write: TypeError. *)
Definition from_table (lower : string -> string) (mask_of : option (list (Q * Q)) -> list Q -> list bool) (t : table) (err_dist : string) : table * result (lcfull * list string) :=
  let err := match t_counts_err t with Some e => Some e | None => t_rate_err t end in
  match (match t_counts t with Some c => Some (c, true) | None => option_map (fun r => (r, false)) (t_rate t) end) with
  | None => (t, Err ValueError)
  | Some (counts, input_counts) =>
    let m := put "time" (VArr (t_time t)) (t_meta t) in
    let m := put "counts" (VArr counts) m in
    let m := put "err" (match err with Some e => VArr e | None => VNone end) m in
    let m := put "input_counts" (VBool input_counts) m in
    let m := put "skip_checks" (VBool true) m in
    let m := match look "err_dist" m with None => put "err_dist" (VText err_dist) m | Some _ => m end in
    (mkTable (t_time t) (t_counts t) (t_counts_err t) (t_rate t) (t_rate_err t) (t_bin_lo t) (t_bin_hi t) m,
     let! gti := as_gti (look "gti" m) in
     let! ref := as_num (look "mjdref" m) in
     let! dt := as_num (look "dt" m) in
     let! instr := as_text (look "instr" m) in
     let! mission := as_text (look "mission" m) in
     let! dist := as_text (look "err_dist" m) in
     let! lc := lc_init lower mask_of (t_time t) counts err input_counts gti (match dist with Some d => d | None => err_dist end)
                  (match ref with Some x => x | None => 0 end) dt mission instr in
     Ok (lc, unrecognized m))
  end.

(* A lightkurve.LightCurve: MJDs, flux and its error *)
Record lkurve := mkLk { k_mjd : list Q; k_flux : list Q; k_flux_err : list Q }.
(* stingray/lightcurve.py:1383-1402 to_lightkurve; TypeError for an empty light curve *)
Definition to_lightkurve (perr : list Q -> list Q) (f : lcfull) : result lkurve :=
  let g := get_counts (f_st f) in
  match snd g with
  | None => Err TypeError
  | Some c => let! e := snd (get_counts_err perr (fst g)) in Ok (mkLk (map (fun t => t / 86400 + f_mjdref f) (st_time (f_st f))) c e)
  end.
(* stingray/lightcurve.py:1405-1424 from_lightkurve; the times go through interpret_times with mjdref 0 (stingray/base.py:2850-2860) *)
Definition from_lightkurve (lower : string -> string) (mask_of : option (list (Q * Q)) -> list Q -> list bool) (k : lkurve) : result lcfull :=
  let! ref := if forallb (fun m => qlt 10000 m) (k_mjd k) then get (k_mjd k) 0 else Ok 0 in
  lc_init lower mask_of (map (fun m => (m - ref) * 86400) (k_mjd k)) (k_flux k) (Some (k_flux_err k)) false None "poisson" ref None None None.
