(* M_fitslc.v: model of reading light curves and good time intervals from FITS files, stingray/io.py and stingray/gti.py. *)
From Verif Require Import Np S_gti M_gti M_seg M_reader.
From Coq Require Import QArith List Arith ZArith Bool Ascii String Decimal DecimalString Lia Lqa.
Import ListNotations.
Open Scope Q_scope.

(* A table is a list of named columns of the same length.  FITS_rec.field of astropy (library) looks for the exact name first and then
   for the only name that is the same but for upper and lower case.  Blanks at the end of names are left out. *)
Definition table (A : Type) := list (string * list A).
Definition lower_char (c : ascii) : ascii := let n := nat_of_ascii c in if (Nat.leb 65 n && Nat.leb n 90)%bool then ascii_of_nat (n + 32) else c.
Fixpoint lower (s : string) : string := match s with EmptyString => EmptyString | String c s' => String (lower_char c) (lower s') end.
Definition field {A} (t : table A) (name : string) : result (list A) :=
  match filter (fun p => String.eqb (fst p) name) t with
  | p :: _ => Ok (snd p)
  | [] => match filter (fun p => String.eqb (lower (fst p)) (lower name)) t with [p] => Ok (snd p) | _ => Err KeyError end
  end.
Definition has_name {A} (t : table A) (name : string) : bool := existsb (fun p => String.eqb (fst p) name) t.

(* The parts of the file that are read: header of the light curve extension (TIMEUNIT is text), its table without the times (nan is
   None), the times, and the table of the GTI extension, if there is one.  Times that are nan are not modelled. *)
Record lcfile := mkFile { lf_unit : option string; lf_hdr : list (string * Q); lf_times : table Q; lf_data : table (option Q); lf_gti : option (table Q) }.
(* the width of the bins: Python's None, nan or a number *)
Inductive width := PyNone | Nan | Width (d : Q).
Record lcdata := mkData { ld_time : list Q; ld_counts : list (option Q); ld_err : list (option Q); ld_gti : gtis; ld_mjdref : Q; ld_dt : width }.

(* io.py:358-365, 383-405 the header; a day has 86400 s; JD - MJD = 2400000.5; time scales are all TDB *)
Definition nustar_mjdref : Q := 5519700076601852 # 100000000000.
Definition from_days (mjdref x : Q) : Q := (2440000 + (1 # 2) + x - (2400000 + (1 # 2)) - mjdref) * 86400.
Definition or_type_error {A} (o : option A) : result A := match o with Some a => Ok a | None => Err TypeError end.
Definition is_days (u : string) : bool := String.eqb u "d".
(* io.py:361-405: MJDREF, TIMEZERO and TSTART in seconds.  A missing TSTART or (for days) TSTOP fails when it is used. *)
Definition header_times (unit : string) (hdr : list (string * Q)) : result (option Q * Q * Q) :=
  let mjdref := keyword_read hdr "MJDREF" in
  let timezero := match keyword_read hdr "TIMEZERO" with Some z => z | None => 0 end in
  if is_days unit then
    let! tstart := or_type_error (keyword_read hdr "TSTART") in
    let! _ := or_type_error (keyword_read hdr "TSTOP") in
    let m := match mjdref with Some m => m | None => nustar_mjdref end in
    Ok (Some m, from_days m timezero, from_days m tstart)
  else
    let! tstart := or_type_error (keyword_read hdr "TSTART") in
    Ok (mjdref, timezero, tstart).
(* io.py:407-414 the times *)
Definition shifted_times (timezero tstart : Q) (time : list Q) : result (list Q) :=
  let timezero := if qlt tstart timezero then timezero - tstart else timezero in
  match time with
  | [] => Err IndexError
  | t :: _ => Ok (map (fun x => x + (if qlt (last time t) tstart then timezero + tstart else timezero)) time)
  end.
(* io.py:416-427 the width of the bins; without TIMEDEL, None is not multiplied by 86400 but stays None when the unit is not days *)
Definition bin_width (unit : string) (hdr : list (string * Q)) (time : list Q) : width :=
  match keyword_read hdr "TIMEDEL" with
  | Some d => Width (if is_days unit then d * 86400 else d)
  | None => if is_days unit then match median (diffs time) with Some d => Width d | None => Nan end else PyNone
  end.
(* io.py:430-436 the column of the rates *)
Definition rate_column (given : option string) (t : table (option Q)) : result string :=
  match given with
  | Some c => Ok c
  | None => match filter (has_name t) ["RATE"; "RATE1"; "COUNTS"]%string with c :: _ => Ok c | [] => Err ValueError end
  end.
Definition contains (sub s : string) : bool := match String.index 0 sub s with Some _ => true | None => false end.
Definition or_else {A} (r : result A) (d : A) : A := match r with Ok a => a | Err _ => d end.
(* io.py:449-451 multiplication by dt *)
Definition times_width (w : width) (l : list (option Q)) : result (list (option Q)) :=
  match w with
  | PyNone => Err TypeError
  | Nan => Ok (map (fun _ => None) l)
  | Width d => Ok (map (option_map (fun x => x * d)) l)
  end.
Definition is_good (limit : Q) (rate frac : option Q) : bool := match rate, frac with Some _, Some f => qle limit f | _, _ => false end.
Definition qdiv0 (x f : option Q) : option Q :=
  match x, f with Some x, Some f => if qeq f 0 then None else Some (x / f) | _, _ => None end.
(* io.py:438-463 counts, errors and the bins that are good; an exposure of zero gives inf or nan, None here *)
Definition counts_of (given : option string) (limit : Q) (w : width) (t : table (option Q)) : result (list (option Q) * list (option Q) * list bool) :=
  let! col := rate_column given t in
  let! rate := field t col in
  let err := or_else (field t (if String.eqb col "RATE1" then "ERROR1" else "ERROR")%string) (map (fun _ => Some 0) rate) in
  let! rate := if contains "RATE" col then times_width w rate else Ok rate in
  let! err := if contains "RATE" col then times_width w err else Ok err in
  let frac := or_else (field t "FRACEXP") (map (fun _ => Some 1) rate) in
  let good := map (fun p => is_good limit (fst p) (snd p)) (combine rate frac) in
  let corrected := fun (l : list (option Q)) (bad : option Q -> option Q) =>
    map (fun p => if (fst (fst p) : bool) then qdiv0 (snd p) (snd (fst p)) else bad (snd p)) (combine (combine good frac) l) in
  Ok (corrected rate (fun _ => Some 0), corrected err (fun x => x), good).
(* io.py:465-472 the good time intervals *)
Definition lc_gti (g : option (table Q)) (time : list Q) (good : list bool) : result gtis :=
  match g with
  | Some t => match field t "START", field t "STOP" with
              | Ok a, Ok b => Ok (combine a b)
              | _, _ => create_gti_from_condition time good (0, 0) None
              end
  | None => create_gti_from_condition time good (0, 0) None
  end.
(* io.py:300-485 lcurve_from_fits; mjdref.mjd of None is an AttributeError *)
Definition lcurve_from_fits (timecolumn : string) (ratecolumn : option string) (limit : Q) (f : lcfile) : result lcdata :=
  match lf_unit f with
  | None => Err KeyError
  | Some unit =>
    let! h := header_times unit (lf_hdr f) in
    let '(mjdref, timezero, tstart) := h in
    let! time := field (lf_times f) timecolumn in
    let! time := shifted_times timezero tstart time in
    let w := bin_width unit (lf_hdr f) time in
    let! c := counts_of ratecolumn limit w (lf_data f) in
    let '(counts, err, good) := c in
    let! g := lc_gti (lf_gti f) time good in
    match mjdref with None => Err AttributeError | Some m => Ok (mkData time counts err g m w) end
  end.

(* ---- good time intervals of a file: names and tables of the extensions ---- *)
Definition hdulist := list (string * table Q).
(* lchdulist[name] of astropy (library): names of extensions are in upper case, the name asked for is converted; the first counts *)
Fixpoint extension (l : hdulist) (name : string) : result (table Q) :=
  match l with [] => Err KeyError | (n, t) :: l' => if String.eqb (lower n) (lower name) then Ok t else extension l' name end.
(* gti.py:103-134 load_gtis *)
Definition load_gtis (l : hdulist) (gtistring : option string) : result gtis :=
  let! t := extension l (match gtistring with Some s => s | None => "GTI"%string end) in
  let! a := field t "START" in
  let! b := field t "STOP" in
  Ok (combine a b).
(* gti.py:198-236 get_gti_from_hdu *)
Definition get_gti_from_hdu (t : table Q) : result gtis :=
  let names := if has_name t "START" then ("START", "STOP")%string else ("Start", "Stop")%string in
  let! a := field t (fst names) in
  let! b := field t (snd names) in
  Ok (combine a b).
(* gti.py:137-173 get_gti_extensions_from_pattern; [rx p n] tells if the regular expression p matches the name n (library) *)
Definition extensions_from_pattern (rx : string -> string -> bool) (l : hdulist) (pattern : string) : list nat :=
  map fst (filter (fun p => rx ("^" ++ pattern ++ "$")%string (fst (snd p))) (combine (seq 0 (List.length l)) l)).
(* "{:02d}".format(i), of a number that is not negative *)
Definition two_digits (i : nat) : string :=
  let s := NilEmpty.string_of_uint (Nat.to_uint i) in
  if Nat.ltb i 10 then if Nat.eqb i 0 then "00"%string else String "0" s else s.
(* gti.py:278-282 the patterns *)
Definition gti_patterns (accepted : list string) (dets : option (list nat)) : list string :=
  match dets with
  | None => accepted
  | Some d => (accepted ++ flat_map (fun i => map (fun x => x ++ two_digits i)%string accepted ++ map (fun x => x ++ two_digits i ++ ".*")%string accepted) d)%list
  end.
(* gti.py:239-290 get_gti_from_all_extensions; [uniq] is list(set(l)), in any order *)
Fixpoint fetch (l : hdulist) (ext : list nat) : result (list gtis) :=
  match ext with
  | [] => Ok []
  | i :: ext' => match nth_error l i with
                 | None => Err IndexError
                 | Some h => let! g := get_gti_from_hdu (snd h) in let! r := fetch l ext' in Ok (g :: r)
                 end
  end.
Definition gti_from_all_extensions (srt : list tagged -> list tagged) (uniq : list nat -> list nat) (rx : string -> string -> bool)
    (l : hdulist) (accepted : list string) (dets : option (list nat)) : result gtis :=
  let! gs := fetch l (uniq (flat_map (extensions_from_pattern rx l) (gti_patterns accepted dets))) in
  cross_gtis srt gs.
(* str.split(",") *)
Fixpoint split_comma_from (cur s : string) : list string :=
  match s with
  | EmptyString => [cur]
  | String c s' => if Ascii.eqb c "," then cur :: split_comma_from EmptyString s' else split_comma_from (cur ++ String c EmptyString)%string s'
  end.
Definition split_comma (s : string) : list string := split_comma_from EmptyString s.
(* io.py:1031-1067 _read_gtis, the detector numbers already read; None: no valid GTI extensions *)
Definition read_gtis (srt : list tagged -> list tagged) (uniq : list nat -> list nat) (rx : string -> string -> bool)
    (l : hdulist) (gti_file : option hdulist) (gtistring : string) (dets : option (list nat)) : result (option gtis) :=
  match gti_file with
  | Some g => let! r := load_gtis g (Some gtistring) in Ok (Some r)
  | None => match gti_from_all_extensions srt uniq rx l (split_comma gtistring) dets with Ok g => Ok (Some g) | Err _ => Ok None end
  end.
