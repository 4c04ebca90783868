(* M_evload.v: model of reading event files, stingray/io.py: load_events_and_gtis and the header and the slices of FITSTimeseriesReader. *)
From Coq Require Import String.
From Verif Require Import Np S_gti M_gti M_seg M_utils M_reader M_fitslc.
From Coq Require Import QArith List Arith ZArith Bool Ascii Lia Lqa.
Import ListNotations.
Open Scope Q_scope.

(* Extensions of a file: name, header with text and numbers, columns of numbers, and the number of keV in the unit of the energies (one
   without a unit).  The key of a header is there once. *)
Inductive hval := Txt (s : string) | Num (q : Q).
Definition header := list (string * hval).
Record hdu := mkHdu { hd_name : string; hd_head : header; hd_cols : table Q; hd_kev : Q }.
Fixpoint head_get (h : header) (k : string) : option hval :=
  match h with [] => None | p :: h' => if String.eqb (fst p) k then Some (snd p) else head_get h' k end.
Definition head_has (h : header) (k : string) : bool := match head_get h k with Some _ => true | None => false end.
Definition numbers_of (h : header) : list (string * Q) := flat_map (fun p => match snd p with Num q => [(fst p, q)] | Txt _ => [] end) h.
(* methods of text on a number are an AttributeError; np.longdouble of text is left out (ValueError) *)
Definition text_of (v : hval) : result string := match v with Txt s => Ok s | Num _ => Err AttributeError end.
Definition number_of (v : hval) : result Q := match v with Num q => Ok q | Txt _ => Err ValueError end.

(* str.lstrip(chars) and str.strip(); text in headers has no white space but blanks *)
Fixpoint mem_char (c : ascii) (s : string) : bool := match s with EmptyString => false | String d s' => Ascii.eqb c d || mem_char c s' end.
Fixpoint lstrip (chars s : string) : string :=
  match s with EmptyString => EmptyString | String c s' => if mem_char c chars then lstrip chars s' else s end.
Fixpoint srev (s : string) : string := match s with EmptyString => EmptyString | String c s' => (srev s' ++ String c EmptyString)%string end.
Definition strip (s : string) : string := srev (lstrip " " (srev (lstrip " " s))).

Section Load.
(* str of a number (Python); argsort and list(set(.)) (library); regular expressions (library, see M_fitslc) *)
Variable show : Q -> string.
Variable argsort : list Q -> list nat.
Variable srt : list tagged -> list tagged.
Variable uniq : list nat -> list nat.
Variable setnum : list Q -> list nat.
Variable rx : string -> string -> bool.
(* get_key_from_mission_info(read_mission_info(mission), key, default, instr, mode) without the default (see M_mission): mission, key,
   instr and mode to the text found *)
Variable info : string -> string -> option string -> option string -> option string.
(* get_rough_conversion_function(mission, instrument, epoch)(pi, detector_id) (see M_mission); None: the function is not found
   or fails with ValueError *)
Variable rough : string -> option string -> option Q -> list Q -> option (list Q) -> result (option (list Q)).

Definition key (m k default : string) (i md : option string) : string := match info m k i md with Some v => v | None => default end.
(* io.py:600-609 and 976-988 the ephemeris, the reference and the system of the times *)
Definition ephemeris (h : header) : option string :=
  match head_get h "PLEPHEM" with
  | None => None
  | Some v => Some (lower (lstrip "JPL-" (strip (match v with Txt s => s | Num q => show q end))))
  end.
Definition low_text (h : header) (k : string) : result (option string) :=
  match head_get h k with None => Ok None | Some v => let! s := text_of v in Ok (Some (lower (strip s))) end.
Definition num_or {A} (h : header) (k : string) (f : Q -> A) (d : A) : result A :=
  match head_get h k with None => Ok d | Some v => let! q := number_of v in Ok (f q) end.
(* io.py:578-586 and 933-943 instrument and mode *)
Definition stripped (h : header) (k : string) : result (option string) :=
  match head_get h k with None => Ok None | Some v => let! s := text_of v in Ok (Some (strip s)) end.
Definition instrument_mode (m : string) (h : header) : result (option string * option string) :=
  let! instr := stripped h (key m "instkey" "INSTRUME" None None) in
  let! mode := match info m "dmodekey" instr None with None => Ok None | Some k => stripped h k end in
  Ok (instr, mode).
(* io.py:569-572 and 922-925 the mission *)
Definition mission_of (h : header) : result string :=
  match head_get h (if head_has h "MISSION" then "MISSION" else "TELESCOP")%string with
  | None => Err KeyError
  | Some v => let! s := text_of v in Ok (lower s)
  end.
(* hdulist[name] and name in hdulist of astropy (library): the first with the name, whatever the case *)
Fixpoint find_hdu (f : list hdu) (name : string) : option hdu :=
  match f with [] => None | h :: f' => if String.eqb (lower (hd_name h)) (lower name) then Some h else find_hdu f' name end.
Definition nth_hdu (f : list hdu) (i : nat) : result hdu := match nth_error f i with Some h => Ok h | None => Err IndexError end.
Definition events_hdu (f : list hdu) (name : string) : result hdu := match find_hdu f name with Some h => Ok h | None => nth_hdu f 1 end.

(* io.py:179-191 _case_insensitive_search_in_list and 194-233 _get_additional_data: a column that is missing is zero *)
Fixpoint search_name (s : string) (l : list string) : option string :=
  match l with [] => None | a :: l' => if String.eqb (lower s) (lower a) then Some a else search_name s l' end.
Definition rows (t : table Q) : nat := match t with [] => 0%nat | c :: _ => List.length (snd c) end.
Definition additional_column (h : hdu) (a : string) : result (list Q) :=
  match search_name a (map fst (hd_cols h)) with
  | Some k => let! v := field (hd_cols h) k in Ok (if String.eqb (lower k) "energy" then map (fun x => x * hd_kev h) v else v)
  | None => Ok (repeat 0 (rows (hd_cols h)))
  end.
(* a Python dictionary: setting a key that is there keeps its place *)
Fixpoint put_key {A} (d : list (string * A)) (k : string) (v : A) : list (string * A) :=
  match d with [] => [(k, v)] | p :: d' => if String.eqb (fst p) k then (k, v) :: d' else p :: put_key d' k v end.
Fixpoint get_key {A} (d : list (string * A)) (k : string) : result A :=
  match d with [] => Err KeyError | p :: d' => if String.eqb (fst p) k then Ok (snd p) else get_key d' k end.
Fixpoint additional_from (h : hdu) (d : list (string * list Q)) (l : list string) : result (list (string * list Q)) :=
  match l with [] => Ok d | a :: l' => let! v := additional_column h a in additional_from h (put_key d a v) l' end.
Definition get_additional_data (h : hdu) (l : list string) : result (list (string * list Q)) := additional_from h [] l.
(* value[order] *)
Definition reorder (order : list nat) (l : list Q) : list Q := map (fun i => nth i l 0) order.
Definition as_hdulist (f : list hdu) : hdulist := map (fun h => (hd_name h, hd_cols h)) f.

(* What is returned, and the list of additional columns of the caller afterwards. *)
Record evread := mkRead { er_ev : list Q; er_gti : gtis; er_pi : list Q; er_energy : option (list Q); er_instr : string; er_mission : string;
  er_mjdref : option Q; er_data : list (string * list Q); er_start : Q; er_stop : Q; er_det : option (list Q);
  er_ephem : option string; er_timeref : option string; er_timesys : option string; er_columns : option (list string) }.

(* io.py:489-724 load_events_and_gtis for missions without processing of their own (not XTE); numbers are exact (float32, longdouble) *)
Definition load_events (f : list hdu) (additional : option (list string)) (gtistring : option string) (gti_file : option hdulist)
    (hduname column : option string) : result evread :=
  let! h0 := nth_hdu f 0 in
  let! probe := if head_has (hd_head h0) "TELESCOP" then Ok h0 else nth_hdu f 1 in
  let! m := mission_of (hd_head probe) in
  let! im := instrument_mode m (hd_head probe) in
  let '(instr, mode) := im in
  let gtistr := match gtistring with Some s => s | None => key m "gti" "GTI,STDGTI" instr mode end in
  let! h := events_hdu f (match hduname with Some n => n | None => key m "events" "EVENTS" instr mode end) in
  let ephem := ephemeris (hd_head h) in
  let! timeref := low_text (hd_head h) "TIMEREF" in
  let! timesys := low_text (hd_head h) "TIMESYS" in
  let! raw := field (hd_cols h) (match column with Some c => c | None => key m "time" "TIME" instr mode end) in
  let ckey := key m "ccol" "NONE" instr mode in
  let! det := if (negb (String.eqb ckey "NONE") && has_name (hd_cols h) ckey)%bool then let! d := field (hd_cols h) ckey in Ok (Some d) else Ok None in
  let! zero := num_or (hd_head h) "TIMEZERO" (fun q => q) 0 in
  let ev := map (fun t => t + zero) raw in
  let! first := get ev 0 in
  let! last := get_last ev in
  let! t_start := num_or (hd_head h) "TSTART" (fun q => q) first in
  let! t_stop := num_or (hd_head h) "TSTOP" (fun q => q) last in
  let mjdref := keyword_read (numbers_of (hd_head h)) "MJDREF" in
  let! g := match gti_file with
            | None => match gti_from_all_extensions srt uniq rx (as_hdulist f) (split_comma gtistr) (option_map setnum det) with
                      | Ok g => Ok g
                      | Err _ => Ok [(t_start, t_stop)] end
            | Some gf => load_gtis gf (Some gtistr)
            end in
  let pi_col := key m "ecol" "PI" instr mode in
  let cols := match additional with None => [pi_col] | Some l => if existsb (String.eqb pi_col) l then l else l ++ [pi_col] end in
  let! data := get_additional_data h cols in
  let! data := if existsb (String.eqb "energy") cols then Ok data else additional_from h data ["energy"%string] in
  let sorted := is_sorted ev in
  let order := argsort ev in
  let ev := if sorted then ev else reorder order ev in
  let det := if sorted then det else option_map (reorder order) det in
  let data := if sorted then data else map (fun p => (fst p, reorder order (snd p))) data in
  let! pi := get_key data pi_col in
  let! en := get_key data "energy" in
  let! energy := if existsb (fun x => qlt 0 x) en then Ok (Some en)
                 else rough m instr (option_map (fun r => t_start / 86400 + r) mjdref) pi det in
  match instr with
  | None => Err AttributeError
  | Some i => Ok (mkRead ev g pi energy (lower i) (lower m) mjdref data t_start t_stop det ephem timeref timesys
                   (match additional with None => None | Some _ => Some cols end))
  end.

(* ---- FITSTimeseriesReader ---- *)
(* what the reader keeps of the headers *)
Record rhead := mkHead { rh_mission : string; rh_instr : option string; rh_mode : option string; rh_gtistr : string; rh_hdu : hdu;
  rh_ephem : option string; rh_timeref : option string; rh_timesys : option string; rh_zero : Q; rh_start : option Q; rh_stop : option Q;
  rh_time : string; rh_det : string; rh_mjdref : option Q; rh_pi : option string; rh_energy : option string }.
(* io.py:892-1029 _initialize_header_events.  [forced] is the name of an extension; an empty name counts as None when the header with
   the mission is looked for (line 911) and is left out.  obsid, dt and the number of rows are left out. *)
Definition probe_header (f : list hdu) (forced : option string) : result hdu :=
  match forced with
  | Some n => match find_hdu f n with Some h => Ok h | None => Err KeyError end
  | None => match find (fun h => (head_has (hd_head h) "TELESCOP" || head_has (hd_head h) "MISSION")%bool) f with
            | Some h => Ok h
            | None => Err UnboundLocalError end
  end.
Definition initialize_header (f : list hdu) (gtistring forced : option string) : result rhead :=
  let! probe := probe_header f forced in
  let! m := mission_of (hd_head probe) in
  let! im := instrument_mode m (hd_head probe) in
  let '(instr, mode) := im in
  let gtistr := match gtistring with Some s => s | None => key m "gti" "GTI,STDGTI" instr mode end in
  let! h := events_hdu f (match forced with Some n => n | None => key m "events" "EVENTS" instr mode end) in
  let ephem := ephemeris (hd_head h) in
  let! timeref := low_text (hd_head h) "TIMEREF" in
  let! timesys := low_text (hd_head h) "TIMESYS" in
  let! zero := num_or (hd_head h) "TIMEZERO" (fun q => q) 0 in
  let! t_start := num_or (hd_head h) "TSTART" Some None in
  let! t_stop := num_or (hd_head h) "TSTOP" Some None in
  Ok (mkHead m instr mode gtistr h ephem timeref timesys zero t_start t_stop (key m "time" "TIME" instr mode) (key m "ccol" "NONE" instr mode)
       (keyword_read (numbers_of (hd_head h)) "MJDREF") (search_name (key m "ecol" "PI" instr mode) (map fst (hd_cols h)))
       (search_name "energy" (map fst (hd_cols h)))).
(* io.py:1031-1067 _read_gtis: the numbers of the detectors that are given are replaced by those of the first hundred rows if there is
   such a column *)
Definition reader_gtis (f : list hdu) (r : rhead) (gti_file : option hdulist) (det : option (list nat)) : result (option gtis) :=
  let! det := if has_name (hd_cols (rh_hdu r)) (rh_det r) then let! d := field (hd_cols (rh_hdu r)) (rh_det r) in Ok (Some (setnum (firstn 100 d))) else Ok det in
  read_gtis srt uniq rx (as_hdulist f) gti_file (rh_gtistr r) det.
(* io.py:842-890 the arrays of a slice: [t] are the columns of the rows wanted.  Times, channels, energies and times of start and stop;
   additional columns and other attributes are left out.  A ValueError of the conversion function itself, which is not caught here, is left out. *)
Record slice := mkSlice { sl_time : list Q; sl_pi : option (list Q); sl_energy : option (list Q); sl_start : option Q; sl_stop : option Q }.
Definition transform_slice (r : rhead) (t : table Q) : result slice :=
  let! raw := field t (rh_time r) in
  let time := map (fun x => x + rh_zero r) raw in
  let! s := match rh_start r with None => Err TypeError | Some s => Ok s end in
  let epoch := option_map (fun m => s / 86400 + m) (rh_mjdref r) in
  let fin := fun pi en => Ok (mkSlice time pi en (option_map (fun x => x + rh_zero r) (rh_start r)) (option_map (fun x => x + rh_zero r) (rh_stop r))) in
  match rh_energy r with
  | Some e => let! v := field t e in fin None (Some (map (fun x => x * hd_kev (rh_hdu r)) v))
  | None =>
    match rh_pi r with
    | None => Err AttributeError
    | Some c => let! pi := field t c in let! en := rough (rh_mission r) (rh_instr r) epoch pi None in fin (Some pi) en
    end
  end.
End Load.
