(* T_evload.v: theorems about reading event files, stingray/io.py. *)
From Coq Require Import String.
From Verif Require Import Np Lib S_gti S_seg S_base M_gti M_seg M_utils M_reader M_fitslc M_evload S_evload P_evload P_evload2 T_base.
From Coq Require Import QArith List Arith ZArith Bool Ascii Permutation Lia Lqa.
Import ListNotations.
Open Scope Q_scope.

(* ---------- C203: load_events_and_gtis ---------- *)
Theorem C203_rows : forall (show : Q -> string) (argsort : list Q -> list nat) (srt : list tagged -> list tagged) (uniq : list nat -> list nat) (setnum : list Q -> list
  nat) (rx : string -> string -> bool) (info : string -> string -> option string -> option string -> option string) (rough : string -> option string -> option Q -> list Q
  -> option (list Q) -> result (option (list Q))) (f : list hdu) (additional : option (list string)) (gtistring : option string) (gti_file : option hdulist) (hduname column
  : option string) (r : evread), is_argsort argsort -> load_events show argsort srt uniq setnum rx info rough f additional gtistring gti_file hduname column = Ok r ->
  exists (h : hdu) (name tc ecol : string) (raw : list Q) (z : Q) (order : list nat), chosen f name h /\ (forall n : string, hduname = Some n -> name = n) /\ (forall c :
  string, column = Some c -> tc = c) /\ field (hd_cols h) tc = Ok raw /\ header_number (hd_head h) "TIMEZERO" 0 z /\ Permutation order (seq 0 (List.length raw)) /\ er_ev r
  = map (fun t : Q => t + z) (reorder order raw) /\ nondecreasing (er_ev r) /\ (nondecreasing raw -> order = seq 0 (List.length raw)) /\ (rectangular h (List.length raw) ->
  (forall a : string, a = ecol \/ a = "energy"%string \/ (exists l : list string, additional = Some l /\ In a l) -> exists v w : list Q, additional_column h a = Ok v /\
  get_key (er_data r) a = Ok w /\ picked order v w) /\ get_key (er_data r) ecol = Ok (er_pi r) /\ (forall d : list Q, er_det r = Some d -> exists (ckey : string) (v : list
  Q), In (ckey, v) (hd_cols h) /\ picked order v d)).
Proof. exact @load_rows. Qed.
Print Assumptions C203_rows.
Theorem C203_limits : forall (show : Q -> string) (argsort : list Q -> list nat) (srt : list tagged -> list tagged) (uniq : list nat -> list nat) (setnum : list Q -> list
  nat) (rx : string -> string -> bool) (info : string -> string -> option string -> option string -> option string) (rough : string -> option string -> option Q -> list Q
  -> option (list Q) -> result (option (list Q))) (f : list hdu) (additional : option (list string)) (gtistring : option string) (gti_file : option hdulist) (hduname column
  : option string) (r : evread), load_events show argsort srt uniq setnum rx info rough f additional gtistring gti_file hduname column = Ok r -> exists (h : hdu) (name tc :
  string) (raw : list Q) (z : Q), chosen f name h /\ (forall n : string, hduname = Some n -> name = n) /\ (forall c : string, column = Some c -> tc = c) /\ field (hd_cols
  h) tc = Ok raw /\ header_number (hd_head h) "TIMEZERO" 0 z /\ header_number (hd_head h) "TSTART" (hd 0 raw + z) (er_start r) /\ header_number (hd_head h) "TSTOP" (last
  raw 0 + z) (er_stop r) /\ er_mjdref r = keyword_read (numbers_of (hd_head h)) "MJDREF" /\ er_ephem r = ephemeris show (hd_head h).
Proof. exact @load_limits. Qed.
Print Assumptions C203_limits.
Theorem C203_gti : forall (show : Q -> string) (argsort : list Q -> list nat) (srt : list tagged -> list tagged) (uniq : list nat -> list nat) (setnum : list Q -> list
  nat) (rx : string -> string -> bool) (info : string -> string -> option string -> option string -> option string) (rough : string -> option string -> option Q -> list Q
  -> option (list Q) -> result (option (list Q))) (f : list hdu) (additional : option (list string)) (s : string) (gti_file : option hdulist) (hduname column : option
  string) (r : evread), load_events show argsort srt uniq setnum rx info rough f additional (Some s) gti_file hduname column = Ok r -> match gti_file with | Some g =>
  load_gtis g (Some s) = Ok (er_gti r) | None => exists (det : option (list Q)) (order : list nat), (er_det r = det \/ er_det r = option_map (reorder order) det) /\ match
  gti_from_all_extensions srt uniq rx (as_hdulist f) (split_comma s) (option_map setnum det) with | Ok g => er_gti r = g | Err _ => er_gti r = [(er_start r, er_stop r)] end
  end.
Proof. exact @load_gti. Qed.
Print Assumptions C203_gti.
Theorem C203_columns : forall (show : Q -> string) (argsort : list Q -> list nat) (srt : list tagged -> list tagged) (uniq : list nat -> list nat) (setnum : list Q ->
  list nat) (rx : string -> string -> bool) (info : string -> string -> option string -> option string -> option string) (rough : string -> option string -> option Q ->
  list Q -> option (list Q) -> result (option (list Q))) (f : list hdu) (l : list string) (gtistring : option string) (gti_file : option hdulist) (hduname column : option
  string) (r : evread), load_events show argsort srt uniq setnum rx info rough f (Some l) gtistring gti_file hduname column = Ok r -> (exists en : list Q, get_key (er_data
  r) "energy" = Ok en) /\ (exists ecol : string, In ecol l /\ er_columns r = Some l \/ ~ In ecol l /\ er_columns r = Some (l ++ [ecol])).
Proof. exact @load_columns. Qed.
Print Assumptions C203_columns.
Theorem C203_energy : forall (show : Q -> string) (argsort : list Q -> list nat) (srt : list tagged -> list tagged) (uniq : list nat -> list nat) (setnum : list Q -> list
  nat) (rx : string -> string -> bool) (info : string -> string -> option string -> option string -> option string) (rough : string -> option string -> option Q -> list Q
  -> option (list Q) -> result (option (list Q))) (f : list hdu) (additional : option (list string)) (gtistring : option string) (gti_file : option hdulist) (hduname column
  : option string) (r : evread) (en : list Q), load_events show argsort srt uniq setnum rx info rough f additional gtistring gti_file hduname column = Ok r -> get_key
  (er_data r) "energy" = Ok en -> ((exists x : Q, In x en /\ 0 < x) -> er_energy r = Some en) /\ ((forall x : Q, In x en -> x <= 0) -> exists (m : string) (instr : option
  string) (epoch : option Q), rough m instr epoch (er_pi r) (er_det r) = Ok (er_energy r) /\ (forall q : Q, er_mjdref r = Some q -> epoch = Some (er_start r / 86400 + q))).
Proof. exact @load_energy. Qed.
Print Assumptions C203_energy.
Theorem C203_instrument : forall (show : Q -> string) (argsort : list Q -> list nat) (srt : list tagged -> list tagged) (uniq : list nat -> list nat) (setnum : list Q ->
  list nat) (rx : string -> string -> bool) (info : string -> string -> option string -> option string -> option string) (rough : string -> option string -> option Q ->
  list Q -> option (list Q) -> result (option (list Q))) (f : list hdu) (additional : option (list string)) (gtistring : option string) (gti_file : option hdulist) (hduname
  column : option string) (r : evread), load_events show argsort srt uniq setnum rx info rough f additional gtistring gti_file hduname column = Ok r -> exists (probe : hdu)
  (m k s : string), In probe f /\ mission_of (hd_head probe) = Ok m /\ k = key info m "instkey" "INSTRUME" None None /\ head_get (hd_head probe) k = Some (Txt s) /\
  er_instr r = lower (strip s) /\ er_mission r = lower m.
Proof. exact @load_instrument. Qed.
Print Assumptions C203_instrument.
Theorem C203_extension : forall (f : list hdu) (n : string) (h h' : hdu), chosen f n h -> chosen f n h' -> h = h'.
Proof. exact @chosen_unique. Qed.
Print Assumptions C203_extension.
Theorem C203_column : forall (h : hdu) (a k : string) (v : list Q), column_named h a k v -> additional_column h a = Ok (if (lower k =? "energy")%string then map (fun x :
  Q => x * hd_kev h) v else v).
Proof. exact @additional_found. Qed.
Print Assumptions C203_column.
Theorem C203_missing_error : forall (h : hdu) (a : string), (forall (k : string) (v : list Q), In (k, v) (hd_cols h) -> ~ same_name k a) -> additional_column h a = Ok
  (repeat 0 (rows (hd_cols h))).
Proof. exact @additional_missing. Qed.
Print Assumptions C203_missing_error.
Theorem C203_ephemeris : forall (show : Q -> string) (h : header) (c : ascii) (s : string), head_get h "PLEPHEM" = Some (Txt ("JPL-" ++ String c s)) -> mem_char c "JPL- "
  = false -> strip ("JPL-" ++ String c s) = ("JPL-" ++ String c s)%string -> ephemeris show h = Some (lower (String c s)).
Proof. exact @ephemeris_jpl. Qed.
Print Assumptions C203_ephemeris.
Theorem C203_ephemeris_error : forall (show : Q -> string) (h : header) (p s : string), head_get h "PLEPHEM" = Some (Txt (p ++ s)) -> strip (p ++ s) = (p ++ s)%string ->
  (forall c : ascii, mem_char c p = true -> mem_char c "JPL-" = true) -> ephemeris show h = Some (lower (lstrip "JPL-" s)).
Proof. exact @ephemeris_lost. Qed.
Print Assumptions C203_ephemeris_error.
Theorem C203_no_ephemeris : forall (show : Q -> string) (h : header), head_get h "PLEPHEM" = None -> ephemeris show h = None.
Proof. exact @ephemeris_none. Qed.
Print Assumptions C203_no_ephemeris.
Theorem C203_timezero_refuted : forall argsort : list Q -> list nat, exists (raw : list Q) (g : gtis) (r : evread), w_load argsort (w_file [("TIMEZERO"%string, Num 100);
  ("TSTART"%string, Num 0); ("TSTOP"%string, Num 10)] [("TIME"%string, raw); ("PI"%string, [7; 8])]) None None None None None = Ok r /\ er_gti r = g /\ (forall t : Q, In t
  raw -> exists a b : Q, In (a, b) g /\ a <= t <= b) /\ (forall t : Q, In t (er_ev r) -> ~ (exists a b : Q, In (a, b) g /\ a <= t <= b)) /\ er_start r = 0 /\ er_stop r =
  10.
Proof. exact @timezero_refuted. Qed.
Print Assumptions C203_timezero_refuted.
Theorem C203_start_refuted : exists (argsort : list Q -> list nat) (raw : list Q) (r : evread), is_argsort argsort /\ w_load argsort [w_primary w_instr; w_events []
  [("TIME"%string, raw); ("PI"%string, [7; 8])]] None None None None None = Ok r /\ er_ev r = [2 + 0; 5 + 0] /\ er_pi r = [8; 7] /\ er_gti r = [(er_start r, er_stop r)] /\
  er_stop r < er_start r.
Proof. exact @start_refuted. Qed.
Print Assumptions C203_start_refuted.
Theorem C203_missing_refuted : forall argsort : list Q -> list nat, exists r : evread, w_load argsort (w_file [] [("TIME"%string, [1; 2])]) (Some ["X"%string]) None None
  None None = Ok r /\ er_pi r = [0; 0] /\ get_key (er_data r) "X" = Ok [0; 0] /\ get_key (er_data r) "energy" = Ok [0; 0] /\ er_energy r = None /\ er_columns r = Some
  ["X"%string; "PI"%string].
Proof. exact @missing_refuted. Qed.
Print Assumptions C203_missing_refuted.
Theorem C203_ephemeris_refuted : ephemeris w_show [("PLEPHEM"%string, Txt "LE405")] = Some "e405"%string /\ ephemeris w_show [("PLEPHEM"%string, Txt " JPL-DE200 ")] =
  Some "de200"%string.
Proof. exact @ephemeris_refuted. Qed.
Print Assumptions C203_ephemeris_refuted.
Theorem C203_instrument_refuted : forall argsort : list Q -> list nat, let f := [w_primary []; w_events [("TSTART"%string, Num 0)] [("TIME"%string, [1; 2]); ("PI"%string,
  [7; 8])]; w_gtis] in w_load argsort f None None None None None = Err AttributeError /\ (exists r : rhead, initialize_header w_show w_info f None None = Ok r /\ rh_instr r
  = None).
Proof. exact @instrument_refuted. Qed.
Print Assumptions C203_instrument_refuted.
Example C203_nonvacuous : is_argsort ex_argsort /\ exists r, w_load ex_argsort (w_file [("MJDREF", Num 55000); ("TIMEZERO", Num 1)]%string
    [("TIME", [5; 2]); ("PI", [7; 8]); ("Energy", [3; 4]); ("CCDNR", [1; 2])]%string) (Some ["pi"]%string) None None None None = Ok r /\
  er_ev r = [2 + 1; 5 + 1] /\ er_pi r = [8; 7] /\ er_energy r = Some [4 * 1; 3 * 1] /\ er_det r = Some [2; 1] /\ er_gti r = [(0, 10)] /\ er_mjdref r = Some 55000 /\ er_instr r = "a"%string.
Proof. split; [exact C56_argsort_exists|]. eexists. split; [vm_compute; reflexivity|]. repeat split. Qed.

(* ---------- C204: the reader of event files ---------- *)
Theorem C204_probe : forall (f1 : list hdu) (h : hdu) (f2 : list hdu), tells h -> (forall h' : hdu, In h' f1 -> ~ tells h') -> probe_header (f1 ++ h :: f2) None = Ok h.
Proof. exact @probe_first. Qed.
Print Assumptions C204_probe.
Theorem C204_no_mission_error : forall (show : Q -> string) (info : string -> string -> option string -> option string -> option string) (f : list hdu) (gtistring :
  option string), (forall h : hdu, In h f -> ~ tells h) -> initialize_header show info f gtistring None = Err UnboundLocalError.
Proof. exact @none_tells. Qed.
Print Assumptions C204_no_mission_error.
Theorem C204_forced_error : forall (show : Q -> string) (info : string -> string -> option string -> option string -> option string) (f : list hdu) (gtistring : option
  string) (n : string), (forall h : hdu, In h f -> ~ same_name (hd_name h) n) -> initialize_header show info f gtistring (Some n) = Err KeyError.
Proof. exact @forced_missing. Qed.
Print Assumptions C204_forced_error.
Theorem C204_header : forall (show : Q -> string) (info : string -> string -> option string -> option string -> option string) (f : list hdu) (gtistring forced : option
  string) (r : rhead), initialize_header show info f gtistring forced = Ok r -> exists (probe : hdu) (name : string), probe_header f forced = Ok probe /\ mission_of
  (hd_head probe) = Ok (rh_mission r) /\ instrument_mode info (rh_mission r) (hd_head probe) = Ok (rh_instr r, rh_mode r) /\ chosen f name (rh_hdu r) /\ (forall n : string,
  forced = Some n -> name = n) /\ (forced = None -> name = key info (rh_mission r) "events" "EVENTS" (rh_instr r) (rh_mode r)) /\ rh_gtistr r = match gtistring with | Some
  s => s | None => key info (rh_mission r) "gti" "GTI,STDGTI" (rh_instr r) (rh_mode r) end /\ rh_ephem r = ephemeris show (hd_head (rh_hdu r)) /\ header_number (hd_head
  (rh_hdu r)) "TIMEZERO" 0 (rh_zero r) /\ match rh_start r with | Some x => head_get (hd_head (rh_hdu r)) "TSTART" = Some (Num x) | None => head_get (hd_head (rh_hdu r))
  "TSTART" = None end /\ match rh_stop r with | Some x => head_get (hd_head (rh_hdu r)) "TSTOP" = Some (Num x) | None => head_get (hd_head (rh_hdu r)) "TSTOP" = None end /\
  rh_time r = key info (rh_mission r) "time" "TIME" (rh_instr r) (rh_mode r) /\ rh_det r = key info (rh_mission r) "ccol" "NONE" (rh_instr r) (rh_mode r) /\ rh_mjdref r =
  keyword_read (numbers_of (hd_head (rh_hdu r))) "MJDREF" /\ rh_pi r = search_name (key info (rh_mission r) "ecol" "PI" (rh_instr r) (rh_mode r)) (map fst (hd_cols (rh_hdu
  r))) /\ rh_energy r = search_name "energy" (map fst (hd_cols (rh_hdu r))) /\ low_text (hd_head (rh_hdu r)) "TIMEREF" = Ok (rh_timeref r) /\ low_text (hd_head (rh_hdu r))
  "TIMESYS" = Ok (rh_timesys r).
Proof. exact @init_inv. Qed.
Print Assumptions C204_header.
Theorem C204_detectors_ignored : forall (srt : list tagged -> list tagged) (uniq : list nat -> list nat) (setnum : list Q -> list nat) (rx : string -> string -> bool) (f
  : list hdu) (r : rhead) (gti_file : option hdulist) (d d' : option (list nat)), has_name (hd_cols (rh_hdu r)) (rh_det r) = true -> reader_gtis srt uniq setnum rx f r
  gti_file d = reader_gtis srt uniq setnum rx f r gti_file d'.
Proof. exact @detectors_ignored. Qed.
Print Assumptions C204_detectors_ignored.
Theorem C204_detectors_given : forall (srt : list tagged -> list tagged) (uniq : list nat -> list nat) (setnum : list Q -> list nat) (rx : string -> string -> bool) (f :
  list hdu) (r : rhead) (gti_file : option hdulist) (d : option (list nat)), has_name (hd_cols (rh_hdu r)) (rh_det r) = false -> reader_gtis srt uniq setnum rx f r gti_file
  d = read_gtis srt uniq rx (as_hdulist f) gti_file (rh_gtistr r) d.
Proof. exact @detectors_given. Qed.
Print Assumptions C204_detectors_given.
Theorem C204_detectors_first : forall (srt : list tagged -> list tagged) (uniq : list nat -> list nat) (setnum : list Q -> list nat) (rx : string -> string -> bool) (f :
  list hdu) (r : rhead) (gti_file : option hdulist) (d : option (list nat)) (v : list Q), has_name (hd_cols (rh_hdu r)) (rh_det r) = true -> field (hd_cols (rh_hdu r))
  (rh_det r) = Ok v -> reader_gtis srt uniq setnum rx f r gti_file d = read_gtis srt uniq rx (as_hdulist f) gti_file (rh_gtistr r) (Some (setnum (firstn 100 v))).
Proof. exact @detectors_first. Qed.
Print Assumptions C204_detectors_first.
Theorem C204_energy : forall (rough : string -> option string -> option Q -> list Q -> option (list Q) -> result (option (list Q))) (r : rhead) (t : table Q) (raw : list
  Q) (s : Q) (e : string) (v : list Q), field t (rh_time r) = Ok raw -> rh_start r = Some s -> rh_energy r = Some e -> field t e = Ok v -> exists sl : slice,
  transform_slice rough r t = Ok sl /\ sl_time sl = map (fun x : Q => x + rh_zero r) raw /\ sl_pi sl = None /\ sl_energy sl = Some (map (fun x : Q => x * hd_kev (rh_hdu r))
  v) /\ sl_start sl = Some (s + rh_zero r) /\ sl_stop sl = option_map (fun x : Q => x + rh_zero r) (rh_stop r).
Proof. exact @slice_energy. Qed.
Print Assumptions C204_energy.
Theorem C204_pi : forall (rough : string -> option string -> option Q -> list Q -> option (list Q) -> result (option (list Q))) (r : rhead) (t : table Q) (raw : list Q)
  (s : Q) (c : string) (pi : list Q) (en : option (list Q)), field t (rh_time r) = Ok raw -> rh_start r = Some s -> rh_energy r = None -> rh_pi r = Some c -> field t c = Ok
  pi -> rough (rh_mission r) (rh_instr r) (option_map (fun m : Q => s / 86400 + m) (rh_mjdref r)) pi None = Ok en -> exists sl : slice, transform_slice rough r t = Ok sl /\
  sl_time sl = map (fun x : Q => x + rh_zero r) raw /\ sl_pi sl = Some pi /\ sl_energy sl = en /\ sl_start sl = Some (s + rh_zero r) /\ sl_stop sl = option_map (fun x : Q
  => x + rh_zero r) (rh_stop r).
Proof. exact @slice_pi. Qed.
Print Assumptions C204_pi.
Theorem C204_no_start_error : forall (rough : string -> option string -> option Q -> list Q -> option (list Q) -> result (option (list Q))) (r : rhead) (t : table Q) (raw
  : list Q), field t (rh_time r) = Ok raw -> rh_start r = None -> transform_slice rough r t = Err TypeError.
Proof. exact @slice_no_start. Qed.
Print Assumptions C204_no_start_error.
Theorem C204_no_pi_error : forall (rough : string -> option string -> option Q -> list Q -> option (list Q) -> result (option (list Q))) (r : rhead) (t : table Q) (raw :
  list Q) (s : Q), field t (rh_time r) = Ok raw -> rh_start r = Some s -> rh_energy r = None -> rh_pi r = None -> transform_slice rough r t = Err AttributeError.
Proof. exact @slice_no_pi. Qed.
Print Assumptions C204_no_pi_error.
Theorem C204_no_start_refuted : forall argsort : list Q -> list nat, let t := [("TIME"%string, [1; 2]); ("PI"%string, [7; 8])] in (exists r : evread, w_load argsort
  (w_file [] t) None None None None None = Ok r /\ er_start r = 1) /\ (exists r : rhead, initialize_header w_show w_info (w_file [] t) None None = Ok r /\ transform_slice
  w_rough r t = Err TypeError).
Proof. exact @no_start_refuted. Qed.
Print Assumptions C204_no_start_refuted.
Theorem C204_no_pi_refuted : forall argsort : list Q -> list nat, let t := [("TIME"%string, [1; 2])] in (exists r : evread, w_load argsort (w_file [("TSTART"%string, Num
  0)] t) None None None None None = Ok r) /\ (exists r : rhead, initialize_header w_show w_info (w_file [("TSTART"%string, Num 0)] t) None None = Ok r /\ transform_slice
  w_rough r t = Err AttributeError).
Proof. exact @no_pi_refuted. Qed.
Print Assumptions C204_no_pi_refuted.
Theorem C204_forced_refuted : forall argsort : list Q -> list nat, let f := w_file [("TSTART"%string, Num 0)] [("TIME"%string, [1; 2]); ("PI"%string, [7; 8])] in
  initialize_header w_show w_info f None (Some "XEVENTS"%string) = Err KeyError /\ (exists r : evread, w_load argsort f None None None (Some "XEVENTS"%string) None = Ok r
  /\ er_ev r = [1 + 0; 2 + 0]).
Proof. exact @forced_refuted. Qed.
Print Assumptions C204_forced_refuted.
Theorem C204_detectors_refuted : exists r : rhead, initialize_header w_show w_info w_ccd None None = Ok r /\ reader_gtis (isort_by t_end) (nodup Nat.eq_dec) w_set w_rx
  w_ccd r None (Some [1%nat; 2%nat]) = Ok (Some [(0, 10)]) /\ read_gtis (isort_by t_end) (nodup Nat.eq_dec) w_rx (as_hdulist w_ccd) None (rh_gtistr r) (Some [1%nat; 2%nat])
  = Ok (Some [(5, 10)]).
Proof. exact @detectors_refuted. Qed.
Print Assumptions C204_detectors_refuted.
Example C204_nonvacuous : let t := [("TIME", [2; 5]); ("PI", [7; 8])]%string in
  exists r s, initialize_header w_show w_info (w_file [("TSTART", Num 1); ("TIMEZERO", Num 1); ("TIMESYS", Txt "TDB ")]%string t) None None = Ok r /\ rh_pi r = Some "PI"%string /\ rh_timesys r = Some "tdb"%string /\
    transform_slice w_rough r t = Ok s /\ sl_time s = [2 + 1; 5 + 1] /\ sl_pi s = Some [7; 8] /\ sl_start s = Some (1 + 1).
Proof. do 2 eexists. split; [vm_compute; reflexivity|]. split; [reflexivity|]. split; [reflexivity|]. split; [vm_compute; reflexivity|]. repeat split. Qed.
Theorem C204_text : forall (h : header) (k : string), (head_get h k = None -> low_text h k = Ok None) /\ (forall s : string, head_get h k = Some (Txt s) -> low_text h k =
  Ok (Some (lower (strip s)))) /\ (forall q : Q, head_get h k = Some (Num q) -> low_text h k = Err AttributeError).
Proof. exact @low_text_spec. Qed.
Print Assumptions C204_text.
Theorem C204_mission : forall (h : header) (s : string), (head_get h "MISSION" = Some (Txt s) -> mission_of h = Ok (lower s)) /\ (head_get h "MISSION" = None -> head_get
  h "TELESCOP" = Some (Txt s) -> mission_of h = Ok (lower s)) /\ (head_get h "MISSION" = None -> head_get h "TELESCOP" = None -> mission_of h = Err KeyError).
Proof. exact @mission_of_spec. Qed.
Print Assumptions C204_mission.
Theorem C204_mode : forall (info : string -> string -> option string -> option string -> option string) (m : string) (h : header) (k s k' s' : string), info m
  "instkey"%string None None = Some k -> head_get h k = Some (Txt s) -> info m "dmodekey"%string (Some (strip s)) None = Some k' -> head_get h k' = Some (Txt s') ->
  instrument_mode info m h = Ok (Some (strip s), Some (strip s')).
Proof. exact @mode_spec. Qed.
Print Assumptions C204_mode.
Theorem C204_no_mode : forall (info : string -> string -> option string -> option string -> option string) (m : string) (h : header) (k s : string), info m
  "instkey"%string None None = Some k -> head_get h k = Some (Txt s) -> info m "dmodekey"%string (Some (strip s)) None = None -> instrument_mode info m h = Ok (Some (strip
  s), None).
Proof. exact @no_mode_spec. Qed.
Print Assumptions C204_no_mode.
Theorem C203_key_error : forall (A : Type) (d : list (string * A)) (k : string), ~ In k (map fst d) -> get_key d k = Err KeyError.
Proof. exact @get_key_missing. Qed.
Print Assumptions C203_key_error.
Example C204_headers_example : mission_of [("TELESCOP", Txt "NuSTAR")]%string = Ok "nustar"%string /\ low_text [("TIMESYS", Txt "TDB ")]%string "TIMESYS" = Ok (Some "tdb"%string) /\
  instrument_mode (fun _ k i _ => if String.eqb k "instkey" then Some "INSTRUME"%string else match i with Some _ => Some "DATAMODE"%string | None => None end) "x"
    [("INSTRUME", Txt "FPMA "); ("DATAMODE", Txt "A")]%string = Ok (Some "FPMA", Some "A")%string.
Proof. repeat split. Qed.
Theorem C203_ephemeris_number : forall (show : Q -> string) (h : header) (q : Q), head_get h "PLEPHEM" = Some (Num q) -> ephemeris show h = Some (lower (lstrip "JPL-" (strip (show q)))).
Proof. exact @ephemeris_number. Qed.
Print Assumptions C203_ephemeris_number.
