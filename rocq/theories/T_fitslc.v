(* T_fitslc.v: theorems about light curves and good time intervals in FITS files, io.py and gti.py. *)
From Verif Require Import Np Lib S_gti S_seg M_gti M_seg M_reader M_fitslc S_fitslc P_gti_final P_seg_regions P_fitslc.
From Coq Require Import QArith List Arith ZArith Bool String Permutation Lia Lqa.
Import ListNotations.
Open Scope Q_scope.

(* ---------- C188: counts ---------- *)
Theorem C188_counts : forall given limit d t col rate err frac,
  rate_column given t = Ok col -> field t col = Ok rate ->
  or_else (field t (if String.eqb col "RATE1" then "ERROR1" else "ERROR")%string) (map (fun _ => Some 0) rate) = err ->
  or_else (field t "FRACEXP") (map (fun _ => Some 1) rate) = frac -> List.length err = List.length rate -> List.length frac = List.length rate ->
  exists c e g, counts_of given limit (Width d) t = Ok (c, e, g) /\
    (forall i r f, good_bin limit rate frac i r f -> ~ f == 0 ->
       nth_error g i = Some true /\ (exists x, nth_error c i = Some (Some x) /\ x == (if contains "RATE" col then r * d else r) / f) /\
       forall v, nth_error err i = Some (Some v) -> exists x, nth_error e i = Some (Some x) /\ x == (if contains "RATE" col then v * d else v) / f) /\
    (forall i, bad_bin limit rate frac i ->
       nth_error g i = Some false /\ nth_error c i = Some (Some 0) /\
       forall v, nth_error err i = Some (Some v) -> exists x, nth_error e i = Some (Some x) /\ x == (if contains "RATE" col then v * d else v)).
Proof. exact counts_ok. Qed.
Print Assumptions C188_counts.
Theorem C188_column : forall t,
  rate_column None t =
  if has_name t "RATE" then Ok "RATE"%string else if has_name t "RATE1" then Ok "RATE1"%string else if has_name t "COUNTS" then Ok "COUNTS"%string else Err ValueError.
Proof. exact column_choice. Qed.
Print Assumptions C188_column.
Theorem C188_column_given : forall c t,
  rate_column (Some c) t = Ok c.
Proof. exact column_given. Qed.
Print Assumptions C188_column_given.
Theorem C188_no_width_error : forall given limit t col rate,
  rate_column given t = Ok col -> field t col = Ok rate -> contains "RATE" col = true -> counts_of given limit PyNone t = Err TypeError.
Proof. exact rates_without_width. Qed.
Print Assumptions C188_no_width_error.
Theorem C188_gti_table : forall t a b time good,
  field t "START" = Ok a -> field t "STOP" = Ok b -> lc_gti (Some t) time good = Ok (combine a b).
Proof. exact lc_gti_table. Qed.
Print Assumptions C188_gti_table.
Theorem C188_gti_condition : forall n t0 step good,
  (2 <= n)%nat -> 0 < step -> List.length good = n ->
  let time := map (fun i => t0 + inject_Z (Z.of_nat i) * step) (seq 0 n) in
  exists g, lc_gti None time good = Ok g /\ well_formed g /\ (forall i t, nth_error time i = Some t -> (covered_closed g t <-> nth_error good i = Some true)).
Proof. exact lc_gti_condition. Qed.
Print Assumptions C188_gti_condition.
Definition ex_data : table (option Q) := [("RATE"%string, [Some 10; None; Some 12]); ("ERROR"%string, [Some 1; Some 1; Some 2]); ("FRACEXP"%string, [Some 1; Some 1; Some (1 # 2)])].
Definition ex_file (hdr : list (string * Q)) : lcfile := mkFile (Some "s"%string) hdr [("TIME"%string, [1 # 2; 3 # 2; 5 # 2])] ex_data None.
Example C188_nonvacuous : good_bin (9 # 10) [Some 10; None; Some 12] [Some 1; Some 1; Some (1 # 2)] 0 10 1 /\ bad_bin (9 # 10) [Some 10; None; Some 12] [Some 1; Some 1; Some (1 # 2)] 1
  /\ counts_of None (9 # 10) (Width 2) ex_data = Ok ([Some 20; Some 0; Some 0], [Some 2; Some 2; Some 4], [true; false; false]).
Proof.
  split; [split; [reflexivity|split; [reflexivity|discriminate]]|]. split; [|reflexivity]. split; [cbn; lia|]. intros r f (A & _). discriminate.
Qed.

(* ---------- C189: times ---------- *)
Theorem C189_shift : forall z s l r,
  shifted_times z s l = Ok r -> exists c, moved c l r.
Proof. exact shifted_some. Qed.
Print Assumptions C189_shift.
Theorem C189_shifts : forall z s l t0,
  l <> [] ->
  exists r, shifted_times z s l = Ok r /\
    (last l t0 < s -> s < z -> moved z l r) /\ (last l t0 < s -> z <= s -> moved (z + s) l r) /\
    (s <= last l t0 -> s < z -> moved (z - s) l r) /\ (s <= last l t0 -> z <= s -> moved z l r).
Proof. exact shifted_cases. Qed.
Print Assumptions C189_shifts.
Theorem C189_seconds : forall tc rc limit f unit m s d l c e good,
  lf_unit f = Some unit -> unit <> "d"%string -> keyword_read (lf_hdr f) "MJDREF" = Some m -> keyword_read (lf_hdr f) "TSTART" = Some s ->
  keyword_read (lf_hdr f) "TIMEDEL" = Some d -> field (lf_times f) tc = Ok l -> l <> [] -> counts_of rc limit (Width d) (lf_data f) = Ok (c, e, good) ->
  exists time, shifted_times (match keyword_read (lf_hdr f) "TIMEZERO" with Some z => z | None => 0 end) s l = Ok time /\
    lcurve_from_fits tc rc limit f = (let! g := lc_gti (lf_gti f) time good in Ok (mkData time c e g m (Width d))).
Proof. exact lcurve_seconds. Qed.
Print Assumptions C189_seconds.
Theorem C189_days : forall tc rc limit f m s e0 l,
  lf_unit f = Some "d"%string -> match keyword_read (lf_hdr f) "MJDREF" with Some m => m | None => nustar_mjdref end = m -> keyword_read (lf_hdr f) "TSTART" = Some s ->
  keyword_read (lf_hdr f) "TSTOP" = Some e0 -> field (lf_times f) tc = Ok l -> l <> [] ->
  exists z' s' time w, z' == ((match keyword_read (lf_hdr f) "TIMEZERO" with Some z => z | None => 0 end) + 40000 - m) * 86400 /\ s' == (s + 40000 - m) * 86400 /\ shifted_times z' s' l = Ok time /\
    w = match keyword_read (lf_hdr f) "TIMEDEL" with Some d => Width (d * 86400) | None => match median (diffs time) with Some d => Width d | None => Nan end end /\
    lcurve_from_fits tc rc limit f = (let! c := counts_of rc limit w (lf_data f) in let! g := lc_gti (lf_gti f) time (snd c) in Ok (mkData time (fst (fst c)) (snd (fst c)) g m w)).
Proof. exact lcurve_days. Qed.
Print Assumptions C189_days.
Theorem C189_no_mjdref_error : forall tc rc limit f unit r,
  lf_unit f = Some unit -> unit <> "d"%string -> keyword_read (lf_hdr f) "MJDREF" = None -> lcurve_from_fits tc rc limit f <> Ok r.
Proof. exact lcurve_no_mjdref. Qed.
Print Assumptions C189_no_mjdref_error.
Theorem C189_no_timedel_error : forall tc rc limit f unit col rate s l,
  lf_unit f = Some unit -> unit <> "d"%string -> keyword_read (lf_hdr f) "TIMEDEL" = None -> keyword_read (lf_hdr f) "TSTART" = Some s ->
  field (lf_times f) tc = Ok l -> l <> [] -> rate_column rc (lf_data f) = Ok col -> field (lf_data f) col = Ok rate -> contains "RATE" col = true -> lcurve_from_fits tc rc limit f = Err TypeError.
Proof. exact lcurve_no_timedel. Qed.
Print Assumptions C189_no_timedel_error.
Theorem C189_no_tstart_error : forall tc rc limit f unit,
  lf_unit f = Some unit -> keyword_read (lf_hdr f) "TSTART" = None -> lcurve_from_fits tc rc limit f = Err TypeError.
Proof. exact lcurve_no_tstart. Qed.
Print Assumptions C189_no_tstart_error.
(* TIMEZERO equal to TSTART, an absolute time, is added twice: all times are after the end of the observation *)
Theorem C189_timezero_refuted : exists hdr r, keyword_read hdr "TIMEZERO" = Some 100 /\ keyword_read hdr "TSTART" = Some 100 /\ keyword_read hdr "TSTOP" = Some 103 /\
  lcurve_from_fits "TIME" None (9 # 10) (ex_file hdr) = Ok r /\ ld_time r <> [] /\ forall t, In t (ld_time r) -> 103 < t.
Proof.
  exists [("TIMEZERO", 100); ("TSTART", 100); ("TSTOP", 103); ("MJDREF", 55000); ("TIMEDEL", 1)]%string. eexists. split; [reflexivity|]. split; [reflexivity|]. split; [reflexivity|]. split; [vm_compute; reflexivity|]. split; [discriminate|].
  intros t [<-|[<-|[<-|[]]]]; reflexivity.
Qed.
Print Assumptions C189_timezero_refuted.
(* a missing MJDREF is caught when it is read, and fails at the end *)
Theorem C189_mjdref_refuted : exists hdr, keyword_read hdr "MJDREF" = None /\ (exists r, lcurve_from_fits "TIME" None (9 # 10) (ex_file (("MJDREF"%string, 55000) :: hdr)) = Ok r) /\
  lcurve_from_fits "TIME" None (9 # 10) (ex_file hdr) = Err AttributeError.
Proof. exists [("TSTART", 100); ("TIMEDEL", 1)]%string. split; [reflexivity|]. split; [eexists; vm_compute; reflexivity|reflexivity]. Qed.
Print Assumptions C189_mjdref_refuted.
(* without TIMEDEL the width is not the median difference of the times, as the warning says: the rates are multiplied by None *)
Theorem C189_timedel_refuted : exists hdr, keyword_read hdr "TIMEDEL" = None /\ (exists r, lcurve_from_fits "TIME" None (9 # 10) (ex_file (("TIMEDEL"%string, 1) :: hdr)) = Ok r) /\
  lcurve_from_fits "TIME" None (9 # 10) (ex_file hdr) = Err TypeError.
Proof. exists [("TSTART", 100); ("MJDREF", 55000)]%string. split; [reflexivity|]. split; [eexists; vm_compute; reflexivity|reflexivity]. Qed.
Print Assumptions C189_timedel_refuted.
Example C189_nonvacuous : exists r, lcurve_from_fits "TIME" None (9 # 10) (ex_file [("TIMEZERO", 100); ("TSTART", 90); ("MJDREF", 55000); ("TIMEDEL", 1)]%string) = Ok r /\ ld_dt r = Width 1 /\ ld_mjdref r = 55000 /\ moved 100 [1 # 2; 3 # 2; 5 # 2] (ld_time r).
Proof. eexists. split; [vm_compute; reflexivity|]. split; [reflexivity|]. split; [reflexivity|]. repeat constructor. Qed.

(* ---------- C190: good time intervals of a file ---------- *)
Theorem C190_patterns : forall accepted dets p,
  In p (gti_patterns accepted dets) <-> (In p accepted \/ exists d i x, dets = Some d /\ In i d /\ In x accepted /\ (p = x ++ two_digits i \/ p = x ++ two_digits i ++ ".*")%string).
Proof. exact patterns_in. Qed.
Print Assumptions C190_patterns.
Theorem C190_pattern : forall rx l p i,
  In i (extensions_from_pattern rx l p) <-> exists h, nth_error l i = Some h /\ rx ("^" ++ p ++ "$")%string (fst h) = true.
Proof. exact extensions_in. Qed.
Print Assumptions C190_pattern.
Theorem C190_complete : forall srt uniq rx l accepted dets, sorts_by t_end srt -> removes_duplicates uniq -> (exists i, matching rx l accepted dets i) ->
  (forall i, matching rx l accepted dets i -> exists g, has_gti l i g /\ good g) ->
  exists r, gti_from_all_extensions srt uniq rx l accepted dets = Ok r /\ well_formed r /\ positive_lengths r /\
  forall t, (forall i g, matching rx l accepted dets i -> has_gti l i g -> covered g t) -> covered r t.
Proof. exact extensions_complete. Qed.
Print Assumptions C190_complete.
(* missing: intervals that touch, see C01_touching_refuted *)
Theorem C190_exact_partial : forall srt uniq rx l accepted dets, sorts_by t_end srt -> removes_duplicates uniq -> (exists i, matching rx l accepted dets i) ->
  (forall i, matching rx l accepted dets i -> exists g, has_gti l i g /\ good g) ->
  (forall i j g g', i <> j -> matching rx l accepted dets i -> matching rx l accepted dets j -> has_gti l i g -> has_gti l j g' -> no_touching g g') ->
  exists r, gti_from_all_extensions srt uniq rx l accepted dets = Ok r /\ well_formed r /\ positive_lengths r /\
  forall t, covered r t <-> (forall i g, matching rx l accepted dets i -> has_gti l i g -> covered g t).
Proof. exact extensions_exact. Qed.
Print Assumptions C190_exact_partial.
Theorem C190_none_error : forall srt uniq rx l accepted dets,
  removes_duplicates uniq -> (forall i, ~ matching rx l accepted dets i) -> gti_from_all_extensions srt uniq rx l accepted dets = Err IndexError.
Proof. exact no_extension. Qed.
Print Assumptions C190_none_error.
Theorem C190_own : forall srt uniq rx l s dets,
  read_gtis srt uniq rx l None s dets = Ok (match gti_from_all_extensions srt uniq rx l (split_comma s) dets with Ok g => Some g | Err _ => None end).
Proof. exact read_own. Qed.
Print Assumptions C190_own.
Theorem C190_file : forall srt uniq rx l g s dets,
  read_gtis srt uniq rx l (Some g) s dets = (let! t := extension g s in let! a := field t "START" in let! b := field t "STOP" in Ok (Some (combine a b))).
Proof. exact read_file. Qed.
Print Assumptions C190_file.
Theorem C190_table : forall t a b,
  (forall p, In p t -> fst p = "START"%string -> snd p = a) -> (forall p, In p t -> fst p = "STOP"%string -> snd p = b) -> In "START"%string (map fst t) -> In "STOP"%string (map fst t) -> get_gti_from_hdu t = Ok (combine a b).
Proof. exact hdu_upper. Qed.
Print Assumptions C190_table.
Definition ex_hdus : hdulist := [("PRIMARY"%string, []); ("GTI"%string, [("START"%string, [0; 20]); ("STOP"%string, [10; 30])]); ("STDGTI"%string, [("Start"%string, [5]); ("Stop"%string, [25])])].
Definition ex_rx (p n : string) : bool := String.eqb p ("^" ++ n ++ "$").
(* the intervals of a file of their own are looked for in an extension with the whole list of names *)
Theorem C190_gti_file_refuted : exists l s g, read_gtis (isort_by t_end) (nodup Nat.eq_dec) ex_rx l None s None = Ok (Some g) /\ g <> [] /\ read_gtis (isort_by t_end) (nodup Nat.eq_dec) ex_rx l (Some l) s None = Err KeyError.
Proof. exists ex_hdus, "GTI,STDGTI"%string. eexists. split; [vm_compute; reflexivity|]. split; [discriminate|reflexivity]. Qed.
Print Assumptions C190_gti_file_refuted.
Example C190_nonvacuous : gti_from_all_extensions (isort_by t_end) (nodup Nat.eq_dec) ex_rx ex_hdus ["GTI"; "STDGTI"]%string None = Ok [(5, 10); (20, 25)]
  /\ gti_patterns ["GTI0"]%string (Some [5; 12])%nat = ["GTI0"; "GTI005"; "GTI005.*"; "GTI012"; "GTI012.*"]%string /\ removes_duplicates (nodup Nat.eq_dec).
Proof. split; [vm_compute; reflexivity|]. split; [reflexivity|]. intros l. split; [apply NoDup_nodup|intros x; apply nodup_In]. Qed.

