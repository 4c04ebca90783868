(* P_evload2.v: proofs about the reader of event files, and witnesses. *)
From Coq Require Import String.
From Verif Require Import Np Lib S_gti S_seg S_base M_gti M_seg M_utils M_reader M_fitslc M_evload S_evload P_gti_final P_seg_cut P_fitslc P_fitslc2 P_evload T_base.
From Coq Require Import QArith List Arith ZArith Bool Ascii Permutation Lia Lqa.
Import ListNotations.
Open Scope Q_scope.

(* ---- the header ---- *)
(* The header that tells the mission: the first with one of the keys. *)
Definition tells (h : hdu) : Prop := head_get (hd_head h) "TELESCOP" <> None \/ head_get (hd_head h) "MISSION" <> None.
Lemma tells_iff h : (head_has (hd_head h) "TELESCOP" || head_has (hd_head h) "MISSION")%bool = true <-> tells h.
Proof.
  unfold head_has, tells. rewrite orb_true_iff. destruct (head_get (hd_head h) "TELESCOP"), (head_get (hd_head h) "MISSION"); split; try (intros [H|H]; congruence); intros; try (left; congruence); right; congruence.
Qed.
Lemma probe_first f1 h f2 : tells h -> (forall h', In h' f1 -> ~ tells h') -> probe_header (f1 ++ h :: f2) None = Ok h.
Proof.
  intros T N. unfold probe_header. replace (find _ (f1 ++ h :: f2)) with (Some h); [reflexivity|]. symmetry. induction f1 as [|x f1 IH]; simpl.
  - rewrite (proj2 (tells_iff h) T). reflexivity.
  - destruct (_ || _)%bool eqn:E; [exfalso; apply (N x (or_introl eq_refl)), tells_iff, E|]. apply IH. intros h' H. apply N. right. exact H.
Qed.
Section Header.
Variables (show : Q -> string) (info : string -> string -> option string -> option string -> option string).
Local Notation init := (initialize_header show info).
Lemma none_tells f gtistring : (forall h, In h f -> ~ tells h) -> init f gtistring None = Err UnboundLocalError.
Proof.
  intros N. unfold initialize_header, probe_header. replace (find _ f) with (@None hdu); [reflexivity|]. symmetry. induction f as [|x f IH]; [reflexivity|]. simpl.
  destruct (_ || _)%bool eqn:E; [exfalso; apply (N x (or_introl eq_refl)), tells_iff, E|]. apply IH. intros h' H. apply N. right. exact H.
Qed.
Lemma forced_missing f gtistring n : (forall h, In h f -> ~ same_name (hd_name h) n) -> init f gtistring (Some n) = Err KeyError.
Proof.
  intros N. unfold initialize_header, probe_header. destruct (find_hdu f n) as [h|] eqn:E; [|reflexivity].
  destruct (find_hdu_some _ _ _ E) as (f1 & f2 & -> & S1 & _). exfalso. apply (N h); [apply in_elt|exact S1].
Qed.
Lemma init_inv f gtistring forced r : init f gtistring forced = Ok r ->
  exists probe name, probe_header f forced = Ok probe /\ mission_of (hd_head probe) = Ok (rh_mission r) /\ instrument_mode info (rh_mission r) (hd_head probe) = Ok (rh_instr r, rh_mode r) /\
    chosen f name (rh_hdu r) /\ (forall n, forced = Some n -> name = n) /\ (forced = None -> name = key info (rh_mission r) "events" "EVENTS" (rh_instr r) (rh_mode r)) /\
    rh_gtistr r = (match gtistring with Some s => s | None => key info (rh_mission r) "gti" "GTI,STDGTI" (rh_instr r) (rh_mode r) end) /\
    rh_ephem r = ephemeris show (hd_head (rh_hdu r)) /\ header_number (hd_head (rh_hdu r)) "TIMEZERO" 0 (rh_zero r) /\
    (match rh_start r with Some x => head_get (hd_head (rh_hdu r)) "TSTART" = Some (Num x) | None => head_get (hd_head (rh_hdu r)) "TSTART" = None end) /\
    (match rh_stop r with Some x => head_get (hd_head (rh_hdu r)) "TSTOP" = Some (Num x) | None => head_get (hd_head (rh_hdu r)) "TSTOP" = None end) /\
    rh_time r = key info (rh_mission r) "time" "TIME" (rh_instr r) (rh_mode r) /\ rh_det r = key info (rh_mission r) "ccol" "NONE" (rh_instr r) (rh_mode r) /\
    rh_mjdref r = keyword_read (numbers_of (hd_head (rh_hdu r))) "MJDREF" /\
    rh_pi r = search_name (key info (rh_mission r) "ecol" "PI" (rh_instr r) (rh_mode r)) (map fst (hd_cols (rh_hdu r))) /\
    rh_energy r = search_name "energy" (map fst (hd_cols (rh_hdu r))) /\
    low_text (hd_head (rh_hdu r)) "TIMEREF" = Ok (rh_timeref r) /\ low_text (hd_head (rh_hdu r)) "TIMESYS" = Ok (rh_timesys r).
Proof.
  unfold initialize_header. intros H. step_ok H. rename v into probe. step_ok H. rename v into m. step_ok H. destruct v as [instr mode].
  step_ok H. rename v into h. repeat step_ok H. injection H as <-. cbn [rh_mission rh_instr rh_mode rh_gtistr rh_hdu rh_ephem rh_timeref rh_timesys rh_zero rh_start rh_stop rh_time rh_det rh_mjdref rh_pi rh_energy].
  exists probe, (match forced with Some n => n | None => key info m "events" "EVENTS" instr mode end).
  split; [reflexivity|]. split; [assumption|]. split; [assumption|]. split; [apply events_chosen; assumption|]. split; [intros n ->; reflexivity|]. split; [intros ->; reflexivity|].
  split; [reflexivity|]. split; [reflexivity|]. split; [apply num_or_ok; assumption|]. split; [apply num_or_some; assumption|]. split; [apply num_or_some; assumption|].
  repeat (split; [reflexivity|]). split; assumption.
Qed.
End Header.

(* ---- the intervals ---- *)
Lemma detectors_ignored srt uniq setnum rx f r gti_file d d' : has_name (hd_cols (rh_hdu r)) (rh_det r) = true ->
  reader_gtis srt uniq setnum rx f r gti_file d = reader_gtis srt uniq setnum rx f r gti_file d'.
Proof. intros H. unfold reader_gtis. rewrite H. reflexivity. Qed.
Lemma detectors_given srt uniq setnum rx f r gti_file d : has_name (hd_cols (rh_hdu r)) (rh_det r) = false ->
  reader_gtis srt uniq setnum rx f r gti_file d = read_gtis srt uniq rx (as_hdulist f) gti_file (rh_gtistr r) d.
Proof. intros H. unfold reader_gtis. rewrite H. reflexivity. Qed.
Lemma detectors_first srt uniq setnum rx f r gti_file d v : has_name (hd_cols (rh_hdu r)) (rh_det r) = true -> field (hd_cols (rh_hdu r)) (rh_det r) = Ok v ->
  reader_gtis srt uniq setnum rx f r gti_file d = read_gtis srt uniq rx (as_hdulist f) gti_file (rh_gtistr r) (Some (setnum (firstn 100 v))).
Proof. intros H E. unfold reader_gtis. rewrite H, E. reflexivity. Qed.

(* ---- slices ---- *)
Section Slice.
Variable rough : string -> option string -> option Q -> list Q -> option (list Q) -> result (option (list Q)).
Lemma slice_energy r t raw s e v : field t (rh_time r) = Ok raw -> rh_start r = Some s -> rh_energy r = Some e -> field t e = Ok v ->
  exists sl, transform_slice rough r t = Ok sl /\ sl_time sl = map (fun x => x + rh_zero r) raw /\ sl_pi sl = None /\ sl_energy sl = Some (map (fun x => x * hd_kev (rh_hdu r)) v) /\
    sl_start sl = Some (s + rh_zero r) /\ sl_stop sl = option_map (fun x => x + rh_zero r) (rh_stop r).
Proof. intros A B C D. unfold transform_slice. rewrite A. cbn [bind]. rewrite B. cbn [bind]. rewrite C, D. cbn [bind]. eexists. split; [reflexivity|]. simpl. auto 10. Qed.
Lemma slice_pi r t raw s c pi en : field t (rh_time r) = Ok raw -> rh_start r = Some s -> rh_energy r = None -> rh_pi r = Some c -> field t c = Ok pi ->
  rough (rh_mission r) (rh_instr r) (option_map (fun m => s / 86400 + m) (rh_mjdref r)) pi None = Ok en ->
  exists sl, transform_slice rough r t = Ok sl /\ sl_time sl = map (fun x => x + rh_zero r) raw /\ sl_pi sl = Some pi /\ sl_energy sl = en /\
    sl_start sl = Some (s + rh_zero r) /\ sl_stop sl = option_map (fun x => x + rh_zero r) (rh_stop r).
Proof. intros A B C D E F. unfold transform_slice. rewrite A. cbn [bind]. rewrite B. cbn [bind]. rewrite C, D, E. cbn [bind]. rewrite F. cbn [bind]. eexists. split; [reflexivity|]. simpl. auto 10. Qed.
Lemma slice_no_start r t raw : field t (rh_time r) = Ok raw -> rh_start r = None -> transform_slice rough r t = Err TypeError.
Proof. intros A B. unfold transform_slice. rewrite A. cbn [bind]. rewrite B. reflexivity. Qed.
Lemma slice_no_pi r t raw s : field t (rh_time r) = Ok raw -> rh_start r = Some s -> rh_energy r = None -> rh_pi r = None -> transform_slice rough r t = Err AttributeError.
Proof. intros A B C D. unfold transform_slice. rewrite A. cbn [bind]. rewrite B. cbn [bind]. rewrite C, D. reflexivity. Qed.
End Slice.

(* ---- witnesses ---- *)
Definition w_show (q : Q) : string := "200".
Definition w_set (l : list Q) : list nat := nodup Nat.eq_dec (map (fun q => Z.to_nat (Qnum q)) l).
Definition w_info (m k : string) (i md : option string) : option string := if String.eqb k "ccol" then Some "CCDNR"%string else None.
Definition w_rough (m : string) (i : option string) (e : option Q) (pi : list Q) (d : option (list Q)) : result (option (list Q)) := Ok None.
Definition w_rx (p n : string) : bool := String.eqb p ("^" ++ n ++ "$").
Definition w_primary (h : header) : hdu := mkHdu "PRIMARY" (("TELESCOP"%string, Txt "TEST") :: h) [] 1.
Definition w_instr : header := [("INSTRUME", Txt "A ")]%string.
Definition w_gtis : hdu := mkHdu "GTI" [] [("START", [0]); ("STOP", [10])]%string 1.
Definition w_load (argsort : list Q -> list nat) := load_events w_show argsort (isort_by t_end) (nodup Nat.eq_dec) w_set w_rx w_info w_rough.
Definition w_events (h : header) (t : table Q) : hdu := mkHdu "EVENTS" h t 1.
Definition w_file (h : header) (t : table Q) : list hdu := [w_primary w_instr; w_events h t; w_gtis].
(* Events and intervals of the same file do not agree: TIMEZERO is added to the times of the events only. *)
Lemma timezero_refuted : forall argsort, exists raw g r,
  w_load argsort (w_file [("TIMEZERO", Num 100); ("TSTART", Num 0); ("TSTOP", Num 10)]%string [("TIME", raw); ("PI", [7; 8])]%string) None None None None None = Ok r /\
  er_gti r = g /\ (forall t, In t raw -> exists a b, In (a, b) g /\ a <= t <= b) /\ (forall t, In t (er_ev r) -> ~ exists a b, In (a, b) g /\ a <= t <= b) /\
  er_start r = 0 /\ er_stop r = 10.
Proof.
  intros argsort. exists [1; 2], [(0, 10)]. eexists. split; [vm_compute; reflexivity|]. split; [reflexivity|]. split; [|split; [|split; reflexivity]].
  - intros t [<-|[<-|[]]]; exists 0, 10; (split; [left; reflexivity|]); lra.
  - intros t [<-|[<-|[]]] (a & b & [H|[]] & H1 & H2); injection H as <- <-; lra.
Qed.
(* Times that are not in order: the limits are those of the first and the last row, and the default intervals are reversed. *)
Lemma start_refuted : exists argsort raw r, is_argsort argsort /\
  w_load argsort [w_primary w_instr; w_events [] [("TIME", raw); ("PI", [7; 8])]%string] None None None None None = Ok r /\
  er_ev r = [2 + 0; 5 + 0] /\ er_pi r = [8; 7] /\ er_gti r = [(er_start r, er_stop r)] /\ er_stop r < er_start r.
Proof. exists ex_argsort, [5; 2]. eexists. split; [exact C56_argsort_exists|]. split; [vm_compute; reflexivity|]. repeat split. Qed.
(* A column that is missing is made of zeros, and the energies that nobody asked for are there. *)
Lemma missing_refuted : forall argsort, exists r,
  w_load argsort (w_file [] [("TIME", [1; 2])]%string) (Some ["X"]%string) None None None None = Ok r /\ er_pi r = [0; 0] /\
  get_key (er_data r) "X" = Ok [0; 0] /\ get_key (er_data r) "energy" = Ok [0; 0] /\ er_energy r = None /\ er_columns r = Some ["X"; "PI"]%string.
Proof. intros argsort. eexists. split; [vm_compute; reflexivity|]. repeat split. Qed.
Lemma ephemeris_refuted : ephemeris w_show [("PLEPHEM", Txt "LE405")]%string = Some "e405"%string /\ ephemeris w_show [("PLEPHEM", Txt " JPL-DE200 ")]%string = Some "de200"%string.
Proof. split; reflexivity. Qed.
(* A file without an instrument: nothing by load_events_and_gtis, but the reader takes it. *)
Lemma instrument_refuted : forall argsort,
  let f := [w_primary []; w_events [("TSTART", Num 0)]%string [("TIME", [1; 2]); ("PI", [7; 8])]%string; w_gtis] in
  w_load argsort f None None None None None = Err AttributeError /\ exists r, initialize_header w_show w_info f None None = Ok r /\ rh_instr r = None.
Proof. intros argsort f. split; [vm_compute; reflexivity|]. eexists. split; [vm_compute; reflexivity|]. reflexivity. Qed.
(* A file without TSTART, or without channels: nothing by the reader, but load_events_and_gtis takes it. *)
Lemma no_start_refuted : forall argsort,
  let t := [("TIME", [1; 2]); ("PI", [7; 8])]%string in
  (exists r, w_load argsort (w_file [] t) None None None None None = Ok r /\ er_start r = 1) /\
  exists r, initialize_header w_show w_info (w_file [] t) None None = Ok r /\ transform_slice w_rough r t = Err TypeError.
Proof. intros argsort t. split; eexists; (split; [vm_compute; reflexivity|]); reflexivity. Qed.
Lemma no_pi_refuted : forall argsort,
  let t := [("TIME", [1; 2])]%string in
  (exists r, w_load argsort (w_file [("TSTART", Num 0)]%string t) None None None None None = Ok r) /\
  exists r, initialize_header w_show w_info (w_file [("TSTART", Num 0)]%string t) None None = Ok r /\ transform_slice w_rough r t = Err AttributeError.
Proof. intros argsort t. split; eexists; [vm_compute; reflexivity|]; (split; [vm_compute; reflexivity|]); reflexivity. Qed.
(* An extension that is asked for and missing: the first one is not tried by the reader. *)
Lemma forced_refuted : forall argsort,
  let f := w_file [("TSTART", Num 0)]%string [("TIME", [1; 2]); ("PI", [7; 8])]%string in
  initialize_header w_show w_info f None (Some "XEVENTS"%string) = Err KeyError /\ exists r, w_load argsort f None None None (Some "XEVENTS"%string) None = Ok r /\ er_ev r = [1 + 0; 2 + 0].
Proof. intros argsort f. split; [vm_compute; reflexivity|]. eexists. split; [vm_compute; reflexivity|]. reflexivity. Qed.
(* A detector that is not in the first hundred rows: its intervals are not used, even when its number is given. *)
Definition w_ccd : list hdu :=
  [w_primary w_instr; w_events [("TSTART", Num 0)]%string [("TIME"%string, repeat 1 100 ++ [2]); ("PI"%string, repeat 7 101); ("CCDNR"%string, repeat 1 100 ++ [2])];
   mkHdu "GTI01" [] [("START", [0]); ("STOP", [10])]%string 1; mkHdu "GTI02" [] [("START", [5]); ("STOP", [20])]%string 1].
Lemma detectors_refuted : exists r, initialize_header w_show w_info w_ccd None None = Ok r /\
  reader_gtis (isort_by t_end) (nodup Nat.eq_dec) w_set w_rx w_ccd r None (Some [1; 2]%nat) = Ok (Some [(0, 10)]) /\
  read_gtis (isort_by t_end) (nodup Nat.eq_dec) w_rx (as_hdulist w_ccd) None (rh_gtistr r) (Some [1; 2]%nat) = Ok (Some [(5, 10)]).
Proof. eexists. split; [vm_compute; reflexivity|]. split; vm_compute; reflexivity. Qed.
