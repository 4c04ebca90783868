(* T_lctab.v: property theorems about the conversion of light curves (C218, C219). *)
From Coq Require Import String.
From Verif Require Import Np Lib M_gti M_seg M_lc M_lctab S_lctab P_lctab.
From Coq Require Import ZArith QArith List Bool Arith Lia Lqa.
Import ListNotations.
Open Scope Q_scope.
Theorem C218_round_trip : forall (lower : string -> string) (mask_of : option gtis -> list Q -> list bool) (f : lcfull) (d : string), valid_dist lower (f_dist f) = true
  -> has_values (f_st f) (List.length (st_time (f_st f))) -> exists g : lcfull, snd (from_table lower mask_of (to_table f) d) = Ok (g, if st_meancounts (f_st f) then
  ["meancounts"%string] else []) /\ same_frame f g /\ snd (get_counts (f_st g)) = snd (get_counts (f_st f)) /\ st_input_counts (f_st g) = (if st_counts (f_st f) then true
  else false).
Proof. exact @round_frame. Qed.
Print Assumptions C218_round_trip.
Theorem C218_rates : forall (lower : string -> string) (mask_of : option gtis -> list Q -> list bool) (f : lcfull) (d : string) (g : lcfull) (l : list string), valid_dist
  lower (f_dist f) = true -> has_values (f_st f) (List.length (st_time (f_st f))) -> agree (f_st f) -> snd (from_table lower mask_of (to_table f) d) = Ok (g, l) -> qlist_eq
  (snd (get_countrate (f_st g))) (snd (get_countrate (f_st f))).
Proof. exact @round_rate. Qed.
Print Assumptions C218_rates.
Theorem C218_errors_partial : forall (lower : string -> string) (mask_of : option gtis -> list Q -> list bool) (perr : list Q -> list Q) (f : lcfull) (d : string) (g :
  lcfull) (l : list string), valid_dist lower (f_dist f) = true -> has_values (f_st f) (List.length (st_time (f_st f))) -> st_poisson (f_st f) = (lower (f_dist f) =?
  "poisson")%string -> errors_match (f_st f) -> snd (from_table lower mask_of (to_table f) d) = Ok (g, l) -> snd (get_counts_err perr (f_st g)) = snd (get_counts_err perr
  (f_st f)).
Proof. exact @round_err. Qed.
Print Assumptions C218_errors_partial.
Theorem C218_other_errors : forall (lower : string -> string) (mask_of : option gtis -> list Q -> list bool) (perr : list Q -> list Q) (f : lcfull) (d : string) (g :
  lcfull) (l : list string) (e : list Q), valid_dist lower (f_dist f) = true -> has_values (f_st f) (List.length (st_time (f_st f))) -> snd (from_table lower mask_of
  (to_table f) d) = Ok (g, l) -> (st_counts (f_st f) <> None -> st_counts_err (f_st f) = None -> st_rate_err (f_st f) = Some e -> snd (get_counts_err perr (f_st f)) = Ok
  (map (fun x : Q => x * st_dt (f_st f)) e) /\ snd (get_counts_err perr (f_st g)) = Ok e) /\ (st_counts (f_st f) = None -> st_counts_err (f_st f) = Some e -> snd
  (get_counts_err perr (f_st f)) = Ok e /\ snd (get_counts_err perr (f_st g)) = Ok (map (fun x : Q => x * st_dt (f_st f)) e)).
Proof. exact @round_err_other. Qed.
Print Assumptions C218_other_errors.
Theorem C218_no_values_error : forall (lower : string -> string) (mask_of : option gtis -> list Q -> list bool) (t : table) (d : string), t_counts t = None -> t_rate t =
  None -> from_table lower mask_of t d = (t, Err ValueError).
Proof. exact @no_values. Qed.
Print Assumptions C218_no_values_error.
Theorem C218_table_kept : forall (lower : string -> string) (mask_of : option gtis -> list Q -> list bool) (t : table) (d : string), let t' := fst (from_table lower
  mask_of t d) in t_time t' = t_time t /\ t_counts t' = t_counts t /\ t_counts_err t' = t_counts_err t /\ t_rate t' = t_rate t /\ t_rate_err t' = t_rate_err t /\ t_bin_lo
  t' = t_bin_lo t /\ t_bin_hi t' = t_bin_hi t /\ (forall k : string, ~ In k ["time"%string; "counts"%string; "err"%string; "input_counts"%string; "skip_checks"%string;
  "err_dist"%string] -> look k (t_meta t') = look k (t_meta t)) /\ (forall v : mval, look "err_dist" (t_meta t) = Some v -> look "err_dist" (t_meta t') = Some v).
Proof. exact @read_table. Qed.
Print Assumptions C218_table_kept.
Theorem C218_table_marked : forall (lower : string -> string) (mask_of : option gtis -> list Q -> list bool) (t : table) (d : string), t_counts t <> None \/ t_rate t <>
  None -> let t' := fst (from_table lower mask_of t d) in look "time" (t_meta t') = Some (VArr (t_time t)) /\ look "skip_checks" (t_meta t') = Some (VBool true) /\ (look
  "err_dist" (t_meta t) = None -> look "err_dist" (t_meta t') = Some (VText d)).
Proof. exact @read_marks. Qed.
Print Assumptions C218_table_marked.
Theorem C218_read_again : forall (lower : string -> string) (mask_of : option gtis -> list Q -> list bool) (t : table) (d : string), from_table lower mask_of (fst
  (from_table lower mask_of t d)) d = from_table lower mask_of t d.
Proof. exact @read_again. Qed.
Print Assumptions C218_read_again.
(* a light curve of rates with errors, as Lightcurve(..., input_counts=False, err=...) makes it *)
Definition rates_lc : lcfull := mkFull (mkSt [1; 3] 2 [true; true] false true false None None (Some [5; 7]) (Some [1; 1]) None None None None) None 0 None None "poisson"%string.
(* looking at lc.counts before the conversion is enough to lose the errors *)
Theorem C218_errors_refuted : exists f s g l, s = fst (get_counts (f_st f)) /\ snd (get_counts_err (fun c => c) (f_st f)) = Ok [1 * 2; 1 * 2] /\
  snd (get_counts_err (fun c => c) s) = Ok [1 * 2; 1 * 2] /\
  snd (from_table (fun x => x) (fun _ t => map (fun _ => true) t) (to_table (mkFull s (f_gti f) (f_mjdref f) (f_instr f) (f_mission f) (f_dist f))) "poisson") = Ok (g, l) /\
  snd (get_counts_err (fun c => c) (f_st g)) = Ok [1; 1].
Proof. exists rates_lc. do 3 eexists. split; [reflexivity|]. split; [reflexivity|]. split; [reflexivity|]. split; [vm_compute; reflexivity|]. reflexivity. Qed.
Print Assumptions C218_errors_refuted.
(* the table that is read changes, and keeps the err_dist of the first reading *)
Theorem C218_table_refuted : exists t g l, fst (from_table (fun x => x) (fun _ t => map (fun _ => true) t) t "gauss") <> t /\
  snd (from_table (fun x => x) (fun _ t => map (fun _ => true) t) (fst (from_table (fun x => x) (fun _ t => map (fun _ => true) t) t "gauss")) "poisson") = Ok (g, l) /\
  f_dist g = "gauss"%string.
Proof.
  exists (mkTable [1; 3] (Some [5; 7]) None None None None None []). do 2 eexists. split; [vm_compute; discriminate|]. split; [vm_compute; reflexivity|]. reflexivity.
Qed.
Print Assumptions C218_table_refuted.
Example C218_example : valid_dist (fun x => x) (f_dist rates_lc) = true /\ has_values (f_st rates_lc) (List.length (st_time (f_st rates_lc))) /\ agree (f_st rates_lc) /\
  st_poisson (f_st rates_lc) = String.eqb (f_dist rates_lc) "poisson" /\ errors_match (f_st rates_lc) /\
  ~ errors_match (fst (get_counts (f_st rates_lc))) /\
  exists g, snd (from_table (fun x => x) (fun _ t => map (fun _ => true) t) (to_table rates_lc) "gauss") = Ok (g, []) /\ snd (get_counts (f_st g)) = Some [5 * 2; 7 * 2] /\
  snd (get_counts_err (fun c => c) (f_st g)) = Ok [1 * 2; 1 * 2] /\ f_dist g = "poisson"%string.
Proof.
  split; [reflexivity|]. split; [reflexivity|]. split; [intros c r E; discriminate|]. split; [reflexivity|]. split; [reflexivity|].
  split; [intros [H|H]; [apply H; reflexivity|discriminate]|]. eexists. split; [vm_compute; reflexivity|]. split; [reflexivity|]. split; reflexivity.
Qed.
Theorem C219_to : forall (perr : list Q -> list Q) (f : lcfull) (c e : list Q), snd (get_counts (f_st f)) = Some c -> snd (get_counts_err perr (fst (get_counts (f_st
  f)))) = Ok e -> to_lightkurve perr f = Ok {| k_mjd := map (fun t : Q => t / 86400 + f_mjdref f) (st_time (f_st f)); k_flux := c; k_flux_err := e |}.
Proof. exact @lk_out. Qed.
Print Assumptions C219_to.
Theorem C219_from : forall (lower : string -> string) (mask_of : option gtis -> list Q -> list bool) (k : lkurve) (g : lcfull), from_lightkurve lower mask_of k = Ok g ->
  List.length (st_time (f_st g)) = List.length (k_mjd k) /\ (forall (i : nat) (m : Q), nth_error (k_mjd k) i = Some m -> exists t : Q, nth_error (st_time (f_st g)) i = Some
  t /\ t / 86400 + f_mjdref g == m) /\ snd (get_countrate (f_st g)) = Some (k_flux k) /\ snd (get_counts (f_st g)) = Some (map (fun x : Q => x * st_dt (f_st g)) (k_flux k))
  /\ snd (get_countrate_err (f_st g)) = k_flux_err k /\ f_gti g = None /\ (f_mjdref g = 0 \/ get (k_mjd k) 0 = Ok (f_mjdref g)).
Proof. exact @lk_in. Qed.
Print Assumptions C219_from.
Theorem C219_round_trip_partial : forall (lower : string -> string) (mask_of : option gtis -> list Q -> list bool) (perr : list Q -> list Q) (f : lcfull) (k : lkurve) (g
  : lcfull) (c : list Q), to_lightkurve perr f = Ok k -> from_lightkurve lower mask_of k = Ok g -> snd (get_counts (f_st f)) = Some c -> (forall (i : nat) (t : Q),
  nth_error (st_time (f_st f)) i = Some t -> exists t' : Q, nth_error (st_time (f_st g)) i = Some t' /\ t' / 86400 + f_mjdref g == t / 86400 + f_mjdref f) /\ snd
  (get_countrate (f_st g)) = Some c.
Proof. exact @lk_round. Qed.
Print Assumptions C219_round_trip_partial.
(* counts come back as rates: the counts are multiplied by dt *)
Theorem C219_round_trip_refuted : exists f k g, to_lightkurve (fun c => c) f = Ok k /\ from_lightkurve (fun x => x) (fun _ t => map (fun _ => true) t) k = Ok g /\
  snd (get_counts (f_st f)) = Some [5; 7; 9] /\ match snd (get_counts (f_st g)) with Some [a; b; c] => a == 10 /\ b == 14 /\ c == 18 | _ => False end /\
  f_gti f = Some [(0, 6)] /\ f_gti g = None.
Proof.
  exists (mkFull (mkSt [1; 3; 5] 2 [true; true; true] false true true (Some [5; 7; 9]) None None None None None None None) (Some [(0, 6)]) 0 None None "poisson"%string).
  do 2 eexists. split; [vm_compute; reflexivity|]. split; [vm_compute; reflexivity|]. split; [reflexivity|]. split; [vm_compute; repeat split|]. split; reflexivity.
Qed.
Print Assumptions C219_round_trip_refuted.
Example C219_example : exists k g, to_lightkurve (fun c => c) rates_lc = Ok k /\ from_lightkurve (fun x => x) (fun _ t => map (fun _ => true) t) k = Ok g /\ List.length (k_mjd k) = 2%nat /\
  snd (get_countrate (f_st g)) = Some [5 * 2; 7 * 2] /\ k_flux_err k = [1 * 2; 1 * 2].
Proof. do 2 eexists. split; [vm_compute; reflexivity|]. split; [vm_compute; reflexivity|]. split; [reflexivity|]. split; reflexivity. Qed.
Theorem C218_constructor_error : forall (lower : string -> string) (mask_of : option gtis -> list Q -> list bool) (time counts : list Q) (err : option (list Q)) (ic :
  bool) (gti : option gtis) (dist : string) (ref : Q) (dt : option Q) (mission instr : option string), lc_init lower mask_of time counts err ic gti dist ref dt mission
  instr = Err StingrayError <-> List.length time <> List.length counts \/ lower dist <> "poisson"%string /\ lower dist <> "gauss"%string.
Proof. exact @init_errors. Qed.
Print Assumptions C218_constructor_error.
Theorem C218_constructor : forall (lower : string -> string) (mask_of : option gtis -> list Q -> list bool) (time counts : list Q) (err : option (list Q)) (ic : bool)
  (gti : option gtis) (dist : string) (ref : Q) (dt : option Q) (mission instr : option string) (g : lcfull), lc_init lower mask_of time counts err ic gti dist ref dt
  mission instr = Ok g -> st_time (f_st g) = time /\ f_gti g = gti /\ st_mask (f_st g) = mask_of gti time /\ f_mjdref g = ref /\ f_mission g = mission /\ f_instr g = instr
  /\ f_dist g = dist /\ (forall d : Q, dt = Some d -> st_dt (f_st g) = d) /\ (forall t : Q, dt = None -> time = [t] -> st_dt (f_st g) = 1) /\ (forall d : Q, dt = None ->
  median (diffs time) = Some d -> st_dt (f_st g) = d) /\ (ic = true -> st_counts (f_st g) = Some counts /\ st_counts_err (f_st g) = err /\ st_rate (f_st g) = None /\
  st_rate_err (f_st g) = None) /\ (ic = false -> st_rate (f_st g) = Some counts /\ st_rate_err (f_st g) = err /\ st_counts (f_st g) = None /\ st_counts_err (f_st g) =
  None).
Proof. exact @init_ok. Qed.
Print Assumptions C218_constructor.
Theorem C218_table_values : forall (lower : string -> string) (mask_of : option gtis -> list Q -> list bool) (t : table) (d : string) (c : list Q), t_counts t = Some c \/
  t_counts t = None /\ t_rate t = Some c -> look "counts" (t_meta (fst (from_table lower mask_of t d))) = Some (VArr c) /\ look "input_counts" (t_meta (fst (from_table
  lower mask_of t d))) = Some (VBool (if t_counts t then true else false)).
Proof. exact @read_values. Qed.
Print Assumptions C218_table_values.
Theorem C218_default_statistic : forall (lower : string -> string) (mask_of : option gtis -> list Q -> list bool) (t : table) (d : string) (g : lcfull) (l : list string),
  look "err_dist" (t_meta t) = None -> snd (from_table lower mask_of t d) = Ok (g, l) -> f_dist g = d.
Proof. exact @read_default. Qed.
Print Assumptions C218_default_statistic.
Theorem C219_empty_error : forall (perr : list Q -> list Q) (f : lcfull), st_counts (f_st f) = None -> st_rate (f_st f) = None -> to_lightkurve perr f = Err TypeError.
Proof. exact @lk_empty. Qed.
Print Assumptions C219_empty_error.
Theorem C219_reference : forall (lower : string -> string) (mask_of : option gtis -> list Q -> list bool) (k : lkurve) (g : lcfull) (m : Q), from_lightkurve lower mask_of
  k = Ok g -> nth_error (k_mjd k) 0 = Some m -> ((forall x : Q, In x (k_mjd k) -> 10000 < x) -> f_mjdref g = m) /\ ((exists x : Q, In x (k_mjd k) /\ x <= 10000) -> f_mjdref
  g = 0).
Proof. exact @lk_reference. Qed.
Print Assumptions C219_reference.
