(* M_lcchk.v: model of the checks of a light curve, of the negation of objects and light curves, and of the warnings and
   reports on the number of averaged spectra and on unequal arrays (stingray/lightcurve.py, base.py, fourier.py, utils.py). *)
From Coq Require Import String Ascii.
From Verif Require Import Np Lib S_gti M_gti M_seg M_utils M_lc M_base M_io M_mission M_object.
From Coq Require Import ZArith QArith Qabs List Bool.
Import ListNotations.
Open Scope Q_scope.

(* The bin time: one number or one per bin *)
Inductive bin_time := OneDt (d : Q) | ManyDt (l : list Q).
(* stingray/lightcurve.py:542-550, one interval: some of the spacings of time[istart:istop] is not close to dt.
   time.size >= 1 is used for time.size - 1 (an empty array is -1 in the code; there is then nothing to check either). *)
Definition uneven_in (time : list Q) (dt : Q) (iv : Q * Q) : bool :=
  let istart := searchsorted_left time (fst iv) in
  let istop := Nat.min (searchsorted_left time (snd iv)) (length time - 1) in
  existsb (fun d => negb (np_isclose (1 # 100000) (1 # 100000000) d dt)) (diffs (slice time istart istop)).
(* stingray/lightcurve.py:529-558 check_lightcurve: is the warning on unequal bin sizes given?  self.gti is not None. *)
Definition check_lightcurve (time : list Q) (dt : bin_time) (g : gtis) : result bool :=
  let! _ := check_gtis g in
  match dt with ManyDt _ => Ok true | OneDt d => Ok (existsb (uneven_in time d) g) end.

(* attr.endswith("_err") *)
Definition ends_err (n : str) : bool :=
  match rev n with a :: b :: c :: d :: _ => str_eqb [d; c; b; a] (% "_err") | _ => false end.
(* stingray/base.py:337-342 _default_operated_attrs, _default_error_attrs *)
Definition default_operated_attrs (c : cls) (o : obj) : result (list str) :=
  let! l := array_attrs c o in Ok (filter (fun n => negb (ends_err n)) l).
Definition default_error_attrs (c : cls) (o : obj) : result (list str) :=
  let! l := array_attrs c o in Ok (filter ends_err l).
(* -np.asanyarray(value) on arrays of numbers; the arrays listed by array_attrs are of that kind *)
Definition negated (v : value) : value :=
  match v with VArr s d => VArr s (map (option_map Qopp) d) | VNum x => VNum (option_map Qopp x) | _ => v end.
(* stingray/base.py:1023-1037 __neg__ *)
Fixpoint neg_loop (c : cls) (self new : obj) (l : list str) : result obj :=
  match l with
  | [] => Ok new
  | n :: l' => let! v := get_attr self n in neg_loop c self (setattr c new n (negated v)) l'
  end.
Definition obj_neg (c : cls) (o : obj) : result obj :=
  let! l := default_operated_attrs c o in
  neg_loop c o o l.

(* A light curve that is not empty, with what its constructor is told: [l_err] are the errors of the counts (a property;
   self.counts_err computes them), l_rest are the other keywords (mission, instr, header, bg_counts, bg_ratio, frac_exp,
   err_dist, low_memory) and whatever else was attached to the object. *)
Record lcobj := mkLco { l_time : list Q; l_counts : list Q; l_err : list Q; l_gti : option gtis; l_mjdref : Q; l_dt : bin_time;
                        l_rest : list (str * value) }.
(* stingray/lightcurve.py:208-229: the keywords that __neg__ does not give *)
Definition lc_defaults : list (str * value) :=
  [(% "bg_counts", VNone); (% "bg_ratio", VNone); (% "frac_exp", VNone); (% "err_dist", VText (% "poisson"));
   (% "low_memory", VNum (Some 0)); (% "mission", VNone); (% "instr", VNone); (% "header", VNone)].
(* stingray/lightcurve.py:689-716 __neg__ *)
Definition lc_neg (s : lcobj) : lcobj :=
  mkLco (l_time s) (map (fun v => -1 * v) (l_counts s)) (l_err s) (l_gti s) (l_mjdref s) (l_dt s) lc_defaults.

(* stingray/fourier.py:1131-1133: is the warning "n_ave is below 30" given?  np.any(n_ave) is a truth value, compared as 0 or 1. *)
Inductive averages := OneN (n : nat) | ManyN (l : list nat).
Definition np_any (l : list nat) : bool := existsb (fun n => negb (Nat.eqb n 0)) l.
Definition warns_n_ave (n : averages) : bool :=
  match n with OneN n => Nat.ltb n 30 | ManyN l => Nat.ltb (if np_any l then 1 else 0) 30 end.

(* np.allclose(v1, v2, rtol, atol): arrays of one dimension; of different lengths neither of which is 1 it is a ValueError.
   Broadcasting from length 1 is left out (ValueError too). *)
Definition allclose (rtol atol : Q) (v1 v2 : list Q) : result bool :=
  if Nat.eqb (length v1) (length v2) then Ok (forallb (fun p => np_isclose rtol atol (fst p) (snd p)) (combine v1 v2))
  else Err ValueError.
(* np.where(v)[0]: the places of the values that are not 0 *)
Definition where_nonzero (v : list Q) : list nat :=
  map fst (filter (fun p => negb (qeq (snd p) 0)) (combine (seq 0 (length v)) v)).
(* What check_allclose_and_print does: nothing; AssertionError with the values v1[bad], v2[bad] and the two lists of indices of
   the text; another exception (v1 - v2 fails for different lengths). *)
Inductive report := Fine | Differ (values1 values2 : list Q) (places1 places2 : list nat) | Broken (e : exn).
(* stingray/utils.py:1502-1535 check_allclose_and_print *)
Definition check_allclose_and_print (v1 v2 : list Q) (rtol atol : Q) : report :=
  match allclose rtol atol v1 v2 with
  | Ok true => Fine
  | _ =>
    if Nat.eqb (length v1) (length v2) then
      let bad := map (fun p => qle (atol + rtol * Qabs (snd p)) (Qabs (fst p - snd p))) (combine v1 v2) in
      let b1 := select v1 bad in
      let b2 := select v2 bad in
      Differ b1 b2 (where_nonzero b1) (where_nonzero b2)
    else Broken ValueError
  end.
