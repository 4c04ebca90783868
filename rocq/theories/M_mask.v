(* M_mask.v: the GTI mask stored in a time series, stingray/base.py StingrayTimeseries and stingray/events.py EventList. *)
From Verif Require Import Np Lib M_gti M_seg M_base.
Open Scope Q_scope.

(* stingray/base.py:1184-1229 the attributes of a StingrayTimeseries that the mask depends on, with a scalar
   dt and an array of times; _mask is None in a new object (base.py:1212).  Other array attributes are left out. *)
Record tstate := mkT { t_time : list Q; t_dt : Q; t_gti : option gtis; t_mask : option (list bool) }.
Definition new_series (time : list Q) (dt : Q) (g : option gtis) : tstate := mkT time dt g None.

(* stingray/base.py:1267-1270 the mask that is made if none is stored *)
Definition make_mask (numba : bool) (s : tstate) : result (list bool) :=
  match t_gti s with
  | Some g => let! r := create_gti_mask numba (t_time s) g (0, 0) 0 (Some (t_dt s)) gti_eps in Ok (fst r)
  | None => Ok (map (fun _ => true) (t_time s))
  end.
(* stingray/base.py:1263-1271 reading mask: the stored one, or a new one, which is stored *)
Definition read_mask (numba : bool) (s : tstate) : result (list bool * tstate) :=
  match t_mask s with
  | Some m => Ok (m, s)
  | None => let! m := make_mask numba s in Ok (m, mkT (t_time s) (t_dt s) (t_gti s) (Some m))
  end.
(* stingray/base.py:1242-1252 reading gti: the default is stored, the mask is left alone *)
Definition read_gti (s : tstate) : result (gtis * tstate) :=
  match t_gti s with
  | Some g => Ok (g, s)
  | None => let! a := get (t_time s) 0 in let! b := get_last (t_time s) in
            let g := [(a - t_dt s / 2, b + t_dt s / 2)] in Ok (g, mkT (t_time s) (t_dt s) (Some g) (t_mask s))
  end.
(* stingray/base.py:1254-1261 writing gti *)
Definition write_gti (g : option gtis) (s : tstate) : tstate :=
  match g with
  | None => mkT (t_time s) (t_dt s) None (t_mask s)
  | Some g => mkT (t_time s) (t_dt s) (Some g) None
  end.
(* stingray/base.py:1234-1240, 1277-1285 and 1322-1340 writing an array of times over existing times (None is left out) *)
Definition write_time (v : list Q) (s : tstate) : result tstate :=
  if negb (Nat.eqb (length v) (length (t_time s))) then Err ValueError else Ok (mkT v (t_dt s) (t_gti s) (t_mask s)).
(* dt is a plain attribute *)
Definition write_dt (d : Q) (s : tstate) : tstate := mkT (t_time s) d (t_gti s) (t_mask s).
(* stingray/events.py:452-454 EventList.simulate_times on a list with events; [v] are the simulated times, [g] is lc.gti *)
Definition simulate_into (v : list Q) (g : gtis) (s : tstate) : result tstate :=
  let! s := write_time v s in Ok (mkT (t_time s) (t_dt s) (Some g) (t_mask s)).

(* Operations on one object, one after the other. *)
Inductive op := ReadMask | ReadGti | WriteGti (g : option gtis) | WriteTime (v : list Q) | WriteDt (d : Q) | Simulate (v : list Q) (g : gtis).
Definition step (numba : bool) (s : tstate) (o : op) : result tstate :=
  match o with
  | ReadMask => let! r := read_mask numba s in Ok (snd r)
  | ReadGti => let! r := read_gti s in Ok (snd r)
  | WriteGti g => Ok (write_gti g s)
  | WriteTime v => write_time v s
  | WriteDt d => Ok (write_dt d s)
  | Simulate v g => simulate_into v g s
  end.
Fixpoint run (numba : bool) (os : list op) (s : tstate) : result tstate :=
  match os with [] => Ok s | o :: os => let! s := step numba s o in run numba os s end.
