(* M_tseries.v: model of the conversion of time series to and from astropy.timeseries.TimeSeries (stingray/base.py). *)
From Coq Require Import String Ascii.
From Verif Require Import Np Lib M_io M_object.
From Coq Require Import ZArith QArith List Bool.
Import ListNotations.
Open Scope Q_scope.

(* A StingrayTimeseries: times, reference, array attributes (lists, one column each) and the other meta attributes.  Internal
   attributes and the GTIs (a meta attribute like the others) are not told apart. *)
Record series := mkSeries { s_time : option (list Q); s_mjdref : Q; s_cols : list (str * list Q); s_meta : list (str * Q) }.
(* A TimeSeries: the column of times (Time or TimeDelta objects; None: no such column), the other columns, mjdref in the meta
   dictionary, the rest of the meta dictionary *)
Inductive tcolumn := Absolute (mjds : list Q) | Elapsed (seconds : list Q).
Record atable := mkAtable { a_time : option tcolumn; a_cols : list (str * list Q); a_mjdref : option Q; a_meta : list (str * Q) }.

(* stingray/base.py:137-164 array_attrs: arrays as long as the times; none without times *)
Definition array_columns (s : series) : list (str * list Q) :=
  match s_time s with
  | None => []
  | Some t => filter (fun c => Nat.eqb (List.length (snd c)) (List.length t)) (s_cols s)
  end.
(* stingray/base.py:1428-1464 to_astropy_timeseries; TimeSeries() has no columns *)
Definition to_ts (s : series) : atable :=
  match s_time s with
  | Some (x :: t) => mkAtable (Some (Elapsed (x :: t))) (array_columns s) (Some (s_mjdref s)) (s_meta s)
  | _ => mkAtable None [] (Some (s_mjdref s)) (s_meta s)
  end.
(* stingray/base.py:1466-1505 from_astropy_timeseries; interpret_times with mjdref None subtracts None from the MJDs (2859).  The
   reference that interpret_times finds is dropped: that of the meta dictionary is set (1497-1498), else it is 0.  No entry of
   the meta dictionary is called time or like a property without a setter. *)
Definition from_ts (a : atable) : result series :=
  match a_time a with
  | None => Err KeyError
  | Some c =>
    let! r := match c, a_mjdref a with
              | Absolute _, None => Err TypeError
              | Absolute m, Some ref => interpret_times (TTime (Many m)) ref
              | Elapsed t, _ => Ok (Some (Many t), 0)
              end in
    let! t := set_times 0 (match fst r with Some v => TPlain v | None => TNone end) in
    Ok (mkSeries (match t with Some (Many l) => Some l | _ => None end) (match a_mjdref a with Some ref => ref | None => 0 end) (a_cols a) (a_meta a))
  end.
