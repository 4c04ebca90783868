(* M_orbit.v: model of the orbital correction from an ephemeris (stingray/pulse/pulsar.py) and of the choice of the method of a
   simulation (stingray/simulator/simulator.py).  Times are exact rationals. *)
From Coq Require Import String.
From Verif Require Import Np Lib M_gti M_seg M_utils M_sim.
From Coq Require Import ZArith QArith List Bool Arith.
Import ListNotations.
Open Scope Q_scope.

(* stingray/pulse/pulsar.py:915-924 get_orbital_correction_from_ephemeris_file: the table that is interpolated.  [delay] is m.delay of
   PINT (library), in seconds; tdbld is the MJD itself (the TOAs are barycentric, in TDB: lines 866-876); ntimes >= 1. *)
Definition orbit_table (delay : Q -> Q) (mjdstart mjdstop : Q) (ntimes : nat) : list Q * list Q :=
  let mjds := even_edges mjdstart mjdstop (ntimes - 1) in
  (mjds, map (fun m => m - delay m / 86400) mjds).
(* stingray/pulse/pulsar.py:926-945 correction_mjd: the corrected times and, when the warning is given, the times it lists.
   interp1d with fill_value "extrapolate" is the interp of M_sim (its interval is clipped, so that the first and last pieces go on). *)
Definition correction_mjd (table : list Q * list Q) (mjds : list Q) : result (list (option Q) * option (list Q)) :=
  let xvals := fst table in
  let! x0 := get xvals 0 in
  let! x1 := get_last xvals in
  let some_above := existsb (fun m => qlt x1 m) mjds in
  let bad := map (fun m => (qlt m x0 || some_above)%bool) mjds in
  Ok (map (interp false xvals (snd table)) mjds, if existsb (fun b => b) bad then Some (select mjds bad) else None).
(* stingray/pulse/pulsar.py:947-963 correction_sec *)
Definition correction_sec (table : list Q * list Q) (times : list Q) (mjdref : Q) : result (list (option Q)) :=
  let! c := correction_mjd table (map (fun t => t / 86400 + mjdref) times) in
  Ok (map (option_map (fun d => (d - mjdref) * 86400)) (fst c)).

(* Arguments of simulate: whole numbers and floats (subclasses of float included); numbers of other types (np.float32); models of
   astropy; texts; arrays and anything else *)
Inductive arg := AInt | AFloat | AOtherNumber | AModel | AText | AArray.
Inductive method := PowerLaw | Model | ModelString | PowerSpectrum | ImpulseResponse.
(* stingray/simulator/simulator.py:152-171 simulate: which method is called, with how many of the arguments *)
Definition simulate_with (args : list arg) : result (method * nat) :=
  match args with
  | [] => Err IndexError
  | a :: _ =>
    let n := List.length args in
    if (match a with AInt | AFloat => true | _ => false end && Nat.eqb n 1)%bool then Ok (PowerLaw, 1%nat)
    else if (match a with AModel => true | _ => false end && Nat.eqb n 1)%bool then Ok (Model, 1%nat)
    else if (match a with AText => true | _ => false end && Nat.eqb n 2)%bool then Ok (ModelString, 2%nat)
    else if Nat.eqb n 1 then Ok (PowerSpectrum, 1%nat)
    else if Nat.eqb n 2 then Ok (ImpulseResponse, 2%nat)
    else if Nat.eqb n 3 then Ok (ImpulseResponse, 3%nat)
    else Err ValueError
  end.
(* np.fft.rfftfreq(nbins, d=dt)[1:] of stingray/simulator/simulator.py:458-459 and 485-486, nbins = red_noise * N *)
Definition simfreq (red_noise n : nat) (dt : Q) : list Q :=
  let nbins := (red_noise * n)%nat in
  map (fun k => inject_Z (Z.of_nat k) / (inject_Z (Z.of_nat nbins) * dt)) (seq 1 (nbins / 2)).
(* The parameters of a model given by name *)
Inductive params (P D : Type) := PList (p : P) | PDict (d : D) | POther.
Arguments PList {P D} p. Arguments PDict {P D} d. Arguments POther {P D}.
(* stingray/simulator/simulator.py:466-500 _simulate_model_string: the spectrum given to _timmerkoenig.  [names] is dir(models);
   [call f x p] is models.f(x, p) and [build f d x] is models.f( ** d)(x). *)
Definition model_string {P D} (names : list string) (call : string -> list Q -> P -> result (list Q)) (build : string -> D -> list Q -> result (list Q))
  (freq : list Q) (model : string) (p : params P D) : result (list Q) :=
  if negb (existsb (String.eqb model) names) then Err ValueError
  else match p with
       | PDict d => build model d freq
       | PList l => call model freq l
       | POther => Err ValueError
       end.
