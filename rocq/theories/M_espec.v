(* M_espec.v: model of the energy specification of stingray/varenergyspectrum.py.  Energies are real numbers. *)
From Coq Require Import Reals.
From Verif Require Import Np.
Open Scope R_scope.

(* np.linspace(a, b, num): numbers i * step + a with step = (b - a) / (num - 1), the last one replaced by b if num > 1 *)
Definition linspace (a b : R) (num : Z) : result (list R) :=
  if (num <? 0)%Z then Err ValueError
  else
    let n := Z.to_nat num in
    let step := (b - a) / INR (n - 1) in
    Ok (map (fun i => if (Nat.ltb 1 n && Nat.eqb (i + 1) n)%bool then b
                      else if Nat.eqb (n - 1) 0 then INR i * (b - a) + a else INR i * step + a) (seq 0 n)).
(* np.log10 of a positive number *)
Definition log10 (x : R) : R := ln x / ln 10.
(* np.logspace(a, b, num) = 10 ** np.linspace(a, b, num) *)
Definition logspace (a b : R) (num : Z) : result (list R) :=
  let! l := linspace a b num in Ok (map (Rpower 10) l).
(* the last entry of the specification, in lower case *)
Inductive spacing := Lin | Log | OtherFlag.
(* varenergyspectrum.py:81-125 _decode_energy_specification.  A four-element specification (e0, e1, n, flag); n is an
   integer.  The logarithm of a non-positive energy (nan in numpy) is not modelled. *)
Definition decode_energy_specification (is_tuple : bool) (e0 e1 : R) (n : Z) (flag : spacing) : result (list R) :=
  if negb is_tuple then Err ValueError
  else match flag with
       | OtherFlag => Err ValueError
       | Log => logspace (log10 e0) (log10 e1) (n + 1)
       | Lin => linspace e0 e1 (n + 1)
       end.
(* varenergyspectrum.py:219, 237 list(zip(energies[0:-1], energies[1:])) *)
Definition energy_intervals (energies : list R) : list (R * R) := combine (removelast energies) (tl energies).
(* varenergyspectrum.py:255-265 energy: np.sum(energy_intervals, axis=1) / 2 *)
Definition interval_energies (intervals : list (R * R)) : list R := map (fun p => (fst p + snd p) / 2) intervals.
