(* M_models.v: model of stingray/simulator/models.py, the shapes of power spectra of the simulator, and of the energy channels of
   stingray/simulator/simulator.py.  Numbers are exact reals; None is nan or infinity. *)
From Coq Require Import String.
From Verif Require Import Np M_exvar.
From Coq Require Import Reals List Bool Arith.
Import ListNotations.
Open Scope R_scope.

(* x ** y.  A negative number has real powers for whole y only: left out, None. *)
Definition npow (x y : R) : option R :=
  if Rlt_dec 0 x then Some (Rpower x y)
  else if Req_EM_T x 0 then (if Rlt_dec 0 y then Some 0 else if Req_EM_T y 0 then Some 1 else None)
  else None.

(* simulator/models.py:34-39 GeneralizedLorentz1D, one frequency *)
Definition lorentz1d (x x_0 fwhm value power_coeff : R) : result (option R) :=
  if Rlt_dec 0 power_coeff then
    Ok (flet a := npow (fwhm / 2) power_coeff in flet b := npow (Rabs (x - x_0)) power_coeff in flet c := npow (fwhm / 2) power_coeff in fdiv (value * a * 1) (b + c))
  else Err AssertionError.
(* simulator/models.py:76-99 generalized_lorentzian, one frequency *)
Definition generalized_lorentzian (x : R) (p : list R) : result (option R) :=
  match p with
  | p0 :: p1 :: p2 :: p3 :: _ =>
      if Rlt_dec 0 p3 then Ok (flet a := npow (p1 / 2) p3 in flet b := npow (Rabs (x - p0)) p3 in flet c := npow (p1 / 2) p3 in fdiv (p2 * a * 1) (b + c))
      else Err AssertionError
  | _ => Err IndexError
  end.
(* simulator/models.py:44-73 SmoothBrokenPowerLaw, one frequency *)
Definition smooth_broken (x norm gamma_low gamma_high break_freq : R) : option R :=
  flet a := npow x (- gamma_low) in flet u := fdiv x break_freq in flet b := npow (1 + u ^ 2) (- (gamma_low - gamma_high) / 2) in fdiv (norm * a) b.
(* simulator/models.py:102-123 smoothbknpo, one frequency *)
Definition smoothbknpo (x : R) (p : list R) : result (option R) :=
  match p with
  | p0 :: p1 :: p2 :: p3 :: _ => Ok (flet a := npow x (- p1) in flet u := fdiv x p3 in flet b := npow (1 + u ^ 2) (- (p1 - p2) / 2) in fdiv (p0 * a) b)
  | _ => Err IndexError
  end.

(* The channels of a simulator: names and light curves in the order of the simulations. *)
Section Channels.
Context {L : Type}.
Definition named (n : string) (c : string * L) : bool := String.eqb (fst c) n.
Definition any_of (l : list string) (c : string * L) : bool := existsb (fun n => String.eqb (fst c) n) l.
(* simulator/simulator.py:173-196 simulate_channel; lc is the outcome of self.simulate of line 193, which is called only for a new name *)
Definition simulate_channel (channels : list (string * L)) (n : string) (lc : result L) : result (list (string * L)) :=
  if existsb (named n) channels then Err KeyError else bind lc (fun l => Ok (channels ++ [(n, l)])).
(* simulator/simulator.py:198-203 get_channel *)
Definition get_channel (channels : list (string * L)) (n : string) : result L :=
  match map snd (filter (named n) channels) with l :: _ => Ok l | [] => Err IndexError end.
(* simulator/simulator.py:205-210 get_channels *)
Definition get_channels (channels : list (string * L)) (l : list string) : list L := map snd (filter (any_of l) channels).
(* simulator/simulator.py:212-217 get_all_channels *)
Definition get_all_channels (channels : list (string * L)) : list L := map snd channels.
(* list.index: the first equal pair.  Pairs with different names differ; with the same name they are the same pair, because names are
   not repeated (lines 192-196). *)
Fixpoint index_of (n : string) (channels : list (string * L)) : nat :=
  match channels with [] => 0%nat | c :: t => if named n c then 0%nat else S (index_of n t) end.
(* del l[i] *)
Definition del (i : nat) (channels : list (string * L)) : list (string * L) := firstn i channels ++ skipn (S i) channels.
(* simulator/simulator.py:219-230 delete_channel *)
Definition delete_channel (channels : list (string * L)) (n : string) : result (list (string * L)) :=
  match filter (named n) channels with [] => Err KeyError | c :: _ => Ok (del (index_of (fst c) channels) channels) end.
(* sorted(indices, reverse=True) of indices in rising order *)
Definition delete_at (indices : list nat) (channels : list (string * L)) : list (string * L) := fold_left (fun c i => del i c) (rev indices) channels.
(* simulator/simulator.py:232-246 delete_channels: the pairs found keep the order of self.channels, so the indices rise *)
Definition delete_channels (channels : list (string * L)) (l : list string) : result (list (string * L)) :=
  let found := filter (any_of l) channels in
  if negb (Nat.eqb (List.length found) (List.length l)) then Err KeyError
  else Ok (delete_at (map (fun c => index_of (fst c) channels) found) channels).
(* simulator/simulator.py:248-253 count_channels *)
Definition count_channels (channels : list (string * L)) : nat := List.length channels.
End Channels.
