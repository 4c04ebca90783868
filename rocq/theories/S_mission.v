(* S_mission.v: notation of channels in event files, independent of the code that reads it *)
From Coq Require Import String Ascii.
From Verif Require Import Np M_io.
From Coq Require Import ZArith List Bool.
Import ListNotations.
Open Scope Z_scope.

(* decimal numbers *)
Definition is_digit (c : ascii) : Prop := (48 <= nat_of_ascii c <= 57)%nat.
Fixpoint decimal (s : str) : Z := match s with [] => 0 | c :: s' => (Z.of_nat (nat_of_ascii c) - 48) * 10 ^ Z.of_nat (length s') + decimal s' end.
Definition number (s : str) : Prop := s <> [] /\ Forall is_digit s.
(* groups of channels: one channel, two full numbers, two numbers that share the digits p *)
Inductive group := Single (a : str) | Full (a b : str) | Short (p s t : str).
Definition group_ok (g : group) : Prop :=
  match g with
  | Single a => number a
  | Full a b => number a /\ number b /\ (length a <= length b)%nat
  | Short p s t => Forall is_digit p /\ number s /\ number t /\ length s = length t
  end.
Definition text (sep : ascii) (g : group) : str :=
  match g with Single a => a | Full a b => a ++ [sep] ++ b | Short p s t => (p ++ s) ++ [sep] ++ t end.
Definition meaning (g : group) : Z * Z :=
  match g with Single a => (decimal a, decimal a) | Full a b => (decimal a, decimal b) | Short p s t => (decimal (p ++ s), decimal (p ++ t)) end.
(* words separated by one character *)
Fixpoint join (c : ascii) (l : list str) : str := match l with [] => [] | [w] => w | w :: l' => w ++ [c] ++ join c l' end.
Definition capital (c : ascii) : Prop := (65 <= nat_of_ascii c <= 90)%nat.
(* no comma is followed by a capital letter *)
Definition unbroken (s : str) : Prop := forall a b c, s = a ++ [","%char; c] ++ b -> ~ capital c.
Definition begins_with_capital (s : str) : Prop := exists c r, s = c :: r /\ capital c.
Definition same_case (a b : str) : Prop :=
  length a = length b /\ forall i x y, nth_error a i = Some x -> nth_error b i = Some y ->
    x = y \/ (capital x /\ nat_of_ascii y = nat_of_ascii x + 32)%nat \/ (capital y /\ nat_of_ascii x = nat_of_ascii y + 32)%nat.
