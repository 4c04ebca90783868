(* T_fitslc2.v: theorems about the names of columns, extensions and detectors in FITS files, io.py and gti.py. *)
From Coq Require Import String Decimal DecimalString.
From Verif Require Import Np Lib S_gti S_seg M_gti M_seg M_reader M_fitslc S_fitslc P_fitslc P_fitslc2.
From Coq Require Import QArith List Arith ZArith Bool Ascii Permutation Lia Lqa.
Import ListNotations.
Open Scope Q_scope.

(* ---------- C188: names of columns ---------- *)
Theorem C188_alphabet : lower "ABCDEFGHIJKLMNOPQRSTUVWXYZ" = "abcdefghijklmnopqrstuvwxyz"%string /\ lower "abcdefghijklmnopqrstuvwxyz0123456789_-@[`{" =
  "abcdefghijklmnopqrstuvwxyz0123456789_-@[`{"%string.
Proof. exact @alphabet. Qed.
Print Assumptions C188_alphabet.
Theorem C188_field_case : forall (A : Type) (t1 t2 : table A) (n : string) (v : list A) (name : string), (forall (m : string) (w : list A), In (m, w) (t1 ++ (n, v) :: t2)
  -> m <> name) -> same_but_case n name -> (forall (m : string) (w : list A), In (m, w) (t1 ++ t2) -> ~ same_but_case m name) -> field (t1 ++ (n, v) :: t2) name = Ok v.
Proof. exact @field_case. Qed.
Print Assumptions C188_field_case.
Theorem C188_field_ambiguous_error : forall (A : Type) (t1 t2 t3 : table A) (n : string) (v : list A) (m : string) (w : list A) (name : string), (forall (k : string) (u :
  list A), In (k, u) (t1 ++ (n, v) :: t2 ++ (m, w) :: t3) -> k <> name) -> same_but_case n name -> same_but_case m name -> field (t1 ++ (n, v) :: t2 ++ (m, w) :: t3) name =
  Err KeyError.
Proof. exact @field_ambiguous. Qed.
Print Assumptions C188_field_ambiguous_error.
Theorem C188_field_missing_error : forall (A : Type) (t : table A) (name : string), (forall (m : string) (w : list A), In (m, w) t -> ~ same_but_case m name) -> field t
  name = Err KeyError.
Proof. exact @field_missing. Qed.
Print Assumptions C188_field_missing_error.
Theorem C188_gti_columns : forall (t : table Q) (time : list Q) (good : list bool) (e : exn), field t "START" = Err e \/ field t "STOP" = Err e -> lc_gti (Some t) time
  good = lc_gti None time good.
Proof. exact @gti_columns. Qed.
Print Assumptions C188_gti_columns.
Theorem C188_no_unit_error : forall (tc : string) (rc : option string) (limit : Q) (f : lcfile), lf_unit f = None -> lcurve_from_fits tc rc limit f = Err KeyError.
Proof. exact @no_unit. Qed.
Print Assumptions C188_no_unit_error.
Example C188_names_nonvacuous : field [("Rate", [1]); ("Time", [2])]%string "RATE" = Ok [1] /\ field [("Rate", [1]); ("rate", [2])]%string "RATE" = Err KeyError /\
  field [("Rate", [1]); ("RATE", [2])]%string "RATE" = Ok [2].
Proof. repeat split; reflexivity. Qed.

(* ---------- C190: names of extensions and detectors ---------- *)
Theorem C190_extension : forall (l1 l2 : list (string * table Q)) (n : string) (t : table Q) (name : string), same_but_case n name -> (forall (m : string) (u : table Q),
  In (m, u) l1 -> ~ same_but_case m name) -> extension (l1 ++ (n, t) :: l2) name = Ok t.
Proof. exact @extension_first. Qed.
Print Assumptions C190_extension.
Theorem C190_extension_error : forall (l : list (string * table Q)) (name : string), (forall (m : string) (u : table Q), In (m, u) l -> ~ same_but_case m name) ->
  extension l name = Err KeyError.
Proof. exact @extension_missing. Qed.
Print Assumptions C190_extension_error.
Theorem C190_load_default : forall (l1 l2 : list (string * table Q)) (n : string) (t : table Q) (a b : list Q), same_but_case n "GTI" -> (forall (m : string) (u : table
  Q), In (m, u) l1 -> ~ same_but_case m "GTI") -> field t "START" = Ok a -> field t "STOP" = Ok b -> load_gtis (l1 ++ (n, t) :: l2) None = Ok (combine a b).
Proof. exact @load_default. Qed.
Print Assumptions C190_load_default.
Theorem C190_load_error : forall (l : list (string * table Q)) (name : string), (forall (m : string) (u : table Q), In (m, u) l -> ~ same_but_case m name) -> load_gtis l
  (Some name) = Err KeyError.
Proof. exact @load_missing. Qed.
Print Assumptions C190_load_error.
Theorem C190_two_digits : forall i : nat, (i < 100)%nat -> two_digits i = String (ascii_of_nat (48 + i / 10)) (String (ascii_of_nat (48 + i mod 10)) "").
Proof. exact @small_digits. Qed.
Print Assumptions C190_two_digits.
Theorem C190_digits : forall i : nat, exists u : uint, NilEmpty.uint_of_string (two_digits i) = Some u /\ Nat.of_uint u = i.
Proof. exact @digits_read. Qed.
Print Assumptions C190_digits.
Theorem C190_split : forall s : string, joined (split_comma s) = s /\ (forall p : string, In p (split_comma s) -> ~ has_comma p) /\ split_comma s <> [].
Proof. exact @split_joined. Qed.
Print Assumptions C190_split.
Example C190_names_nonvacuous : two_digits 7 = "07"%string /\ two_digits 0 = "00"%string /\ two_digits 123 = "123"%string /\ split_comma "GTI,STDGTI" = ["GTI"; "STDGTI"]%string /\
  load_gtis [("EVENTS", []); ("gti", [("START", [1; 5]); ("STOP", [2; 6])])]%string None = Ok [(1, 2); (5, 6)].
Proof. repeat split; reflexivity. Qed.
