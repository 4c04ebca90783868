(* M_io.v: model of helper functions of stingray/io.py.  Strings are lists of characters. *)
From Verif Require Import Np.
From Coq Require Import Ascii String List.
Import ListNotations.
Open Scope Q_scope.
Notation str := (list ascii).
Notation "% s" := (list_ascii_of_string s) (at level 0, only parsing).

(* ---- split_numbers ---- *)
(* math.modf: fractional part and whole part, both with the sign of x *)
Definition modf (x : Q) : Q * Q :=
  let i := if qlt x 0 then - inject_Z (Qround.Qfloor (- x)) else inject_Z (Qround.Qfloor x) in (x - i, i).
(* what split_numbers can be given: a number, a Python list of floats or of integers, a numpy array of floats or of integers *)
Inductive numbers := Number (x : Q) | FloatList (l : list Q) | IntList (l : list Z) | FloatArray (l : list Q) | IntArray (l : list Z).
(* number *= 10**shift on an array of integers: 10**shift is a float for a negative shift, and the result cannot be stored *)
Definition scale_ints (l : list Z) (shift : Z) : result (list Z) :=
  if (0 <=? shift)%Z then Ok (map (fun n => n * 10 ^ shift)%Z l) else Err TypeError.
(* io.py:1399-1441 split_numbers.  Numbers are exact (np.double changes nothing, integers do not overflow); results: the
   values of the two parts and the input after the call.  np.asanyarray copies a list but not an array, which is then
   multiplied in place. *)
Definition split_numbers (number : numbers) (shift : Z) : result (list Q * list Q * numbers) :=
  let p := Qpower 10 shift in
  let parts := fun l : list Q => (map (fun x => snd (modf x) / p) l, map (fun x => fst (modf x) / p) l) in
  match number with
  | Number x => Ok (parts [x * p], number)
  | FloatList l => Ok (parts (map (fun x => x * p) l), number)
  | FloatArray l => let l' := map (fun x => x * p) l in Ok (parts l', FloatArray l')
  | IntList l => let! l' := scale_ints l shift in Ok (parts (map inject_Z l'), number)
  | IntArray l => let! l' := scale_ints l shift in Ok (parts (map inject_Z l'), IntArray l')
  end.

(* ---- common_name ---- *)
(* s.lstrip(c), s.rstrip(c) for one character *)
Fixpoint lstrip (c : ascii) (s : str) : str := match s with [] => [] | a :: s' => if Ascii.eqb a c then lstrip c s' else s end.
Definition rstrip (c : ascii) (s : str) : str := rev (lstrip c (rev s)).
(* io.py:1361-1396 common_name *)
Definition common_name (str1 str2 default : str) : str :=
  if negb (Nat.eqb (length str1) (length str2)) then default
  else
    let common := map fst (filter (fun p => Ascii.eqb (fst p) (snd p)) (combine str1 str2)) in
    let common := rstrip "-" (rstrip "_" common) in
    let common := lstrip "-" (lstrip "_" common) in
    match common with [] => default | _ => common end.

(* ---- get_file_extension ---- *)
Fixpoint starts_with (p s : str) : bool :=
  match p, s with
  | [], _ => true
  | a :: p', b :: s' => Ascii.eqb a b && starts_with p' s'
  | _ :: _, [] => false
  end.
(* s.replace(old, ""): occurrences are taken from the left and do not overlap; skip characters are being dropped *)
Fixpoint drop_all (old : str) (skip : nat) (s : str) : str :=
  match s with
  | [] => []
  | c :: s' =>
    match skip with
    | S k => drop_all old k s'
    | O => if starts_with old s then drop_all old (length old - 1) s' else c :: drop_all old 0 s'
    end
  end.
Definition remove_string (old s : str) : str := match old with [] => s | _ => drop_all old 0 s end.
(* s.rfind(c) *)
Fixpoint rfind_from (i : nat) (c : ascii) (s : str) (found : option nat) : option nat :=
  match s with [] => found | a :: s' => rfind_from (S i) c s' (if Ascii.eqb a c then Some i else found) end.
Definition rfind (c : ascii) (s : str) : option nat := rfind_from 0 c s None.
(* os.path.splitext (posix): the part before the last dot of the last component of the path, unless only dots precede it *)
Definition splitext (p : str) : str * str :=
  match rfind "." p with
  | None => (p, [])
  | Some dot =>
    let start := match rfind "/" p with None => 0%nat | Some s => S s end in
    if (Nat.leb start dot && existsb (fun c => negb (Ascii.eqb c ".")) (slice p start dot))%bool
    then (firstn dot p, skipn dot p) else (p, [])
  end.
(* io.py:118-137 get_file_extension *)
Definition get_file_extension (fname : str) : str :=
  let root := remove_string % ".gz" fname in
  let root := fst (splitext root) in
  remove_string root fname.
