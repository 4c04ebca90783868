(* M_pandas.v: model of the conversion of objects into pandas data frames, stingray/base.py, with the names of the columns. *)
From Coq Require Import String Ascii.
From Verif Require Import Np M_utils M_base M_io M_mission M_object M_xarr.
From Coq Require Import ZArith QArith List Bool.
Import ListNotations.
Open Scope Q_scope.

(* A data frame (library): columns of the same length, and attrs *)
Record frame := mkFrame { f_cols : list (str * value); f_attrs : list (str * value) }.
Fixpoint starts (p s : str) : bool := match p, s with [] , _ => true | a :: p', b :: s' => Ascii.eqb a b && starts p' s' | _, [] => false end.
Definition digit (a : ascii) : bool := (Nat.leb 48 (nat_of_ascii a) && Nat.leb (nat_of_ascii a) 57)%bool.
(* p in s *)
Fixpoint contains (p s : str) : bool := (starts p s || match s with [] => false | _ :: s' => contains p s' end)%bool.
Definition digits (i : nat) : str := map ascii_of_nat (key_chars [i]).
(* utils.py:242-284 make_nd_into_arrays: the name of the column with these indices *)
Fixpoint nd_name (label : str) (idx : list nat) : str :=
  match idx with
  | [] => label
  | i :: idx' => nd_name (label ++ (if contains (% "_dim") label then % "_" else % "_dim") ++ digits i) idx'
  end.
(* column k, in C order, of an array with n rows and m numbers in a row *)
Definition nd_column (n m : nat) (d : list (option Q)) (k : nat) : value := VArr [n] (map (fun r => nth (r * m + k) d None) (seq 0 n)).
Definition split_array (p : str * value) : list (str * value) :=
  match snd p with
  | VArr (n :: ((_ :: _) as s)) d =>
    let m := fold_right Nat.mul 1%nat s in
    combine (map (nd_name (fst p)) (all_indices s)) (map (nd_column n m d) (seq 0 m))
  | _ => [p]
  end.
(* base.py:508-541 to_pandas; dict.update replaces a column that is there *)
Definition to_pandas (c : cls) (o : obj) : result frame :=
  let! t := to_table c o in
  Ok (mkFrame (fold_left (fun d p => set_attr d (fst p) (snd p)) (flat_map split_array (t_cols t)) []) (t_meta t)).

(* re.sub("_dim[0-9].*", "", s): names have no line breaks *)
Fixpoint strip_dim (s : str) : str :=
  match s with
  | [] => []
  | a :: s' => if (starts (% "_dim") s && match skipn 4 s with b :: _ => digit b | [] => false end)%bool then [] else a :: strip_dim s'
  end.
(* [0-9]+(_[0-9]+)* at the start of a text; None: no match *)
Fixpoint read_digits (acc : nat) (any : bool) (s : str) : option nat * str :=
  match s with
  | a :: s' => if digit a then read_digits (acc * 10 + (nat_of_ascii a - 48)) true s' else (if any then Some acc else None, s)
  | [] => (if any then Some acc else None, [])
  end.
Fixpoint read_more (fuel : nat) (s : str) : list nat :=
  match fuel, s with
  | S f, a :: s' => if Ascii.eqb a "_" then match read_digits 0 false s' with (Some i, r) => i :: read_more f r | (None, _) => [] end else []
  | _, _ => []
  end.
Definition read_indices (s : str) : option (list nat) :=
  match read_digits 0 false s with (Some i, r) => Some (i :: read_more (List.length r) r) | (None, _) => None end.
(* utils.py:286-312 get_dimensions_from_list_of_column_labels; the label has no special characters of regular expressions *)
Definition nd_key (label key : str) : option (list nat) :=
  if starts (label ++ % "_dim") key then read_indices (skipn (List.length label + 4) key) else None.
Fixpoint str_leb (a b : str) : bool :=
  match a, b with
  | [], _ => true
  | _, [] => false
  | x :: a', y :: b' => (Nat.ltb (nat_of_ascii x) (nat_of_ascii y) || (Ascii.eqb x y && str_leb a' b'))%bool
  end.
Fixpoint insert_key (e : str * value) (l : list (str * value)) : list (str * value) :=
  match l with [] => [e] | e' :: l' => if str_leb (fst e) (fst e') then e :: l else e' :: insert_key e l' end.
Definition column_data (v : value) : list (option Q) := match v with VArr _ d => d | _ => [] end.
(* utils.py:315-361 make_1d_arrays_into_nd.  Indices of different numbers of dimensions and a number of columns other than that
   of the shape are ValueErrors of numpy. *)
Definition join_columns (cols : list (str * value)) (label : str) : result value :=
  match attr cols label with
  | Some v => Ok v
  | None =>
    let found := filter (fun p => match nd_key label (fst p) with Some _ => true | None => false end) cols in
    match flat_map (fun p => match nd_key label (fst p) with Some i => [i] | None => [] end) cols with
    | [] => Err TypeError
    | i :: is =>
      if negb (forallb (fun j => Nat.eqb (List.length j) (List.length i)) is) then Err ValueError
      else
        let shape := map S (fold_left max_lists is i) in
        let arrays := fold_right insert_key [] found in
        let n := match found with p :: _ => List.length (column_data (snd p)) | [] => 0%nat end in
        if Nat.eqb (fold_right Nat.mul 1%nat shape) (List.length arrays) then
          Ok (VArr (n :: shape) (flat_map (fun r => map (fun p => nth r (column_data (snd p)) None) arrays) (seq 0 n)))
        else Err ValueError
    end
  end.
Definition len_frame (f : frame) : nat := match f_cols f with p :: _ => List.length (column_data (snd p)) | [] => 0%nat end.
Section From.
(* list(set(.)) of names (library) *)
Variable uniq : list str -> list str.
Fixpoint put_joined (c : cls) (cols : list (str * value)) (l : list str) (o : obj) : result obj :=
  match l with [] => Ok o | x :: l' => let! v := join_columns cols x in let! o' := put_attr c o x v in put_joined c cols l' o' end.
(* base.py:543-585 from_pandas.  The series of pandas that line 352 of utils.py returns counts as an array here. *)
Definition from_pandas (c : cls) (f : frame) : result obj :=
  if Nat.eqb (len_frame f) 0 then Ok (c_new c)
  else
    match attr (f_cols f) (c_main c) with
    | None => Err KeyError
    | Some v =>
      let nd := fun x => contains (% "_dim") x in
      let! o := put_attr c (c_new c) (c_main c) v in
      let! o := put_all c (fun x => str_eqb (c_main c) x || nd x)%bool (f_cols f) o in
      let! o := put_joined c (f_cols f) (uniq (map strip_dim (filter (fun x => nd x && negb (str_eqb (c_main c) x))%bool (map fst (f_cols f))))) o in
      put_all c (fun x => mem x (map fst (f_cols f))) (f_attrs f) o
    end.
End From.
