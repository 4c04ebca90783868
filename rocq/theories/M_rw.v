(* M_rw.v: model of the way stingray/base.py writes complex columns to text files and reads them back.  Numbers are exact, names are ASCII. *)
From Coq Require Import String Ascii.
From Verif Require Import Np Lib M_io M_mission.
From Coq Require Import QArith List Bool.
Import ListNotations.
Open Scope Q_scope.

(* A column of one dimension of an astropy table: is its dtype complex?, and its values (real part, imaginary part: 0 if it is not complex).
   A table has the columns in their order; the meta dictionary is left out. *)
Record column := mkCol { k_complex : bool; k_data : list (Q * Q) }.
Definition tab := list (str * column).
Definition colnames (t : tab) : list str := map fst t.
(* t[n], t[n] = c (in place if there is such a column, at the end if not), n in t.colnames, t.remove_column(n) of astropy.table (library) *)
Fixpoint col_get (t : tab) (n : str) : option column := match t with [] => None | (m, c) :: r => if str_eqb m n then Some c else col_get r n end.
Fixpoint col_put (t : tab) (n : str) (c : column) : tab :=
  match t with [] => [(n, c)] | (m, d) :: r => if str_eqb m n then (m, c) :: r else (m, d) :: col_put r n c end.
Definition col_in (t : tab) (n : str) : bool := existsb (fun m => str_eqb m n) (colnames t).
Definition col_del (t : tab) (n : str) : tab := filter (fun p => negb (str_eqb (fst p) n)) t.
(* s.endswith(p) *)
Definition ends_with (p s : str) : bool := starts_with (rev p) (rev s).
Definition dot_real : str := % ".real".
Definition dot_imag : str := % ".imag".

(* stingray/base.py:713 np.iscomplex(ts[col].flatten()[0]): is the imaginary part of the first value other than zero?  An empty column: IndexError *)
Definition first_is_complex (c : column) : result bool :=
  match k_data c with [] => Err IndexError | v :: _ => Ok (k_complex c && negb (qeq (snd v) 0))%bool end.
(* stingray/base.py:714-715 ts[col].real, ts[col].imag *)
Definition real_part (c : column) : column := mkCol false (map (fun v => (fst v, 0)) (k_data c)).
Definition imag_part (c : column) : column := mkCol false (map (fun v => (snd v, 0)) (k_data c)).
(* stingray/base.py:711-716: the loop over the names that the table has at the beginning *)
Fixpoint split_loop (names : list str) (t : tab) : result tab :=
  match names with
  | [] => Ok t
  | n :: r =>
    match col_get t n with
    | None => Err KeyError
    | Some c =>
      let! b := first_is_complex c in
      if b then split_loop r (col_del (col_put (col_put t (n ++ dot_real) (real_part c)) (n ++ dot_imag) (imag_part c)) n) else split_loop r t
    end
  end.
(* stingray/base.py:667-721 write: the table that is handed to the writer of astropy; [text]: fmt is None or "ascii" in fmt *)
Definition write_table (text : bool) (t : tab) : result tab := if text then split_loop (colnames t) t else Ok t.

(* stingray/base.py:64-72 convert_table_attrs_to_lowercase, columns *)
Definition lower_table (t : tab) : tab := fold_left (fun acc p => col_put acc (lower (fst p)) (snd p)) t [].
(* stingray/base.py:645-651: times 1j if is_imag, plus 0j *)
Definition new_value (imag : bool) (c : column) : column := mkCol true (map (fun v => if imag then (- snd v, fst v) else v) (k_data c)).
(* stingray/base.py:661 ts[col_strip] += new_value; adding complex numbers to a column that is not complex: TypeError (numpy) *)
Definition add_into (a b : column) : result column :=
  if k_complex a then Ok (mkCol true (map (fun p => (fst (fst p) + fst (snd p), snd (fst p) + snd (snd p))) (combine (k_data a) (k_data b)))) else Err TypeError.
(* stingray/base.py:640-663: the loop over the names that the table has at the beginning.  [flag] is the variable is_imag (None: not yet
   assigned): when the name ends with ".real", "or" does not look at its second operand, so that is_imag keeps its value. *)
Fixpoint join_loop (names : list str) (flag : option bool) (t : tab) : result tab :=
  match names with
  | [] => Ok t
  | n :: r =>
    let is_real := ends_with dot_real n in
    let flag := if is_real then flag else Some (ends_with dot_imag n) in
    if negb (is_real || ends_with dot_imag n)%bool then join_loop r flag t
    else
      match col_get t n with
      | None => Err KeyError
      | Some c =>
        match flag with
        | None => Err UnboundLocalError
        | Some b =>
          let v := new_value b c in
          let s := remove_string dot_imag (remove_string dot_real n) in
          let! t' := (if col_in t s then match col_get t s with None => Err KeyError | Some old => let! w := add_into old v in Ok (col_put t s w) end else Ok (col_put t s v)) in
          join_loop r flag (col_del t' n)
        end
      end
  end.
(* stingray/base.py:588-665 read (pickle files left out; Table.read gives the table that was written): the table that is given to from_astropy_table *)
Definition read_table (text : bool) (t : tab) : result tab :=
  let t := lower_table t in if text then join_loop (colnames t) None t else Ok t.
