(* M_object.v: model of the attribute lists, the comparison and the table conversion of StingrayObject
   (stingray/base.py) and of the reading of times. *)
From Coq Require Import String Ascii.
From Verif Require Import Np M_utils M_base M_io M_mission.
From Coq Require Import ZArith QArith List Bool.
Import ListNotations.
Open Scope Q_scope.

(* Values of attributes: None; a number or flag (None inside is nan); a text; an array of numbers with its shape (never
   empty) and its entries in C order; anything else (methods, dictionaries, other objects, arrays of objects). *)
Inductive value := VNone | VNum (x : option Q) | VText (s : str) | VArr (shape : list nat) (data : list (option Q)) | VObj.

(* A class: the name of the main array, the names in not_array_attr, the names of properties without a setter and the
   attributes of a new object type(self)().  [c_gti] tells that the class is a time series, where the setter of gti also
   clears the mask (base.py:1246-1253). *)
Record cls := mkCls { c_main : str; c_not_array : list str; c_readonly : list str; c_gti : bool; c_new : list (str * value) }.

(* An object: its attributes as dir(self) gives them.  Properties other than the main array and those of not_array_attr are
   left out, as are the attributes behind them (_time, _gti), which every list below leaves out. *)
Notation obj := (list (str * value)).
Fixpoint attr (o : obj) (n : str) : option value :=
  match o with [] => None | (m, v) :: o' => if str_eqb m n then Some v else attr o' n end.
Fixpoint set_attr (o : obj) (n : str) (v : value) : obj :=
  match o with [] => [(n, v)] | (m, w) :: o' => if str_eqb m n then (m, v) :: o' else (m, w) :: set_attr o' n v end.
Definition mem (n : str) (l : list str) : bool := existsb (str_eqb n) l.
Definition private (n : str) : bool := match n with a :: _ => Ascii.eqb a "_" | [] => false end.

(* stingray/base.py:109-135 data_attributes.  np.asanyarray(None).dtype is "O".  Names of not_array_attr are properties. *)
Definition is_data (v : value) : bool := match v with VNum _ | VText _ | VArr _ _ => true | VNone | VObj => false end.
Definition data_attributes (c : cls) (o : obj) : list (str * value) :=
  filter (fun p => is_data (snd p) && negb (mem (fst p) (c_not_array c))) o.
Definition first_dim (v : value) : option nat := match v with VArr (n :: _) _ => Some n | _ => None end.
Definition same_dim (v : value) (n : nat) : bool := match first_dim v with Some k => Nat.eqb k n | None => false end.
Definition size (v : value) : nat := match v with VArr s _ => fold_right Nat.mul 1%nat s | _ => 1%nat end.

(* stingray/base.py:137-164 array_attrs.  The main array is None or an array; other values (np.shape(main)[0] of a number) are
   IndexError here. *)
Definition main_length (c : cls) (o : obj) : result (option nat) :=
  match attr o (c_main c) with
  | None => Err AttributeError
  | Some VNone => Ok None
  | Some v => match first_dim v with Some n => Ok (Some n) | None => Err IndexError end
  end.
Definition array_attrs (c : cls) (o : obj) : result (list str) :=
  let! n := main_length c o in
  match n with
  | None => Ok []
  | Some n => Ok (map fst (filter (fun p => negb (private (fst p)) && negb (str_eqb (fst p) (c_main c))
                                           && negb (mem (fst p) (c_not_array c)) && same_dim (snd p) n) (data_attributes c o)))
  end.
(* stingray/base.py:166-199 internal_array_attrs *)
Definition internal_array_attrs (c : cls) (o : obj) : result (list str) :=
  let! n := main_length c o in
  match n with
  | None => Ok []
  | Some n => Ok (map fst (filter (fun p => negb (str_eqb (fst p) ("_"%char :: c_main c))
                                           && negb (mem (fst p) (map (cons "_"%char) (c_not_array c)))
                                           && negb (Nat.eqb (size (snd p)) 0) && private (fst p) && same_dim (snd p) n)
                                (data_attributes c o)))
  end.
(* stingray/base.py:201-221 meta_attrs *)
Definition meta_attrs (c : cls) (o : obj) : result (list str) :=
  let! a := array_attrs c o in
  let! i := internal_array_attrs c o in
  let arrays := a ++ [c_main c] ++ i in
  Ok (map fst (filter (fun p => negb (mem (fst p) arrays) && negb (private (fst p))) (data_attributes c o)) ++ c_not_array c).

(* np.array_equal(a, b, equal_nan=True): arrays of numbers; two None give a TypeError (np.isnan of objects), as every other
   pair of the same shape that is not made of numbers is taken to do. *)
Fixpoint same_data (a b : list (option Q)) : bool :=
  match a, b with
  | [], [] => true
  | x :: a', y :: b' => (match x, y with Some p, Some q => qeq p q | None, None => true | _, _ => false end) && same_data a' b'
  | _, _ => false
  end.
Fixpoint same_shape (a b : list nat) : bool :=
  match a, b with [], [] => true | m :: a', n :: b' => Nat.eqb m n && same_shape a' b' | _, _ => false end.
Definition array_equal (v w : value) : result bool :=
  match v, w with
  | VArr s d, VArr s' d' => Ok (same_shape s s' && same_data d d')
  | VArr _ _, _ | _, VArr _ _ => Ok false
  | _, _ => Err TypeError
  end.
Definition is_scalar (v : value) : bool := match v with VNum _ | VText _ => true | _ => false end.
(* a == b for numbers and texts *)
Definition scalar_equal (v w : value) : bool :=
  match v, w with
  | VNum (Some x), VNum (Some y) => qeq x y
  | VText s, VText t => str_eqb s t
  | _, _ => false
  end.
Definition get_attr (o : obj) (n : str) : result value := match attr o n with Some v => Ok v | None => Err AttributeError end.
Fixpoint all_ok {A} (f : A -> result bool) (l : list A) : result bool :=
  match l with [] => Ok true | x :: l' => let! b := f x in if b then all_ok f l' else Ok false end.
Definition same_set (a b : list str) : bool := forallb (fun n => mem n b) a && forallb (fun n => mem n a) b.
(* stingray/base.py:292-335 __eq__, two objects of the same class *)
Definition meta_equal (a b : obj) (n : str) : result bool :=
  let! v := get_attr a n in
  let! w := get_attr b n in
  if xorb (is_scalar v) (is_scalar w) then Ok false
  else if is_scalar v then Ok (scalar_equal v w)
  else array_equal v w.
Definition arrays_equal (a b : obj) (n : str) : result bool :=
  let! v := get_attr a n in
  let! w := get_attr b n in
  array_equal v w.
Definition obj_eq (c : cls) (a b : obj) : result bool :=
  let! aa := array_attrs c a in
  let! ab := array_attrs c b in
  if negb (same_set aa ab) then Ok false
  else
    let! ma := meta_attrs c a in
    let! mb := meta_attrs c b in
    if negb (same_set ma mb) then Ok false
    else
      let! x := all_ok (meta_equal a b) ma in
      if negb x then Ok false
      else
        let! y := all_ok (arrays_equal a b) aa in
        if negb y then Ok false
        else
          let! ia := internal_array_attrs c a in
          all_ok (arrays_equal a b) ia.

(* setattr: gti.setter of a time series also clears the mask, base.py:1246-1253.  The check of the length in the setter of time
   (base.py:1231-1239) is left out: below time is set once, on a new object. *)
Definition setattr (c : cls) (o : obj) (n : str) (v : value) : obj :=
  let o' := set_attr o n v in
  if c_gti c && str_eqb n (% "gti") then match v with VNone => o' | _ => set_attr o' (% "_mask") VNone end else o'.

(* A table: columns and meta *)
Record table := mkTable { t_cols : list (str * value); t_meta : list (str * value) }.
(* stingray/base.py:344-352 get_meta_dict *)
Definition get_meta_dict (c : cls) (o : obj) : result (list (str * value)) :=
  let! m := meta_attrs c o in
  let! l := map_result (fun n => let! v := get_attr o n in Ok (n, v)) m in
  Ok (filter (fun p => match snd p with VNone => false | _ => true end) l).
(* stingray/base.py:354-393 to_astropy_table (no_longdouble=False).  A main array equal to None makes a table out of an
   array without dimensions: TypeError here. *)
Definition to_table (c : cls) (o : obj) : result table :=
  let! a := array_attrs c o in
  let! i := internal_array_attrs c o in
  let! cols := map_result (fun n => let! v := get_attr o n in match v with VArr _ _ => Ok (n, v) | _ => Err TypeError end)
                 (a ++ [c_main c] ++ i) in
  let! m := get_meta_dict c o in
  Ok (mkTable cols m).
(* stingray/base.py:396-445 from_astropy_table *)
Definition rows (t : table) : nat :=
  match t_cols t with p :: _ => match first_dim (snd p) with Some n => n | None => 0%nat end | [] => 0%nat end.
Definition is_main (c : cls) (p : str * value) : bool := str_eqb (lower (fst p)) (c_main c).
Definition from_table (c : cls) (t : table) : obj :=
  let new := c_new c in
  if Nat.eqb (rows t) 0 then new
  else
    let o := match find (is_main c) (t_cols t) with Some p => setattr c new (c_main c) (snd p) | None => new end in
    let o := fold_left (fun o p => setattr c o (lower (fst p)) (snd p)) (filter (fun p => negb (is_main c p)) (t_cols t)) o in
    fold_left (fun o p => if mem (lower (fst p)) (c_readonly c) then o else setattr c o (lower (fst p)) (snd p)) (t_meta t) o.

(* ---- times ---- *)
(* What can be given as times: None; astropy Time objects, as MJDs; TimeDelta or Quantity objects, as seconds; plain numbers;
   anything else.  A list or one value. *)
Inductive tvals := Many (l : list Q) | One (x : Q).
Inductive tinput := TNone | TTime (t : tvals) | TSeconds (t : tvals) | TPlain (t : tvals) | TOther.
Definition tmap (f : Q -> Q) (t : tvals) : tvals := match t with Many l => Many (map f l) | One x => One (f x) end.
Definition tall (f : Q -> bool) (t : tvals) : bool := match t with Many l => forallb f l | One x => f x end.
(* stingray/base.py:2787-2876 interpret_times *)
Definition interpret_times (t : tinput) (mjdref : Q) : result (option tvals * Q) :=
  match t with
  | TNone => Ok (None, mjdref)
  | TTime mjds =>
    let! ref :=
      if qeq mjdref 0 && tall (fun m => qlt 10000 m) mjds then
        match mjds with Many (m :: _) => Ok m | Many [] => Err IndexError | One m => Ok m end
      else Ok mjdref in
    Ok (Some (tmap (fun m => (m - ref) * 86400) mjds), ref)
  | TSeconds s => Ok (Some s, mjdref)
  | TPlain s => Ok (Some s, mjdref)
  | TOther => Err ValueError
  end.
Definition tsize (t : tinput) : nat :=
  match t with TNone => 0%nat | TTime (Many l) | TSeconds (Many l) | TPlain (Many l) => List.length l | _ => 1%nat end.
(* stingray/base.py:1277-1285 _set_times: the reference found by interpret_times is dropped *)
Definition set_times (mjdref : Q) (t : tinput) : result (option tvals) :=
  match tsize t with
  | 0%nat => Ok None
  | _ => let! r := interpret_times t mjdref in Ok (fst r)
  end.
(* stingray/base.py:1190-1229 StingrayTimeseries.__init__: times, reference and array attributes, before sorting.  Array attributes
   are lists, one column each. *)
Record tseries := mkTs { ts_time : option tvals; ts_mjdref : Q; ts_cols : list (str * list Q) }.
Fixpoint add_columns (n : option nat) (l : list (str * list Q)) : result (list (str * list Q)) :=
  match l with
  | [] => Ok []
  | (k, v) :: l' =>
    match n with
    | None => Err AttributeError
    | Some n => if negb (Nat.eqb n (List.length v)) then Err ValueError else let! r := add_columns (Some n) l' in Ok ((k, v) :: r)
    end
  end.
Definition timeseries_init (time : tinput) (mjdref : Q) (arrays : list (str * list Q)) : result tseries :=
  let! t := set_times mjdref time in
  let! n := match t, arrays with
            | None, _ => Ok None
            | Some (Many l), _ => Ok (Some (List.length l))
            | Some (One _), [] => Ok None
            | Some (One _), _ => Err IndexError
            end in
  let! cols := add_columns n arrays in
  Ok (mkTs t mjdref cols).
(* stingray/lightcurve.py:266: the light curve keeps the reference *)
Definition lightcurve_times (time : tinput) (mjdref : Q) : result (option tvals * Q) := interpret_times time mjdref.
