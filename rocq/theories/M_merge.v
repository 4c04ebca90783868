(* M_merge.v: model of stingray/gti.py merge_gtis. *)
From Verif Require Import Np M_gti.
Open Scope Q_scope.

(* The strategy strings of stingray/gti.py:964-996; [Other] is any other string. *)
Inductive strategy := Intersection | Union | Append | Infer | NoMerge | Other.

(* stingray/gti.py:1003-1005: None and empty lists are skipped. *)
Fixpoint valid_lists (l : list (option gtis)) : list gtis :=
  match l with
  | [] => []
  | Some (iv :: g) :: l' => (iv :: g) :: valid_lists l'
  | _ :: l' => valid_lists l'
  end.
(* stingray/gti.py:1000-1008: running np.min / np.max over all edges, None standing for the initial
   infinities. *)
Definition omin (m : option Q) (x : Q) : option Q := match m with None => Some x | Some y => Some (qmin y x) end.
Definition omax (m : option Q) (x : Q) : option Q := match m with None => Some x | Some y => Some (qmax y x) end.
Definition global_range (l : list gtis) : option (Q * Q) :=
  let e := flat_map flatten l in
  match fold_left omin e None, fold_left omax e None with Some a, Some b => Some (a, b) | _, _ => None end.
(* stingray/gti.py:1030-1036: the loop over the remaining lists. *)
Fixpoint merge_fold (op : gtis -> gtis -> result gtis) (acc : gtis) (l : list gtis) : result gtis :=
  match l with [] => Ok acc | g :: l' => let! acc' := op acc g in merge_fold op acc' l' end.
(* stingray/gti.py:1011-1036 merge_gtis; the inner None is Python's None.  The three sorters stand for the
   argsort calls of cross_two_gtis, append_gtis and join_gtis. *)
Definition merge_gtis (s_end : list tagged -> list tagged) (s_start : gtis -> gtis) (s_edge : list edge -> list edge)
           (l : list (option gtis)) (st : strategy) : result (option gtis) :=
  let v := valid_lists l in
  match v with
  | [] => Ok None
  | g0 :: rest =>
    match st with
    | NoMerge => Ok (match global_range v with Some r => Some [r] | None => None end)
    | _ =>
      match rest with
      | [] => Ok (Some g0)
      | _ =>
        let! cross := cross_gtis s_end v in
        let st' := match st with Infer => match cross with [] => Union | _ => Intersection end | s => s end in
        match st' with
        | Intersection => Ok (match cross with [] => None | _ => Some cross end)
        | Union => let! r := merge_fold (join_gtis s_start s_edge) g0 rest in Ok (Some r)
        | Append => let! r := merge_fold (append_gtis s_start) g0 rest in Ok (Some r)
        | _ => Ok (Some g0)
        end
      end
    end
  end.
