(* M_window.v: model of create_window in stingray/utils.py.  Real numbers are exact; None stands for nan. *)
From Coq Require Import Reals.
From Verif Require Import Np.
Open Scope R_scope.

(* the names of the windows; WOther is a string that is none of them *)
Inductive window_type := WUniform | WParzen | WHamming | WHanning | WTriangular | WWelch | WBlackmann | WFlatTop | WOther.

(* a / b for arrays; every quotient here whose denominator is 0 has the numerator 0 too, so it is nan *)
Definition div0 (a b : R) : option R := if Req_EM_T b 0 then None else Some (a / b).
Definition omap (f : R -> R) (a : option R) : option R := match a with Some v => Some (f v) | None => None end.

(* utils.py:1285-1297 the Parzen window: half of it first, then mirrored and cut.  floor and ceil of half integers are integer
   divisions *)
Definition parzen_half (np i : nat) : option R :=
  let n2p1 := S (np / 2) in
  if Nat.ltb i n2p1
  then omap (fun windlag0 => 1 - (1 - windlag0) * windlag0 * windlag0 * 6) (div0 (INR i) (INR (np - 1)))
  else omap (fun lag => let windlag1 := 1 - lag in windlag1 * windlag1 * windlag1 * 2) (div0 (INR i) (INR (np - 1))).
Definition parzen_window (N : nat) : list (option R) :=
  let np := ((N + 2) / 2)%nat in
  let window := map (parzen_half np) (seq 0 np) in
  let lagindex := rev (seq 1 (np - 1)) in
  firstn N (map (fun i => nth i window None) lagindex ++ window).

(* utils.py:1281-1283, 1299-1331 element n of the other windows of N points *)
Definition window_value (w : window_type) (N n : nat) : option R :=
  let n_minus_1 := INR (N - 1) in
  let n_by_2 := INR ((N - 1) / 2) in
  let c (k : R) := omap cos (div0 (k * PI * INR n) n_minus_1) in
  match w with
  | WUniform => Some 1
  | WHamming => omap (fun v => 54 / 100 - 46 / 100 * v) (c 2)
  | WHanning => omap (fun v => 1 / 2 * (1 - v)) (c 2)
  | WTriangular => Some (1 - Rabs ((INR n - n_by_2) / INR N))
  | WWelch => omap (fun v => 1 - v * v) (div0 (INR n - n_minus_1 / 2) (n_minus_1 / 2))
  | WBlackmann => match c 2, c 4 with
                  | Some c2, Some c4 => Some (42659 / 100000 - 49656 / 100000 * c2 + 76849 / 1000000 * c4)
                  | _, _ => None
                  end
  | WFlatTop => match c 2, c 4, c 6, c 8 with
                | Some c2, Some c4, Some c6, Some c8 =>
                    Some (1 - 193 / 100 * c2 + 129 / 100 * c4 - 388 / 1000 * c6 + 28 / 1000 * c8)
                | _, _, _, _ => None
                end
  | _ => None
  end.
(* utils.py:1225-1333 create_window, with an integer N and a string *)
Definition create_window (N : Z) (w : window_type) : result (list (option R)) :=
  match w with
  | WOther => Err ValueError
  | _ =>
      if (N =? 0)%Z then Ok []
      else
        let N := Z.to_nat (Z.abs N) in
        match w with
        | WParzen => Ok (parzen_window N)
        | _ => Ok (map (window_value w N) (seq 0 N))
        end
  end.
