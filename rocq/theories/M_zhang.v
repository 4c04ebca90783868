(* M_zhang.v: model of stingray/deadtime/model.py (Python floats are exact reals; division by zero of Python floats raises) *)
From Verif Require Import Np M_utils Cplx M_espec.
Open Scope R_scope.

Definition py_div (a b : R) : result R := if Req_EM_T b 0 then Err ZeroDivisionError else Ok (a / b).
(* int(x) for x >= 0 *)
Definition floor_nat (x : R) : nat := Z.to_nat (Int_part x).
(* model.py:14-19: constants *)
Definition precision_digits : R := 15.
Definition stirling_parameters : list R := [1 / 12; 1 / 288; - (139) / 51840; - (571) / 2488320].
(* model.py:31-39 _stirling_factor *)
Definition stirling_factor (m : R) : R := 1 + rs 4 (fun i => nth i stirling_parameters 0 / m ^ S i).
(* model.py:42-84 e_m_x_x_over_factorial.  max(log10 x, 1) is at least 1, so that the second condition implies m < 50 *)
Definition e_m_x_x_over_factorial (x : R) (m : nat) : R :=
  if (if Req_EM_T x 0 then Nat.eqb m 0 else false) then 1
  else if (Nat.ltb m 50 || (if Rlt_dec 1 x then (if Rlt_dec (INR m * Rmax (log10 x) 1) 50 then true else false) else false))%bool
  then exp (- x) * x ^ m * / INR (fact m)
  else 1 / sqrt (2 * PI * INR m) * (x * exp (1 - x / INR m) / INR m) ^ m / stirling_factor (INR m).
(* model.py:87-98 r_in, model.py:101-112 r_det *)
Definition r_in (td r_0 : R) : result R := let! tau := py_div 1 r_0 in py_div 1 (tau - td).
Definition r_det (td r_i : R) : result R := let! tau := py_div 1 r_i in py_div 1 (tau + td).
(* model.py:115-128 _Gn.  stop: x != 0 and s > 0 and m > 2 * x and -log10(abs(new_val / s)) > PRECISION *)
Definition gn_stop (x : R) (m : nat) (new_val s : R) : bool :=
  if Req_EM_T x 0 then false else if Rlt_dec 0 s then if Rlt_dec (2 * x) (INR m) then
    if Rlt_dec precision_digits (- log10 (Rabs (new_val / s))) then true else false else false else false.
Fixpoint gn_loop (x : R) (n steps m : nat) (s : R) : R :=
  match steps with
  | O => s
  | S steps' =>
      let new_val := e_m_x_x_over_factorial x m * INR (n - m) in
      let s := s + new_val in
      if gn_stop x m new_val s then s else gn_loop x n steps' (S m) s
  end.
Definition gn (x : R) (n : nat) : R := gn_loop x n n 0 0.
(* model.py:131-142 _h *)
Definition h_term (k n : nat) (td tb tau : R) : R :=
  let factor := INR k * tb - INR n * td in
  if Rlt_dec factor 0 then 0
  else INR k - INR n * (td + tau) / tb + tau / tb * gn (factor / tau) n.
(* model.py:148-167 A0 *)
Definition a0 (r0 td tb tau : R) : R :=
  let stop := floor_nat (Rmax 2 (tb / td * 2 + 1)) in
  r0 * tb * (1 + 2 * rs (stop - 1) (fun i => h_term 1 (S i) td tb tau)).
(* model.py:170-196 A_single_k *)
Definition a_single_k (k : nat) (r0 td tb tau : R) : R :=
  match k with
  | O => a0 r0 td tb tau
  | S k' =>
      let stop := floor_nat (Rmax 3 (INR (k + 1) * tb / td * 2)) in
      r0 * tb * rs (stop - 1) (fun i => h_term (k + 1) (S i) td tb tau - 2 * h_term k (S i) td tb tau + h_term k' (S i) td tb tau)
  end.
(* model.py:222-235 limit_A *)
Definition limit_a (rate td tb : R) : result R := let! r0 := r_det td rate in Ok (r0 ^ 2 * tb ^ 2).
(* model.py:292-300 _B_raw, model.py:303-311 _safe_B_single_k *)
Definition b_raw (k : nat) (r0 td tb tau : R) : R :=
  match k with
  | O => 2 * (a_single_k 0 r0 td tb tau - r0 ^ 2 * tb ^ 2) / (r0 * tb)
  | _ => 4 * (a_single_k k r0 td tb tau - r0 ^ 2 * tb ^ 2) / (r0 * tb)
  end.
Definition safe_b (limit_k k : nat) (r0 td tb tau : R) : R := if Nat.ltb limit_k k then 0 else b_raw k r0 td tb tau.
(* model.py:410-424 _inner_loop_pds_zhang; limit_k = 60 for the term of k = 0 *)
Definition inner_loop_pds_zhang (N : nat) (tau r0 td tb : R) (limit_k : nat) : list R :=
  map (fun j =>
    let eq8_sum := rs (Nat.min N limit_k - 1) (fun i => let k := S i in
       (INR N - INR k) / INR N * safe_b limit_k k r0 td tb tau * cos (2 * PI * INR j * INR k / INR N)) in
    safe_b 60 0 r0 td tb tau + eq8_sum) (seq 0 (N / 2)).
(* model.py:427-478 pds_model_zhang: frequencies and powers *)
Definition pds_model_zhang (N : nat) (rate td tb : R) (limit_k : nat) (rate_is_incident : bool) : result (list R * list R) :=
  let! p := (if rate_is_incident then let! tau := py_div 1 rate in let! r0 := r_det td rate in Ok (tau, r0)
             else let! ri := r_in td rate in let! tau := py_div 1 ri in Ok (tau, rate)) in
  let '(tau, r0) := p in
  let P := inner_loop_pds_zhang N tau r0 td tb limit_k in
  let! maxf := py_div (1 / 2) tb in
  let! df := py_div maxf (INR (length P)) in
  Ok (map (fun i => INR i * df) (seq 0 (length P)), P).
(* model.py:481-559 non_paralyzable_dead_time_model; interp stands for scipy's interp1d with extrapolation *)
Definition max_list (l : list R) : result R := match l with [] => Err ValueError | a :: l' => Ok (fold_left Rmax l' a) end.
Definition model_size (freqs : list R) (n_approx : option nat) : result nat :=
  match n_approx with Some n => Ok (n * 2)%nat | None => let! mx := max_list freqs in Ok (floor_nat (Rmax mx 10) * 2)%nat end.
Definition non_paralyzable_dead_time_model (interp : list R -> list R -> list R -> list R) (freqs : list R) (dead_time rate : R)
    (bin_time : option R) (limit_k : nat) (background_rate : R) (n_approx : option nat) : result (list R) :=
  let! inverse := py_div 1 dead_time in
  if Rlt_dec inverse (rate + background_rate) then Err ValueError
  else
    let! tb := (match bin_time with Some t => Ok t | None => let! mx := max_list freqs in py_div 1 (2 * mx) end) in
    let! n := model_size freqs n_approx in
    let! z := pds_model_zhang n (rate + background_rate) dead_time tb limit_k false in
    let zh_p := if Rlt_dec 0 background_rate then map (fun p => (p - 2) * rate / (rate + background_rate) + 2) (snd z) else snd z in
    Ok (interp (fst z) zh_p freqs).
