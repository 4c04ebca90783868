(* M_zchk.v: model of the checks of the dead time model, stingray/deadtime/model.py.  What is drawn is returned next to
   what the functions return; the figure, its scales and its labels are left out. *)
From Verif Require Import Np M_utils Cplx M_espec M_zhang.
Open Scope R_scope.

(* model.py:199-219 A for an array of k *)
Definition a_terms (ks : list nat) (r0 td tb tau : R) : list R := map (fun k => a_single_k k r0 td tb tau) ks.
(* model.py:314-322 _safe_B and model.py:325-349 B for an array of k *)
Definition b_terms (ks : list nat) (r0 td tb tau : R) (limit_k : nat) : list R := map (fun k => safe_b limit_k k r0 td tb tau) ks.
(* model.py:265-270 and model.py:379-384: tau and r0 of the given rate *)
Definition check_rates (rate td : R) (rate_is_incident : bool) : result (R * R) :=
  if rate_is_incident then let! tau := py_div 1 rate in let! r0 := r_det td rate in Ok (tau, r0)
  else let! ri := r_in td rate in let! tau := py_div 1 ri in Ok (tau, rate).
(* model.py:238-289 check_A: k_values, A_values and the curve that is drawn (line 278) *)
Record check_a_out := mkCheckA { ca_k : list nat; ca_values : list R; ca_drawn : list R }.
Definition check_a (rate td tb : R) (max_k : nat) (rate_is_incident : bool) : result check_a_out :=
  let! p := check_rates rate td rate_is_incident in
  let '(tau, r0) := p in
  let! limit := limit_a rate td tb in
  let k_values := seq 0 (max_k + 1) in
  let a_values := a_terms k_values r0 td tb tau in
  Ok (mkCheckA k_values a_values (map (fun a => a - limit) a_values)).
(* model.py:352-407 check_B: k_values, B_values and the upper of the two red curves (line 389); the lower one is its
   negative.  max_k = 0 gives empty arrays. *)
Record check_b_out := mkCheckB { cb_k : list nat; cb_values : list R; cb_threshold : list R }.
Definition check_b (rate td tb : R) (max_k : nat) (rate_is_incident : bool) : result check_b_out :=
  let! p := check_rates rate td rate_is_incident in
  let '(tau, r0) := p in
  let k_values := seq 1 max_k in
  let! ratio := py_div tb td in
  Ok (mkCheckB k_values (b_terms k_values r0 td tb tau max_k)
        (map (fun k => Rmax ratio 1 * Rpower 10 (3 * log10 (INR k) - precision_digits)) k_values)).
