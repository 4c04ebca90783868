(* T_bexvar.v: theorems about the Bayesian excess variance, bexvar.py. *)
From Verif Require Import Np M_utils Cplx M_exvar M_espec M_bexvar S_chi2 S_bexvar P_chi2 P_bexvar P_bexvar2.
From Coq Require Import Reals List Arith ZArith Bool Lia Lra.
Import ListNotations.
Open Scope R_scope.

(* ---------- C178: the grid of source count rates ---------- *)
Theorem C178_grid : forall g bins d mn mx, 0 < d ->
  least (map (fun b => lowest_rate g (b_src b) (b_bkg b) (b_area b) (b_conv b)) bins) mn -> greatest (map (fun b => highest_rate g (b_src b) (b_conv b)) bins) mx ->
  let m0 := if Rlt_dec 0 mn then log10 mn else -1 in let m1 := log10 mx in let pad := 5 / 100 * (m1 - m0) in
  m0 < m1 -> -1 < m1 + pad ->
  exists n l, lscg_gen g bins d = Ok l /\ (0 < n)%nat /\ even_grid (Rmax (-1) (m0 - pad)) (m1 + pad) n l /\
    INR n - 1 < d * (if Rlt_dec (m0 - pad) (-1) then m1 + pad + 1 else 105 / 100 * (m1 + pad - (m0 - pad))) <= INR n.
Proof. exact grid_main. Qed.
Print Assumptions C178_grid.
(* every bin below a tenth of a count per second: all grid points are above all the rates *)
Theorem C178_above_error : forall g bins d mn mx l,
  least (map (fun b => lowest_rate g (b_src b) (b_bkg b) (b_area b) (b_conv b)) bins) mn -> greatest (map (fun b => highest_rate g (b_src b) (b_conv b)) bins) mx ->
  mn <= mx -> 0 < mn -> mx < 1 / 10 -> 0 < d -> lscg_gen g bins d = Ok l -> forall x, In x l -> -1 <= x.
Proof. exact grid_above. Qed.
Print Assumptions C178_above_error.
Theorem C178_faint_error : forall g bins mn mx,
  least (map (fun b => lowest_rate g (b_src b) (b_bkg b) (b_area b) (b_conv b)) bins) mn -> greatest (map (fun b => highest_rate g (b_src b) (b_conv b)) bins) mx ->
  mn <= 0 -> 0 < mx <= 1 / 100 -> lscg_gen g bins 100 = Err ValueError.
Proof. exact grid_faint. Qed.
Print Assumptions C178_faint_error.
Theorem C178_no_bins_error : forall g d,
  lscg_gen g [] d = Err ValueError.
Proof. exact grid_empty. Qed.
Print Assumptions C178_no_bins_error.
Theorem C178_quantiles : forall g n p q,
  quantile_function g -> 0 < p < 1 -> 0 < q < 1 -> p <= q -> g (INR n + 1) p <= g (INR n + 1) q.
Proof. exact quantile_increasing. Qed.
Print Assumptions C178_quantiles.
Theorem C178_quantile_below : forall g n p z,
  quantile_function g -> 0 < p < 1 -> 0 <= z -> erlang (S n) z < 1 - p -> g (INR n + 1) p <= z.
Proof. exact quantile_below. Qed.
Print Assumptions C178_quantile_below.
(* five counts in two thousand seconds and no background *)
Theorem C178_faint_source_refuted : exists time_del src_counts, length time_del = length src_counts /\ Forall (fun t => 0 < t) time_del /\ Forall (fun c => 0 < c) src_counts /\
  forall g pmf, quantile_function g -> bexvar_input g pmf time_del src_counts None None None = Err ValueError.
Proof.
  exists [2000], [5]. split; [reflexivity|]. split; [repeat constructor; lra|]. split; [repeat constructor; lra|]. exact faint_source.
Qed.
Print Assumptions C178_faint_source_refuted.
Example C178_nonvacuous : least [3; 1; 2] 1 /\ greatest [3; 1; 2] 3 /\ even_grid 1 3 3 [1; 2; 3].
Proof.
  split; [|split].
  - split; [right; now left|]. intros x [<-|[<-|[<-|[]]]]; lra.
  - split; [now left|]. intros x [<-|[<-|[<-|[]]]]; lra.
  - split; [reflexivity|]. intros i Hi. destruct i as [|[|[|i]]]; [| | |lia]; cbn [nth INR Nat.sub]; field.
Qed.
Example C178_nonvacuous_quantile : exists g, quantile_function g.
Proof. exists quantile. exact quantile_ok. Qed.
(* one bin with rates between 1 and 100: the grid goes from 0.8 to 125 *)
Example C178_nonvacuous_grid : let g := fun (a p : R) => if Rlt_dec p (1 / 2) then 1 else if Rlt_dec a 2 then 0 else 100 in
  let mn := lowest_rate g 9 0 1 1 in let mx := highest_rate g 9 1 in
  0 < mn /\ (if Rlt_dec 0 mn then log10 mn else -1) < log10 mx /\ -1 < log10 mx + 5 / 100 * (log10 mx - (if Rlt_dec 0 mn then log10 mn else -1)).
Proof.
  cbv zeta. unfold lowest_rate, highest_rate. repeat (match goal with |- context [Rlt_dec ?a ?b] => destruct (Rlt_dec a b) as [?H|?H]; try lra end).
  assert (A : log10 (1 / 1 - 0 / (1 * 1)) = 0) by (unfold log10; replace (1 / 1 - 0 / (1 * 1)) with 1 by field; rewrite ln_1; unfold Rdiv; ring).
  assert (L : 0 < ln 10) by (rewrite <- ln_1; apply ln_increasing; lra).
  assert (B : log10 (100 / 1) = 2) by (unfold log10; replace (100 / 1) with (10 * 10) by field; rewrite ln_mult by lra; field; lra).
  rewrite A, B. lra.
Qed.

(* ---------- C179: weights, priors, likelihood and the bins that are used ---------- *)
Theorem C179_weights : forall g pmf grid b,
  (forall k m, 0 <= pmf k m) -> (exists x, In x grid /\ 0 < prob g pmf b x) ->
  exists w, estimate_source_cr g pmf grid b = map Some w /\ length w = length grid /\ rlsum w = 1 /\ (forall y, In y w -> 0 <= y) /\
    exists s, 0 < s /\ forall i, (i < length grid)%nat -> nth i w 0 = prob g pmf b (nth i grid 0) / s.
Proof. exact weights_ok. Qed.
Print Assumptions C179_weights.
Theorem C179_prob : forall g pmf b x,
  prob g pmf b x = rs 998 (fun i => pmf (b_src b) (Rpower 10 x * b_conv b + g (b_bkg b + 1) (INR (S i) / 999) / b_area b)) / 998.
Proof. exact prob_mean. Qed.
Print Assumptions C179_prob.
Theorem C179_no_weight_error : forall g pmf grid b,
  (forall x, In x grid -> prob g pmf b x = 0) -> estimate_source_cr g pmf grid b = repeat None (length grid).
Proof. exact weights_zero. Qed.
Print Assumptions C179_no_weight_error.
Theorem C179_transform : forall grid u v,
  grid <> [] -> nth 0 grid 0 <= last grid 0 -> 0 <= u <= 1 -> 0 <= v <= 1 ->
  exists m s, transform grid (u, v) = Ok (m, s) /\ nth 0 grid 0 <= m <= last grid 0 /\ 1 / 100 <= s <= 100 /\
    (u = 0 -> m = nth 0 grid 0) /\ (u = 1 -> m = last grid 0) /\ (v = 0 -> s = 1 / 100) /\ (v = 1 / 2 -> s = 1) /\ (v = 1 -> s = 100).
Proof. exact transform_ok. Qed.
Print Assumptions C179_transform.
Theorem C179_empty_grid_error : forall c,
  transform [] c = Err IndexError.
Proof. exact transform_empty. Qed.
Print Assumptions C179_empty_grid_error.
Theorem C179_loglike : forall npdf grid pdfs m s,
  (forall row, In row pdfs -> length row = length grid) ->
  loglike npdf grid pdfs (m, s) = rlsum (map (fun row => ln (rs (length grid) (fun i => npdf (nth i grid 0) m s * nth i row 0) / INR (length grid) + / 10 ^ 100)) pdfs).
Proof. exact loglike_exact. Qed.
Print Assumptions C179_loglike.
Theorem C179_loglike_low : forall npdf grid pdfs m s,
  (forall x, 0 <= npdf x m s) -> grid <> [] -> (forall row, In row pdfs -> length row = length grid /\ forall y, In y row -> 0 <= y) ->
  INR (length pdfs) * ln (/ 10 ^ 100) <= loglike npdf grid pdfs (m, s).
Proof. exact loglike_low. Qed.
Print Assumptions C179_loglike_low.
Theorem C179_bins : forall rows, select_bins (map r_len rows) (map r_src rows) (Some (map r_bkg rows)) (Some (map r_ratio rows)) (Some (map r_frac rows)) =
  map (fun r => mkBin (r_src r) (r_bkg r) (1 / r_ratio r) (r_frac r * r_len r)) (filter (fun r => if Rlt_dec (1 / 10) (r_frac r) then true else false) rows).
Proof. exact select_rows. Qed.
Print Assumptions C179_bins.
Theorem C179_no_background : forall t s ra fr,
  select_bins t s None ra fr = select_bins t s (Some (repeat 0 (length s))) ra fr.
Proof. exact select_default_bkg. Qed.
Print Assumptions C179_no_background.
Theorem C179_no_ratio : forall t s b fr,
  select_bins t s b None fr = select_bins t s b (Some (repeat 1 (length s))) fr.
Proof. exact select_default_ratio. Qed.
Print Assumptions C179_no_ratio.
Theorem C179_no_fraction : forall t s b ra,
  select_bins t s b ra None = select_bins t s b ra (Some (repeat 1 (length s))).
Proof. exact select_default_frac. Qed.
Print Assumptions C179_no_fraction.
Theorem C179_input : forall g pmf t s b ra fr grid,
  lscg_gen g (select_bins t s b ra fr) 100 = Ok grid -> bexvar_input g pmf t s b ra fr = Ok (grid, map (estimate_source_cr g pmf grid) (select_bins t s b ra fr)).
Proof. exact input_ok. Qed.
Print Assumptions C179_input.
Example C179_nonvacuous : exists g pmf grid b, (forall k m : R, 0 <= pmf k m) /\ (exists x, In x grid /\ 0 < prob g pmf b x).
Proof.
  exists (fun _ _ => 1), (fun _ _ => 1), [0; 1], (mkBin 5 0 1 1). split; [intros; lra|]. exists 0. split; [now left|]. rewrite prob_mean, rs_const. rewrite INR_IZR_INZ. change (IZR (Z.of_nat 998)) with 998. lra.
Qed.
Example C179_nonvacuous_bins : select_bins [10; 10] [5; 6] None None (Some [1 / 20; 1 / 2]) = [mkBin 6 0 (1 / 1) (1 / 2 * 10)].
Proof.
  rewrite select_default_bkg, select_default_ratio. exact (eq_trans (select_rows [mkRow 10 5 0 1 (1 / 20); mkRow 10 6 0 1 (1 / 2)]) ltac:(cbn [filter]; unfold keep; cbn [r_frac]; destruct (Rlt_dec (1 / 10) (1 / 20)); [lra|]; destruct (Rlt_dec (1 / 10) (1 / 2)); [reflexivity|lra])).
Qed.

