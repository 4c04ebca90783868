(* T_utils.v: property theorems about utils.py (C18, C20, C49-C53). *)
From Verif Require Import Np Lib S_gti S_seg S_utils M_gti M_seg M_utils P_seg_regions P_seg_cut P_rebin P_rebin2 P_hist P_logbin P_helpers.
From Coq Require Import Lqa Sorted Permutation.
Open Scope Q_scope.

(* ---------- C18 ---------- *)
(* Floating-point arrays; dx None, a number or an array ([widths_of] says which widths D that means).  New bin i covers
   [lo i, lo (i+1)); [amount] is the signal of the old bins shared by overlap length. *)
Theorem C18_rebin_exact : forall x y dxn yerr (average : bool) dx D x0 xl d0 dl k,
  increasing x -> length y = length x -> length (errors_of y yerr) = length y ->
  widths_of x dx D -> (forall d, In d D -> d <= dxn) -> widths_at_most dxn x -> 0 < dxn -> 0 < dl ->
  nth_error x 0 = Some x0 -> nth_error x (length x - 1) = Some xl ->
  nth_error D 0 = Some d0 -> nth_error D (length D - 1) = Some dl ->
  (0 < k)%nat -> inject_Z (Z.of_nat k) * dxn <= xl + dl - x0 -> xl + dl - x0 < inject_Z (Z.of_nat k + 1) * dxn ->
  let xe := x ++ [xl + dl] in
  let lo i := x0 + inject_Z (Z.of_nat i) * dxn in
  exists out, rebin_data idq idq x y dxn yerr (method_of average) dx = Ok out /\
    length (r_x out) = k /\ length (r_y out) = k /\ length (r_err2 out) = k /\
    (forall i, (i < k)%nat -> exists xm v e, nth_error (r_x out) i = Some xm /\ nth_error (r_y out) i = Some v /\
       nth_error (r_err2 out) i = Some e /\ xm == lo i - d0 / 2 + dxn / 2 /\
       let n := old_bins xe (lo i) (lo (S i)) in
       v == (if average then amount xe y (lo i) (lo (S i)) / n else amount xe y (lo i) (lo (S i))) /\
       e == (if average then amount xe (errors_of y yerr) (lo i) (lo (S i)) / (n * n)
             else amount xe (errors_of y yerr) (lo i) (lo (S i)))) /\
    match r_step out with
    | StepScalar s => s == old_bins xe (lo 0%nat) (lo 1%nat)
    | StepArray l => length l = k /\ forall i s, nth_error l i = Some s -> s == old_bins xe (lo i) (lo (S i))
    end /\
    (length D = 1%nat -> exists s, r_step out = StepScalar s).
Proof. exact rebin_main. Qed.
Print Assumptions C18_rebin_exact.
Theorem C18_conserves : forall x y dxn yerr dx D x0 xl d0 dl k out,
  increasing x -> length y = length x -> length (errors_of y yerr) = length y ->
  widths_of x dx D -> (forall d, In d D -> d <= dxn) -> widths_at_most dxn x -> 0 < dxn -> 0 < dl ->
  nth_error x 0 = Some x0 -> nth_error x (length x - 1) = Some xl ->
  nth_error D 0 = Some d0 -> nth_error D (length D - 1) = Some dl ->
  (0 < k)%nat -> inject_Z (Z.of_nat k) * dxn <= xl + dl - x0 -> xl + dl - x0 < inject_Z (Z.of_nat k + 1) * dxn ->
  rebin_data idq idq x y dxn yerr MSum dx = Ok out ->
  total (r_y out) == amount (x ++ [xl + dl]) y x0 (x0 + inject_Z (Z.of_nat k) * dxn) /\
  (inject_Z (Z.of_nat k) * dxn == xl + dl - x0 -> total (r_y out) == total y).
Proof. exact rebin_conserves. Qed.
Print Assumptions C18_conserves.
Theorem C18_integer_factor : forall x y d m yerr (average : bool) dx D x0 xl dl k,
  evenly x0 d x -> 0 < d -> length y = length x -> length (errors_of y yerr) = length y ->
  widths_of x dx D -> (forall e, In e D -> e == d) -> nth_error D (length D - 1) = Some dl ->
  nth_error x 0 = Some x0 -> nth_error x (length x - 1) = Some xl ->
  (0 < m)%nat -> (0 < k)%nat -> (k * m <= length x < (k + 1) * m)%nat ->
  exists out, rebin_data idq idq x y (inject_Z (Z.of_nat m) * d) yerr (method_of average) dx = Ok out /\
    length (r_y out) = k /\
    (forall i, (i < k)%nat -> exists v e, nth_error (r_y out) i = Some v /\ nth_error (r_err2 out) i = Some e /\
       let mq := inject_Z (Z.of_nat m) in
       v == (if average then total (slice y (i * m) (S i * m)) / mq else total (slice y (i * m) (S i * m))) /\
       e == (if average then total (slice (errors_of y yerr) (i * m) (S i * m)) / (mq * mq)
             else total (slice (errors_of y yerr) (i * m) (S i * m)))) /\
    match r_step out with
    | StepScalar s => s == inject_Z (Z.of_nat m)
    | StepArray l => forall s, In s l -> s == inject_Z (Z.of_nat m)
    end /\
    (length x = (k * m)%nat -> average = false -> total (r_y out) == total y).
Proof. exact rebin_integer_factor. Qed.
Print Assumptions C18_integer_factor.
Theorem C18_finer_rejected : forall cast caste x y dxn yerr m dx D d,
  x <> [] -> widths_of x dx D -> In d D -> dxn < d ->
  rebin_data cast caste x y dxn yerr m dx = Err ValueError.
Proof. exact rebin_finer. Qed.
Print Assumptions C18_finer_rejected.
Theorem C18_unknown_method : forall cast caste x y dxn yerr dx out,
  rebin_data cast caste x y dxn yerr MSum dx = Ok out ->
  rebin_data cast caste x y dxn yerr MOther dx = Err ValueError.
Proof. exact rebin_unknown_method. Qed.
Print Assumptions C18_unknown_method.
Theorem C18_integer_counts_refuted : 
  exists x y dxn out, increasing x /\ length y = length x /\ (exists k : Z, 3 == inject_Z k * dxn) /\
  rebin_data to_int to_int x y dxn None MSum (DxScalar 1) = Ok out /\ Forall (fun v => exists z, v = inject_Z z) y /\
  total (r_y out) == 2 /\ total y == 3.
Proof. exact rebin_integer_dtype. Qed.
Print Assumptions C18_integer_counts_refuted.
Theorem C18_errors_not_in_quadrature_refuted : 
  exists x y yerr dxn out e, increasing x /\
  rebin_data idq idq x y dxn (Some yerr) MSum DxNone = Ok out /\ nth_error (r_err2 out) 0 = Some e /\
  slice yerr 0 2 = [3; 3] /\ e == 6 /\ ~ e == total (map (fun v => v * v) (slice yerr 0 2)).
Proof. exact rebin_errors_not_quadratic. Qed.
Print Assumptions C18_errors_not_in_quadrature_refuted.
Theorem C18_uneven_scalar_dx_refuted : 
  exists x y dxn out, increasing x /\ length y = length x /\
  rebin_data idq idq x y dxn None MSum (DxScalar 1) = Ok out /\ total y == 2 /\ 5 < total (r_y out).
Proof. exact rebin_uneven_scalar_dx. Qed.
Print Assumptions C18_uneven_scalar_dx_refuted.
Theorem C18_too_wide_refuted : 
  exists x y dxn, increasing x /\ length y = length x /\
  rebin_data idq idq x y dxn None MSum DxNone = Err IndexError.
Proof. exact rebin_too_wide. Qed.
Print Assumptions C18_too_wide_refuted.

Example C18_nonvacuous : exists out, increasing [0; 1; 2; 3; 4; 5] /\ widths_of [0; 1; 2; 3; 4; 5] (DxScalar 1) [1] /\
  rebin_data idq idq [0; 1; 2; 3; 4; 5] [1; 3; 5; 7; 9; 11] (3 # 2) None MSum (DxScalar 1) = Ok out /\
  Forall2 Qeq (r_y out) [(5 # 2); (13 # 2); (23 # 2); (31 # 2)] /\ inject_Z 4 * (3 # 2) == 5 + 1 - 0.
Proof.
  eexists. split; [apply inc_ss; repeat constructor; reflexivity|]. split; [right; split; [discriminate|reflexivity]|]. split; [vm_compute; reflexivity|].
  split; [repeat constructor|reflexivity].
Qed.
Example C18_integer_nonvacuous : exists out, evenly 0 1 [0; 1; 2; 3; 4] /\
  rebin_data idq idq [0; 1; 2; 3; 4] [1; 3; 5; 7; 9] (inject_Z 2 * 1) None MMean DxNone = Ok out /\ Forall2 Qeq (r_y out) [2; 6].
Proof.
  eexists. split; [|split; [vm_compute; reflexivity|repeat constructor] ].
  intros i v H. do 5 (destruct i as [|i]; [injection H as <-; reflexivity|]). destruct i; discriminate.
Qed.

(* ---------- C20 ---------- *)
(* [in_bin r n k t]: t is in the k-th of n equal bins of [fst r, snd r). *)
Theorem C20_bins_partition : forall r n t,
  fst r < snd r -> (0 < n)%nat -> in_range r t = true ->
  exists k, (k < n)%nat /\ in_bin r n k t = true /\ forall k', (k' < n)%nat -> in_bin r n k' t = true -> k' = k.
Proof. exact bins_partition. Qed.
Print Assumptions C20_bins_partition.
Theorem C20_hist1d_exact : forall tracks n r,
  fst r < snd r -> (0 < n)%nat ->
  length (hist1d tracks n r) = n /\
  (forall k, (k < n)%nat -> exists h, nth_error (hist1d tracks n r) k = Some h /\ h == inject_Z (Z.of_nat (count (in_bin r n k) tracks))) /\
  total (hist1d tracks n r) == inject_Z (Z.of_nat (count (in_range r) tracks)).
Proof. exact hist1d_main. Qed.
Print Assumptions C20_hist1d_exact.
Theorem C20_hist1d_weighted : forall tracks weights n r,
  fst r < snd r -> (0 < n)%nat ->
  length (hist1d_weight idq tracks weights n r) = n /\
  (forall k, (k < n)%nat -> exists h, nth_error (hist1d_weight idq tracks weights n r) k = Some h /\
     h == content (in_bin r n k) (combine tracks weights)) /\
  total (hist1d_weight idq tracks weights n r) == content (in_range r) (combine tracks weights).
Proof. exact hist1d_weight_main. Qed.
Print Assumptions C20_hist1d_weighted.
Theorem C20_backends_agree_partial : forall tracks n r,
  fst r < snd r -> (0 < n)%nat -> (forall t, In t tracks -> ~ t == snd r) ->
  Forall2 Qeq (histogram true tracks n r) (histogram false tracks n r).
Proof. exact histogram_backends. Qed.
Print Assumptions C20_backends_agree_partial.
   (* missing: events equal to the upper edge, refuted below *)
Theorem C20_upper_edge_refuted : 
  exists tracks n r, fst r < snd r /\
  ~ Forall2 Qeq (histogram true tracks n r) (histogram false tracks n r).
Proof. exact histogram_upper_edge. Qed.
Print Assumptions C20_upper_edge_refuted.
Theorem C20_integer_weights_refuted : 
  exists tracks weights n r h,
  fst r < snd r /\ length tracks = length weights /\ Forall (fun t => exists z, t = inject_Z z) tracks /\
  nth_error (hist1d_weight to_int tracks weights n r) 0 = Some h /\ h == 0 /\ content (in_bin r n 0) (combine tracks weights) == 1.
Proof. exact hist1d_weight_integer. Qed.
Print Assumptions C20_integer_weights_refuted.
Theorem C20_hist2d_exact : forall tracks bx by_ rx ry i j,
  fst rx < snd rx -> fst ry < snd ry -> (i < bx)%nat -> (j < by_)%nat ->
  exists h, get2 (hist2d tracks bx by_ rx ry) i j = Some h /\
    h == inject_Z (Z.of_nat (count (fun xy : Q * Q => in_bin rx bx i (fst xy) && in_bin ry by_ j (snd xy))%bool tracks)).
Proof. exact hist2d_main. Qed.
Print Assumptions C20_hist2d_exact.
Theorem C20_hist2d_weighted : forall tracks bx by_ rx ry i j,
  fst rx < snd rx -> fst ry < snd ry -> (i < bx)%nat -> (j < by_)%nat ->
  exists h, get2 (hist2d_weight tracks bx by_ rx ry) i j = Some h /\
    h == content (fun xy : Q * Q => in_bin rx bx i (fst xy) && in_bin ry by_ j (snd xy)) tracks.
Proof. exact hist2d_weight_main. Qed.
Print Assumptions C20_hist2d_weighted.
Theorem C20_histnd_exact : forall tracks bins rs idx,
  length bins = length rs -> ranges_ok rs -> idx_ok bins idx ->
  (forall t, In t tracks -> length t = length rs) ->
  exists h, nth_error (histnd tracks bins rs) (flat_index bins idx) = Some h /\
    h == inject_Z (Z.of_nat (count (in_bins rs bins idx) tracks)).
Proof. exact histnd_main. Qed.
Print Assumptions C20_histnd_exact.
Theorem C20_hist3d_partial : forall tracks bx by_ bz rx ry rz,
  fst rx < snd rx -> fst ry < snd ry -> fst rz < snd rz ->
  (0 < bx)%nat -> (0 < by_)%nat -> (0 < bz)%nat ->
  (forall x y z w, In (x, y, z, w) tracks -> in_range rz z = true) ->
  exists H, hist3d_weight tracks bx by_ bz rx ry rz = Ok H /\
    forall i j k, (i < bx)%nat -> (j < by_)%nat -> (k < bz)%nat -> exists h, get3 H i j k = Some h /\
    h == content (fun v : Q * Q * Q => in_bin rx bx i (fst (fst v)) && in_bin ry by_ j (snd (fst v)) && in_bin rz bz k (snd v)) tracks.
Proof. exact hist3d_main. Qed.
Print Assumptions C20_hist3d_partial.
   (* missing: third coordinate outside its range, refuted below *)
Theorem C20_hist3d_out_of_range_refuted : 
  exists x y z b r H h, fst r < snd r /\ in_range r z = false /\ z < fst r /\
  hist3d_weight [(x, y, z, 1)] b b b r r r = Ok H /\ get3 H 0 0 1 = Some h /\ h == 1.
Proof. exact hist3d_out_of_range_counted. Qed.
Print Assumptions C20_hist3d_out_of_range_refuted.
Theorem C20_hist3d_out_of_bounds_refuted : 
  exists x y z b r, fst r < snd r /\ snd r <= z /\
  hist3d_weight [(x, y, z, 1)] b b b r r r = Err IndexError.
Proof. exact hist3d_out_of_bounds. Qed.
Print Assumptions C20_hist3d_out_of_bounds_refuted.
Theorem C20_compute_bin_partial : forall n lo hi x edges,
  lo < hi -> (0 < n)%nat -> length edges = S n ->
  nth_error edges 0 = Some lo -> nth_error edges n = Some hi ->
  (lo <= x -> x < hi -> exists k, compute_bin x edges = Ok (Some (Z.of_nat k)) /\ (k < n)%nat /\ in_bin (lo, hi) n k x = true) /\
  (x == hi -> compute_bin x edges = Ok (Some (Z.of_nat n - 1)%Z)) /\
  (hi < x -> compute_bin x edges = Ok None) /\
  (x <= lo - (hi - lo) / inject_Z (Z.of_nat n) -> compute_bin x edges = Ok None).
Proof. exact compute_bin_main. Qed.
Print Assumptions C20_compute_bin_partial.
   (* missing: less than one bin below the range, refuted below *)
Theorem C20_compute_bin_refuted : 
  exists x edges, nth_error edges 0 = Some 0 /\ x < 0 /\ compute_bin x edges = Ok (Some 0%Z).
Proof. exact compute_bin_below. Qed.
Print Assumptions C20_compute_bin_refuted.

Example C20_nonvacuous : fst (0, 3) < snd (0, 3) /\ Forall2 Qeq (hist1d [0; (1 # 2); 2; 3; 5; -(1); 1] 3 (0, 3)) [2; 1; 1] /\
  Forall2 Qeq (hist1d_weight idq [0; (1 # 2); 2; 3; 5; -(1); 1] [1; 2; 3; 4; 5; 6; 7] 3 (0, 3)) [3; 7; 3] /\
  get2 (hist2d [(0, 1); (0, 1); (1, 0); (2, 2)] 2 2 (0, 2) (0, 2)) 0 1 = Some (0 + 1 + 1) /\
  compute_bin (3 # 2) [0; 1; 2] = Ok (Some 1%Z).
Proof. split; [reflexivity|]. split; [repeat constructor|]. split; [repeat constructor|]. split; reflexivity. Qed.

(* ---------- C49 ---------- *)
(* f >= 0, dx given, x sorted from x0 >= 0: edges grow by 1+f; each sample is in exactly one bin; each bin has the mean of
   its samples (None: empty), the squared error sum/n^2 and the sample count. *)
Theorem C49_rebin_log_exact : forall fuel x y f ye d x0 xl edges bx by_ be ns,
  0 <= f -> 0 < d -> nondecreasing x -> nth_error x 0 = Some x0 -> nth_error x (length x - 1) = Some xl -> 0 <= x0 ->
  rebin_data_log fuel x y f (Some ye) (Some d) = Ok (edges, (bx, by_, be, ns)) ->
  length y = length x /\ length ye = length x /\
  increasing edges /\ growing f edges /\
  nth_error edges 0 = Some (x0 * (1 # 2)) /\ (exists e, nth_error edges 1 = Some e /\ e - x0 * (1 # 2) == d) /\
  (forall u, nth_error edges (length edges - 1) = Some u -> xl < u) /\ (2 <= length edges)%nat /\
  (let nb := (length edges - 1)%nat in
   length bx = nb /\ length by_ = nb /\ length be = nb /\ length ns = nb /\
   (forall i n, nth_error ns i = Some n -> n = count (in_cell edges i) x) /\
   (forall i o, nth_error bx i = Some o -> let n := inject_Z (Z.of_nat (count (in_cell edges i) x)) in
      match o with None => n == 0 | Some m => m * n == content (in_cell edges i) (combine x x) /\ 0 < n end) /\
   (forall i o, nth_error by_ i = Some o -> let n := inject_Z (Z.of_nat (count (in_cell edges i) x)) in
      match o with None => n == 0 | Some m => m * n == content (in_cell edges i) (combine x y) /\ 0 < n end) /\
   (forall i o, nth_error be i = Some o -> let n := inject_Z (Z.of_nat (count (in_cell edges i) x)) in
      match o with None => n == 0
      | Some m => m * (n * n) == content (in_cell edges i) (combine x (map (fun v => v * v) ye)) /\ 0 < n end) /\
   fold_right Nat.add 0%nat ns = length x /\
   total (map (fun i => content (in_cell edges i) (combine x y)) (seq 0 nb)) == total y).
Proof. exact rebin_log_main. Qed.
Print Assumptions C49_rebin_log_exact.
Theorem C49_rebin_log_terminates : forall x y f ye d x0 xl,
  0 <= f -> 0 < d -> nth_error x 0 = Some x0 -> nth_error x (length x - 1) = Some xl ->
  length y = length x -> length ye = length x -> exists fuel out, rebin_data_log fuel x y f (Some ye) (Some d) = Ok out.
Proof. exact rebin_log_total. Qed.
Print Assumptions C49_rebin_log_terminates.
Theorem C49_rebin_log_negative_f_refuted : 
  exists x y f, increasing x /\ length y = length x /\ -(1) < f /\
  forall fuel, rebin_data_log fuel x y f None None = Err OutOfFuel.
Proof. exact rebin_log_diverges. Qed.
Print Assumptions C49_rebin_log_negative_f_refuted.
Theorem C49_rebin_log_negative_x_refuted : 
  exists x y edges bx by_ be ns, increasing x /\ length y = length x /\
  rebin_data_log 10 x y 0 None (Some 1) = Ok (edges, (bx, by_, be, ns)) /\ (fold_right Nat.add 0 ns < length x)%nat.
Proof. exact rebin_log_negative. Qed.
Print Assumptions C49_rebin_log_negative_x_refuted.

Example C49_nonvacuous : exists edges bx by_ be ns, nondecreasing [1; 2; 3; 4; 5; 6] /\
  rebin_data_log 10 [1; 2; 3; 4; 5; 6] [1; 3; 5; 7; 9; 11] (1 # 2) (Some [1; 1; 1; 1; 1; 1]) (Some 1) = Ok (edges, (bx, by_, be, ns)) /\
  ns = [1; 1; 3; 1]%nat.
Proof. do 5 eexists. split; [apply is_sorted_iff; reflexivity|]. split; [vm_compute; reflexivity|reflexivity]. Qed.

(* ---------- C50 ---------- *)
Theorem C50_find_nearest : forall array value left,
  nondecreasing array -> array <> [] ->
  exists a i, find_nearest array value left = Ok (a, Z.of_nat i) /\ nth_error array i = Some a /\
    forall k b, nth_error array k = Some b -> Qabs (value - a) <= Qabs (value - b).
Proof. exact find_nearest_main. Qed.
Print Assumptions C50_find_nearest.
Theorem C50_find_nearest_empty : forall value left,
  find_nearest [] value left = Err IndexError.
Proof. exact find_nearest_empty. Qed.
Print Assumptions C50_find_nearest_empty.
Theorem C50_look_for_first : forall a1 a2,
  match look_for_array_in_array a1 a2 with
  | Some v => exists i, nth_error a1 i = Some v /\ (exists w, In w a2 /\ v == w) /\
                forall k u w, (k < i)%nat -> nth_error a1 k = Some u -> In w a2 -> ~ u == w
  | None => forall u w, In u a1 -> In w a2 -> ~ u == w
  end.
Proof. exact look_for_main. Qed.
Print Assumptions C50_look_for_first.

Example C50_nonvacuous : nondecreasing [1; 3; 7] /\ find_nearest [1; 3; 7] (9 # 2) true = Ok (3, 1%Z) /\
  look_for_array_in_array [5; 6; 7] [7; 6] = Some 6.
Proof. split; [apply is_sorted_iff; reflexivity|]. split; reflexivity. Qed.

(* ---------- C51 ---------- *)
(* The function returns the next power of two except at 2^k+1, k >= 2 (where it returns 2^k): not the nearest one. *)
Theorem C51_power_of_two_refuted : 
  exists x p, power_of_two p /\ (Z.abs (x - p) < Z.abs (x - nearest_power_of_two x))%Z.
Proof. exact npt_refuted. Qed.
Print Assumptions C51_power_of_two_refuted.
Theorem C51_exact : forall x,
  (2 <= x)%Z -> exists k, (0 <= k)%Z /\ (2 ^ k < x <= 2 ^ (k + 1))%Z /\
  nearest_power_of_two x = (if (x =? 2 ^ k + 1)%Z && (2 <=? k)%Z then 2 ^ k else 2 ^ (k + 1))%Z.
Proof. exact npt_main. Qed.
Print Assumptions C51_exact.
Theorem C51_power_of_two_bounds : forall x,
  (2 <= x)%Z -> power_of_two (nearest_power_of_two x) /\ (x <= 2 * nearest_power_of_two x)%Z /\ (nearest_power_of_two x < 2 * x)%Z.
Proof. exact npt_power. Qed.
Print Assumptions C51_power_of_two_bounds.

Example C51_nonvacuous : (2 <= 9)%Z /\ nearest_power_of_two 9 = 8%Z /\ nearest_power_of_two 10 = 16%Z /\ nearest_power_of_two 1 = 2%Z.
Proof. split; [discriminate|]. repeat split. Qed.

(* ---------- C52 ---------- *)
Theorem C52_fix_segment_size : forall s dt tol seg n,
  0 < dt -> fix_segment_size s dt tol = (seg, n) ->
  seg == inject_Z n * dt /\ s - dt < seg /\ seg < s + dt /\ (s < seg -> seg < s + tol * dt) /\
  (seg < s -> s + tol * dt <= seg + dt \/ s == seg).
Proof. exact fix_segment_main. Qed.
Print Assumptions C52_fix_segment_size.
Theorem C52_integer_unchanged : forall k dt tol,
  0 < dt -> snd (fix_segment_size (inject_Z k * dt) dt tol) = k.
Proof. exact fix_segment_exact. Qed.
Print Assumptions C52_integer_unchanged.
Theorem C52_equal_count_edges : forall energies n emin emax,
  (1 < n)%nat -> energies <> [] ->
  exists lo hi, lower_bound_is energies emin lo /\ upper_bound_is energies emax hi /\
  let en := filter (fun e => qle lo e && qle e hi)%bool energies in
  (en <> [] ->
  exists edges, equal_count_energy_ranges energies n emin emax = Ok edges /\ length edges = S n /\
    nth_error edges 0 = Some lo /\ nth_error edges n = Some hi /\
    forall k e, (0 < k < n)%nat -> nth_error edges k = Some e ->
      let pos := inject_Z (Z.of_nat k) / inject_Z (Z.of_nat n) * inject_Z (Z.of_nat (length en) - 1) in
      interpolated en pos e /\
      inject_Z (Z.of_nat (count (fun u => qlt u e) en)) <= pos + 1 /\ pos < inject_Z (Z.of_nat (count (fun u => qle u e) en))).
Proof. exact equal_count_main. Qed.
Print Assumptions C52_equal_count_edges.
Theorem C52_int_sum : forall (l : list Z),
  int_sum_non_zero (map inject_Z l) = fold_right Z.add 0%Z (filter (fun z => (0 <? z)%Z) l).
Proof. exact int_sum_main. Qed.
Print Assumptions C52_int_sum.

Example C52_nonvacuous : fix_segment_size (999 # 1000) (1 # 10) (1 # 50) = (inject_Z 10 * (1 # 10), 10%Z) /\
  exists edges, equal_count_energy_ranges [5; 1; 2; 3; 4] 2 (Some 0) (Some 6) = Ok edges /\ Forall2 Qeq edges [0; 3; 6].
Proof. split; [reflexivity|]. eexists. split; [vm_compute; reflexivity|repeat constructor]. Qed.

(* ---------- C53 ---------- *)
(* Trailing dimensions up to 10 each; missing: longer ones, refuted below. *)
Theorem C53_columns_round_trip_partial : forall A dims (columns : list A),
  Forall (fun d => 1 <= d <= 10)%nat dims -> length columns = shape_size dims ->
  make_1d_arrays_into_nd (make_nd_into_arrays dims columns) = Ok (dims, columns).
Proof. exact @nd_round_trip. Qed.
Print Assumptions C53_columns_round_trip_partial.
Theorem C53_eleven_columns_refuted : 
  exists dims (columns : list nat) out, length columns = shape_size dims /\
  make_1d_arrays_into_nd (make_nd_into_arrays dims columns) = Ok (dims, out) /\ out <> columns.
Proof. exact nd_eleven. Qed.
Print Assumptions C53_eleven_columns_refuted.

Example C53_nonvacuous : Forall (fun d => 1 <= d <= 10)%nat [2; 3]%nat /\ length [1; 2; 3; 4; 5; 6] = shape_size [2; 3]%nat /\
  make_1d_arrays_into_nd (make_nd_into_arrays [2; 3]%nat [1; 2; 3; 4; 5; 6]) = Ok ([2; 3]%nat, [1; 2; 3; 4; 5; 6]).
Proof. split; [repeat constructor|]. split; reflexivity. Qed.

