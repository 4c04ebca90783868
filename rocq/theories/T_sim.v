(* T_sim.v: property theorems about random values drawn from histograms, delayed light curves and transfer functions (C125, C127). *)
From Verif Require Import Np Lib M_gti M_seg M_utils S_gti S_seg M_sim S_sim P_sim P_sim2 P_sim3 P_sim4 P_sim5 P_gti_cross.
From Coq Require Import ZArith QArith List Bool Arith Lia Lqa Permutation.
Import ListNotations.
Open Scope Q_scope.

(* ---------- C125: random values drawn from a histogram ---------- *)
Theorem C125_values : forall right pdf us rng (sorted : bool) edges,
  Forall (Qle 0) pdf -> 0 < whole pdf -> (2 <= length pdf)%nat -> length edges = S (length pdf) -> drawn right us ->
  exists ps vals, simulate_with_inverse_cdf right pdf us rng sorted (Some edges) = Ok (map Some vals) /\
    ps = (if sorted then np_sort us else us) /\ Forall2 (quantile pdf edges) ps vals.
Proof. exact histogram_values. Qed.
Print Assumptions C125_values.
Theorem C125_range_values : forall right pdf us a b (sorted : bool),
  Forall (Qle 0) pdf -> 0 < whole pdf -> (2 <= length pdf)%nat -> drawn right us ->
  exists edges ps vals, equal_bins a b (length pdf) edges /\ simulate_with_inverse_cdf right pdf us (Some (a, b)) sorted None = Ok (map Some vals) /\
    ps = (if sorted then np_sort us else us) /\ Forall2 (quantile pdf edges) ps vals.
Proof. exact range_values. Qed.
Print Assumptions C125_range_values.
Theorem C125_unit_range : forall right pdf us (sorted : bool) edges,
  simulate_with_inverse_cdf right pdf us None sorted edges = simulate_with_inverse_cdf right pdf us (Some (0, 1)) sorted edges.
Proof. exact unit_range. Qed.
Print Assumptions C125_unit_range.
Theorem C125_sorted : forall right pdf us rng edges vals,
  Forall (Qle 0) pdf -> 0 < whole pdf -> (2 <= length pdf)%nat -> length edges = S (length pdf) -> drawn right us -> nondecreasing edges ->
  simulate_with_inverse_cdf right pdf us rng true (Some edges) = Ok (map Some vals) -> nondecreasing vals.
Proof. exact sorted_values. Qed.
Print Assumptions C125_sorted.
Theorem C125_in_range : forall pdf edges u v first last,
  nondecreasing edges -> quantile pdf edges u v -> nth_error edges 0 = Some first -> nth_error edges (length edges - 1) = Some last -> first <= v /\ v <= last.
Proof. exact quantile_range. Qed.
Print Assumptions C125_in_range.
Theorem C125_bin_probability : forall pdf edges u v k a b,
  Forall (Qle 0) pdf -> increasing edges -> quantile pdf edges u v -> nth_error edges k = Some a -> nth_error edges (S k) = Some b ->
  (a < v /\ v < b <-> area pdf k < u * whole pdf /\ u * whole pdf < area pdf (S k)).
Proof. exact quantile_bin. Qed.
Print Assumptions C125_bin_probability.
Theorem C125_empty_bin : forall pdf edges u v k a b,
  Forall (Qle 0) pdf -> increasing edges -> quantile pdf edges u v -> nth_error pdf k = Some 0 -> nth_error edges k = Some a -> nth_error edges (S k) = Some b -> ~ (a < v /\ v < b).
Proof. exact empty_bin. Qed.
Print Assumptions C125_empty_bin.
Theorem C125_single_gti : forall right time counts a b dt draws,
  Forall (Qle 0) counts -> a < b -> drawn right (draws 0%nat) -> (whole counts == 0 -> draws 0%nat = []) ->
  exists vals, simulate_times right time counts [(a, b)] dt draws = Ok (map Some vals) /\ drawn_in counts (draws 0%nat) a b vals.
Proof. exact single_gti. Qed.
Print Assumptions C125_single_gti.
Theorem C125_several_gtis : forall right time counts gti dt draws,
  well_formed gti -> positive_lengths gti -> (2 <= length gti)%nat -> increasing time -> 0 < dt -> Forall (Qle 0) counts -> length counts = length time ->
  (forall a b, In (a, b) gti -> exists t, In t time /\ bin_inside t dt ((1 # 1000) * dt) a b) -> (forall i, drawn right (draws i)) ->
  (forall i a b, nth_error gti i = Some (a, b) -> (forall k t c, nth_error time k = Some t -> nth_error counts k = Some c -> bin_inside t dt ((1 # 1000) * dt) a b -> c == 0) -> draws i = []) ->
  exists parts, simulate_times right time counts gti dt draws = Ok (map Some (concat parts)) /\ length parts = length gti /\ nondecreasing (concat parts) /\
    forall i a b part, nth_error gti i = Some (a, b) -> nth_error parts i = Some part ->
      exists s e, (e <= length time)%nat /\ (forall k t, nth_error time k = Some t -> ((s <= k < e)%nat <-> bin_inside t dt ((1 # 1000) * dt) a b)) /\ drawn_in (slice counts s e) (draws i) a b part.
Proof. exact several_gtis. Qed.
Print Assumptions C125_several_gtis.
Theorem C125_filled : forall a b n edges dt i e,
  (0 < n)%nat -> equal_bins a b n edges -> b - a == inject_Z (Z.of_nat n) * dt -> nth_error edges i = Some e -> e == a + inject_Z (Z.of_nat i) * dt.
Proof. exact filled. Qed.
Print Assumptions C125_filled.
Theorem C125_energies_edges : forall right energy fluxes us,
  Forall (Qle 0) fluxes -> 0 < whole fluxes -> (2 <= length fluxes)%nat -> length energy = S (length fluxes) -> drawn right us ->
  exists vals, simulate_energies right energy fluxes us = Ok (map Some vals) /\ Forall2 (quantile fluxes energy) us vals.
Proof. exact energies_edges. Qed.
Print Assumptions C125_energies_edges.
Theorem C125_energies_centres : forall right energy fluxes us e0 de,
  Forall (Qle 0) fluxes -> 0 < whole fluxes -> (2 <= length fluxes)%nat -> length energy = length fluxes -> drawn right us ->
  (forall i e, nth_error energy i = Some e -> e == e0 + inject_Z (Z.of_nat i) * de) ->
  exists edges vals, length edges = S (length fluxes) /\ (forall i x, nth_error edges i = Some x -> x == e0 + inject_Z (Z.of_nat i) * de - de / 2) /\
    simulate_energies right energy fluxes us = Ok (map Some vals) /\ Forall2 (quantile fluxes edges) us vals.
Proof. exact energies_centres. Qed.
Print Assumptions C125_energies_centres.
Theorem C125_negative_error : forall right pdf us rng sorted edges c,
  In c pdf -> c < 0 -> simulate_with_inverse_cdf right pdf us rng sorted edges = Err ValueError.
Proof. exact negative_pdf. Qed.
Print Assumptions C125_negative_error.
Theorem C125_negative_counts_error : forall right time counts gti dt draws c,
  In c counts -> c < 0 -> simulate_times right time counts gti dt draws = Err ValueError.
Proof. exact negative_counts. Qed.
Print Assumptions C125_negative_counts_error.
Theorem C125_edges_error : forall right pdf us rng sorted edges,
  Forall (Qle 0) pdf -> length pdf <> 1%nat -> length edges <> S (length pdf) -> simulate_with_inverse_cdf right pdf us rng sorted (Some edges) = Err ValueError.
Proof. exact wrong_edges. Qed.
Print Assumptions C125_edges_error.
Theorem C125_one_bin_refuted : 
  exists pdf edges us vals, pdf = [2] /\ edges = [5; 10] /\ us = [1 # 4; 3 # 4] /\
  simulate_with_inverse_cdf true pdf us None false (Some edges) = Ok (map Some vals) /\ Forall (fun v => v < 1) vals /\
  simulate_energies true edges pdf us = Ok (map Some vals).
Proof. exact one_bin_edges. Qed.
Print Assumptions C125_one_bin_refuted.
Theorem C125_stretch_refuted : 
  exists time counts gti draws v,
  time = [1 # 2; 3 # 2] /\ counts = [1; 0] /\ gti = [(0, 4)] /\ draws 0%nat = [3 # 4] /\ vals_of (simulate_times true time counts gti 1 draws) = [v] /\ 1 < v.
Proof. exact gti_stretch. Qed.
Print Assumptions C125_stretch_refuted.
Theorem C125_squeeze_refuted : 
  exists time counts gti draws v,
  time = [1 # 2; 3 # 2] /\ counts = [1; 0] /\ gti = [(1, 2)] /\ draws 0%nat = [1 # 2] /\ vals_of (simulate_times true time counts gti 1 draws) = [v] /\ 1 < v /\ v < 2.
Proof. exact gti_squeeze. Qed.
Print Assumptions C125_squeeze_refuted.
Theorem C125_first_zero : 
  simulate_with_inverse_cdf false [0; 1] [0] None false None = Ok [None] /\ (exists v, simulate_with_inverse_cdf true [0; 1] [0] None false None = Ok [Some v] /\ v == 1 # 2).
Proof. exact first_zero. Qed.
Print Assumptions C125_first_zero.

Example C125_nonvacuous :
  drawn false [1 # 8; 3 # 4; 1 # 2] /\ Forall (Qle 0) [2; 0; 4; 2] /\ 0 < whole [2; 0; 4; 2] /\ increasing [0; 1; 2; 3; 4] /\
  vals_of (simulate_with_inverse_cdf false [2; 0; 4; 2] [1 # 8; 3 # 4; 1 # 2] None true (Some [0; 1; 2; 3; 4])) = [1 # 2; 5 # 2; 3] /\
  vals_of (simulate_with_inverse_cdf true [2; 0; 4; 2] [1 # 4; 0] (Some (0, 4)) false None) = [2; 0].
Proof.
  split; [intros u [<-|[<-|[<-|[]]]]; repeat split; try (right; reflexivity); vm_compute; discriminate|]. split; [repeat constructor; vm_compute; discriminate|]. split; [reflexivity|].
  split; [unfold increasing; apply (proj1 (ss_nth Qlt _)); repeat constructor|]. split; vm_compute; reflexivity.
Qed.
Example C125_times_nonvacuous :
  let time := [1 # 2; 3 # 2; 9 # 2; 11 # 2] in let gti := [(0, 2); (4, 6)] in let draws := fun i : nat => match i with 0%nat => [3 # 4; 1 # 4] | _ => [1 # 2] end in
  well_formed gti /\ positive_lengths gti /\ increasing time /\ (forall a b, In (a, b) gti -> exists t, In t time /\ bin_inside t 1 ((1 # 1000) * 1) a b) /\ (forall i, drawn true (draws i)) /\
  vals_of (simulate_times true time [1; 1; 0; 5] gti 1 draws) = [1 # 2; 3 # 2; 11 # 2].
Proof.
  intros time gti draws. split; [apply (check_gtis_iff gti); vm_compute; reflexivity|]. split; [intros a b [E|[E|[]]]; inversion E; reflexivity|].
  split; [unfold increasing; apply (proj1 (ss_nth Qlt _)); repeat constructor|]. split.
  - intros a b [E|[E|[]]]; inversion E; subst; [exists (1 # 2)|exists (9 # 2)]; (split; [cbn; tauto|split; vm_compute; discriminate]).
  - split; [|vm_compute; reflexivity]. intros [|i] u H; cbn in H; [destruct H as [<-|[<-|[]]]|destruct H as [<-|[]]]; (split; [vm_compute; discriminate|split; [reflexivity|now left]]).
Qed.
Example C125_energies_nonvacuous : vals_of (simulate_energies true [1; 2; 3] [1; 0; 1] [1 # 4; 3 # 4]) = [1; 3] /\ vals_of (simulate_energies true [0; 1; 5] [1; 1] [1 # 4; 3 # 4]) = [1 # 2; 3].
Proof. split; vm_compute; reflexivity. Qed.

(* ---------- C127: impulse responses and transfer functions ---------- *)
Theorem C127_full : forall dt tstart s h,
  s <> [] -> h <> [] -> delayed_curve dt tstart s h 0 (length s + length h - 1) (simulate_impulse_response dt tstart s h ModeFull).
Proof. exact ir_full. Qed.
Print Assumptions C127_full.
Theorem C127_same : forall dt tstart s h,
  s <> [] -> (2 <= length h)%nat -> delayed_curve dt tstart s h 0 (length s) (simulate_impulse_response dt tstart s h ModeSame).
Proof. exact ir_same. Qed.
Print Assumptions C127_same.
Theorem C127_filtered : forall dt tstart s h,
  (2 <= length h)%nat -> (length h <= length s)%nat -> delayed_curve dt tstart s h (length h - 1) (length s - (length h - 1)) (simulate_impulse_response dt tstart s h ModeFiltered).
Proof. exact ir_filtered. Qed.
Print Assumptions C127_filtered.
Theorem C127_delta : forall s m c k,
  delayed s (repeat 0 m ++ [c]) k == if Nat.leb m k then c * at_or_0 s (k - m) else 0.
Proof. exact delta_delay. Qed.
Print Assumptions C127_delta.
Theorem C127_total : forall s h,
  s <> [] -> h <> [] -> qsum (length s + length h - 1) (delayed s h) == whole s * whole h.
Proof. exact delayed_total. Qed.
Print Assumptions C127_total.
Theorem C127_simple_response : forall dt m w c,
  0 < dt -> simple_ir dt (inject_Z (Z.of_nat m) * dt) (inject_Z (Z.of_nat w) * dt) c = Ok (repeat 0 m ++ repeat c w).
Proof. exact simple_ir_steps. Qed.
Print Assumptions C127_simple_response.
Theorem C127_half_bin : forall dt tstart s h,
  s <> [] -> (2 <= length h)%nat -> forall k t c t', nth_error (simulate_impulse_response dt tstart s h ModeSame) k = Some (t, c) -> nth_error (sim_time dt tstart (length s)) k = Some t' -> t == t' + dt / 2.
Proof. exact half_bin. Qed.
Print Assumptions C127_half_bin.
Theorem C127_time_response : forall t row rows i j,
  tr_data t = row :: rows -> tr_estart t == 0 -> 0 < tr_de t -> (i < j)%nat -> (j <= length (tr_data t))%nat -> (j <= length row)%nat ->
  exists l, time_response t (Some (inject_Z (Z.of_nat i) * tr_de t)) (Some (inject_Z (Z.of_nat j) * tr_de t)) = Ok l /\ length l = length row /\ band_mean (tr_data t) i j l.
Proof. exact time_response_band. Qed.
Print Assumptions C127_time_response.
Theorem C127_time_response_default : forall t row rows,
  tr_data t = row :: rows -> (2 <= length row)%nat ->
  exists l, time_response t None None = Ok l /\ length l = length row /\ band_mean (tr_data t) 0 (Nat.min (length row - 1) (length (tr_data t))) l.
Proof. exact time_response_default. Qed.
Print Assumptions C127_time_response_default.
Theorem C127_energy_response : forall t i r x,
  nth_error (tr_data t) i = Some r -> r <> [] -> nth_error (energy_response t) i = Some x -> x * inject_Z (Z.of_nat (length r)) == whole r.
Proof. exact energy_response_mean. Qed.
Print Assumptions C127_energy_response.
Theorem C127_too_small_error : forall data dt de tstart estart row,
  nth_error data 0 = Some row -> (length row < 2)%nat \/ (length data < 2)%nat -> new_transfer data dt de tstart estart = Err ValueError.
Proof. exact too_small. Qed.
Print Assumptions C127_too_small_error.
Theorem C127_one_bin_error : forall dt tstart s c,
  simulate_impulse_response dt tstart s [c] ModeSame = [] /\ simulate_impulse_response dt tstart s [c] ModeFiltered = [].
Proof. exact ir_one_bin. Qed.
Print Assumptions C127_one_bin_error.
Theorem C125_no_gti_error : forall right time counts dt draws,
  simulate_times right time counts [] dt draws = Err IndexError \/ simulate_times right time counts [] dt draws = Err ValueError.
Proof. exact times_no_gti. Qed.
Print Assumptions C125_no_gti_error.
Theorem C127_zero_bin_error : forall dt start width intensity,
  dt == 0 -> simple_ir dt start width intensity = Err ZeroDivisionError.
Proof. exact simple_ir_zero. Qed.
Print Assumptions C127_zero_bin_error.
Theorem C127_negative_error : forall dt start width intensity,
  0 < dt -> start <= - dt \/ width <= - dt -> simple_ir dt start width intensity = Err ValueError.
Proof. exact simple_ir_negative. Qed.
Print Assumptions C127_negative_error.
Theorem C127_below_error : forall t e0 e1 row,
  get (tr_data t) 0 = Ok row ->
  (exists e, e0 = Some e /\ (py_int (tr_estart t + e / tr_de t) < 0)%Z) \/ (exists e, e1 = Some e /\ (py_int (tr_estart t + e / tr_de t) < 0)%Z) ->
  time_response t e0 e1 = Err ValueError.
Proof. exact time_response_negative. Qed.
Print Assumptions C127_below_error.
Theorem C127_empty_band_error : forall t e e' row,
  get (tr_data t) 0 = Ok row -> py_int (tr_estart t + e / tr_de t) = py_int (tr_estart t + e' / tr_de t) ->
  time_response t (Some e) (Some e') = Err ValueError.
Proof. exact time_response_same. Qed.
Print Assumptions C127_empty_band_error.
Theorem C127_reversed_band : forall t e0 e1 row,
  get (tr_data t) 0 = Ok row ->
  (0 <= py_int (tr_estart t + e1 / tr_de t) < py_int (tr_estart t + e0 / tr_de t))%Z -> (py_int (tr_estart t + e0 / tr_de t) <= Z.of_nat (length row))%Z ->
  time_response t (Some e0) (Some e1) = Ok (repeat None (length row)).
Proof. exact time_response_reversed. Qed.
Print Assumptions C127_reversed_band.
Theorem C127_delta_width_refuted : 
  exists dt h, dt = 1 # 8 /\ simple_ir dt 0 1 1 = Ok h /\ length h = 8%nat /\ (forall k, (k < 8)%nat -> nth k h 0 == 1).
Proof. exact delta_width. Qed.
Print Assumptions C127_delta_width_refuted.
Theorem C127_square_refuted : 
  exists t l, new_transfer [[1; 1]; [3; 5]] 1 1 0 0 = Ok t /\ time_response t None None = Ok l /\ l = [Some 1; Some 1] /\ ~ band_mean (tr_data t) 0 2 l.
Proof. exact square_drops. Qed.
Print Assumptions C127_square_refuted.
Theorem C127_estart_refuted : 
  exists t l, new_transfer [[1; 1; 1]; [3; 5; 7]; [9; 9; 9]] 1 1 0 1 = Ok t /\ time_response t (Some 1) (Some 2) = Ok l /\ length l = 3%nat /\ band_mean (tr_data t) 2 3 l /\ ~ band_mean (tr_data t) 0 1 l.
Proof. exact estart_shift. Qed.
Print Assumptions C127_estart_refuted.
Theorem C127_more_energies_refuted : 
  exists t, new_transfer [[1; 1]; [3; 5]; [9; 9]] 1 1 0 0 = Ok t /\ time_response t (Some 0) (Some 3) = Err ValueError.
Proof. exact more_energies. Qed.
Print Assumptions C127_more_energies_refuted.
(* one bin of impulse response: the light curve in mode "same" should have as many bins as the signal *)
Theorem C127_one_bin_refuted : exists s h, s <> [] /\ h <> [] /\ length (simulate_impulse_response 1 0 s h ModeSame) <> length s.
Proof. exists [1; 2], [1]. repeat split; try discriminate. Qed.
Print Assumptions C127_one_bin_refuted.

Example C127_nonvacuous : let r := simulate_impulse_response 1 0 [1; 2; 3] [0; 5] in
  map (fun p => (Qred (fst p), Qred (snd p))) (r ModeSame) = [(1 # 2, 0); (3 # 2, 5); (5 # 2, 10)] /\
  map (fun p => Qred (snd p)) (r ModeFiltered) = [5; 10] /\ map (fun p => Qred (snd p)) (r ModeFull) = [0; 5; 10; 15] /\
  simple_ir (1 # 8) (1 # 4) (1 # 8) 3 = Ok [0; 0; 3].
Proof. repeat split; vm_compute; reflexivity. Qed.
Example C127_response_nonvacuous : let t := mkTr [[1; 2; 3]; [3; 4; 5]; [9; 9; 9]] 1 (1 # 2) 0 0 in
  new_transfer [[1; 2; 3]; [3; 4; 5]; [9; 9; 9]] 1 (1 # 2) 0 0 = Ok t /\ (exists l, time_response t (Some 0) (Some 1) = Ok l /\ map (option_map Qred) l = [Some 2; Some 3; Some 4]) /\ map Qred (energy_response t) = [2; 4; 9].
Proof. intros t. split; [reflexivity|]. split; [eexists; split; [reflexivity|vm_compute; reflexivity]|vm_compute; reflexivity]. Qed.

Example C127_errors_nonvacuous : let t := mkTr [[1; 2; 3]; [3; 4; 5]; [9; 9; 9]] 1 (1 # 2) 0 0 in
  time_response t (Some 1) (Some 0) = Ok [None; None; None] /\ time_response t (Some 0) (Some (-(2))) = Err ValueError /\
  time_response t (Some 1) (Some (5 # 4)) = Err ValueError /\ simple_ir 1 2 (-(3)) 1 = Err ValueError.
Proof. repeat split; vm_compute; reflexivity. Qed.

