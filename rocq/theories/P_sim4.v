(* P_sim4.v: energies, delayed light curves and transfer functions. *)
From Verif Require Import Np Lib M_gti M_seg M_utils S_gti S_seg P_helpers P_dyn2 M_sim S_sim P_sim P_sim2 P_sim3 P_base2.
From Coq Require Import ZArith QArith Qfield Qround List Bool Arith Lia Lqa Permutation.
Import ListNotations.
Open Scope Q_scope.

(* ---------- energies ---------- *)
Theorem energies_edges right energy fluxes us : Forall (Qle 0) fluxes -> 0 < whole fluxes -> (2 <= length fluxes)%nat -> length energy = S (length fluxes) -> drawn right us ->
  exists vals, simulate_energies right energy fluxes us = Ok (map Some vals) /\ Forall2 (quantile fluxes energy) us vals.
Proof.
  intros F W L Le D. unfold simulate_energies. destruct (Nat.eqb_spec (length energy) (length fluxes)); [lia|]. cbn [bind].
  destruct (histogram_values right fluxes us None false energy F W L Le D) as (ps & vals & E & -> & Q). exists vals. split; assumption.
Qed.
Theorem energies_centres right energy fluxes us e0 de : Forall (Qle 0) fluxes -> 0 < whole fluxes -> (2 <= length fluxes)%nat -> length energy = length fluxes -> drawn right us ->
  (forall i e, nth_error energy i = Some e -> e == e0 + inject_Z (Z.of_nat i) * de) ->
  exists edges vals, length edges = S (length fluxes) /\ (forall i x, nth_error edges i = Some x -> x == e0 + inject_Z (Z.of_nat i) * de - de / 2) /\
    simulate_energies right energy fluxes us = Ok (map Some vals) /\ Forall2 (quantile fluxes edges) us vals.
Proof.
  intros F W L Le D G. unfold simulate_energies. rewrite Le, Nat.eqb_refl. unfold get.
  destruct (nth_error energy 1) as [x1|] eqn:E1; [|apply nth_error_None in E1; lia]. destruct (nth_error energy 0) as [x0|] eqn:E0; [|apply nth_error_None in E0; lia]. cbn [bind].
  destruct (get_last_some energy) as [last El]; [intros ->; discriminate|]. rewrite El. cbn [bind]. apply get_last_at in El.
  assert (DE : x1 - x0 == de) by (rewrite (G _ _ E1), (G _ _ E0); change (inject_Z (Z.of_nat 1)) with 1; change (inject_Z (Z.of_nat 0)) with 0; ring).
  set (edges := map (fun e => e - (x1 - x0) / 2) energy ++ [last + (x1 - x0) / 2]).
  assert (LE : length edges = S (length fluxes)) by (unfold edges; rewrite app_length, map_length; cbn; lia).
  destruct (histogram_values right fluxes us None false edges F W L LE D) as (ps & vals & E & -> & Q). exists edges, vals. split; [exact LE|]. split; [|split; assumption].
  intros i x Ex. unfold edges in Ex. destruct (lt_dec i (length energy)) as [C|C].
  - rewrite nth_error_app1 in Ex by (now rewrite map_length). rewrite nth_error_map in Ex. destruct (nth_error energy i) as [e|] eqn:Ee; [|discriminate]. injection Ex as <-. rewrite (G _ _ Ee), DE. reflexivity.
  - rewrite nth_error_app2 in Ex by (rewrite map_length; lia). rewrite map_length in Ex. destruct (i - length energy)%nat as [|k] eqn:K; [|destruct k; discriminate]. injection Ex as <-.
    rewrite (G _ _ El), DE. replace i with (S (length energy - 1)) by lia. rewrite Nat2Z.inj_succ. unfold Z.succ. rewrite inject_Z_plus. change (inject_Z 1) with 1. field.
Qed.
Theorem one_bin_edges : exists pdf edges us vals, pdf = [2] /\ edges = [5; 10] /\ us = [1 # 4; 3 # 4] /\
  simulate_with_inverse_cdf true pdf us None false (Some edges) = Ok (map Some vals) /\ Forall (fun v => v < 1) vals /\
  simulate_energies true edges pdf us = Ok (map Some vals).
Proof. exists [2], [5; 10], [1 # 4; 3 # 4]. eexists [_; _]. do 3 (split; [reflexivity|]). split; [reflexivity|]. split; [|reflexivity]. repeat constructor. Qed.
(* ---------- a single good time interval and light curves that do not fill it ---------- *)
Definition vals_of (r : result (list (option Q))) : list Q := match r with Ok l => map (fun o => match o with Some v => Qred v | None => -1 end) l | Err _ => [] end.
Theorem gti_stretch : exists time counts gti draws v,
  time = [1 # 2; 3 # 2] /\ counts = [1; 0] /\ gti = [(0, 4)] /\ draws 0%nat = [3 # 4] /\ vals_of (simulate_times true time counts gti 1 draws) = [v] /\ 1 < v.
Proof. exists [1 # 2; 3 # 2], [1; 0], [(0, 4)], (fun _ => [3 # 4]), (3 # 2). do 4 (split; [reflexivity|]). split; [vm_compute; reflexivity|reflexivity]. Qed.
Theorem gti_squeeze : exists time counts gti draws v,
  time = [1 # 2; 3 # 2] /\ counts = [1; 0] /\ gti = [(1, 2)] /\ draws 0%nat = [1 # 2] /\ vals_of (simulate_times true time counts gti 1 draws) = [v] /\ 1 < v /\ v < 2.
Proof. exists [1 # 2; 3 # 2], [1; 0], [(1, 2)], (fun _ => [1 # 2]), (5 # 4). do 4 (split; [reflexivity|]). split; [vm_compute; reflexivity|split; reflexivity]. Qed.
Theorem first_zero : simulate_with_inverse_cdf false [0; 1] [0] None false None = Ok [None] /\ (exists v, simulate_with_inverse_cdf true [0; 1] [0] None false None = Ok [Some v] /\ v == 1 # 2).
Proof. split; [reflexivity|]. eexists. split; [reflexivity|]. vm_compute. reflexivity. Qed.
(* ---------- delayed light curves ---------- *)
Lemma fold_plus l : forall acc, fold_left Qplus l acc == acc + fold_left Qplus l 0.
Proof. induction l as [|a l IH]; intros acc; cbn [fold_left]; [ring|]. rewrite (IH (acc + a)), (IH (0 + a)). ring. Qed.
Lemma qsum_ext n f g : (forall i, (i < n)%nat -> f i == g i) -> qsum n f == qsum n g.
Proof. induction n as [|n IH]; intros H; cbn [qsum]; [reflexivity|]. rewrite IH by (intros; apply H; lia). rewrite (H n) by lia. reflexivity. Qed.
Lemma fold_seq f n : fold_left Qplus (map f (seq 0 n)) 0 == qsum n f.
Proof. induction n as [|n IH]; [reflexivity|]. rewrite seq_S, map_app, fold_left_app. cbn [map fold_left qsum Nat.add]. rewrite IH. reflexivity. Qed.
Lemma qsum_zero n f : (forall i, (i < n)%nat -> f i == 0) -> qsum n f == 0.
Proof. induction n as [|n IH]; intros H; cbn [qsum]; [reflexivity|]. rewrite IH by (intros; apply H; lia). rewrite (H n) by lia. ring. Qed.
Lemma qsum_more n m f : (n <= m)%nat -> (forall i, (n <= i < m)%nat -> f i == 0) -> qsum m f == qsum n f.
Proof. induction m as [|m IH]; intros L H; [replace n with 0%nat by lia; reflexivity|]. destruct (Nat.eq_dec n (S m)) as [->|]; [reflexivity|]. cbn [qsum]. rewrite IH by (try lia; intros; apply H; lia). rewrite (H m) by lia. ring. Qed.
Lemma nth_over (l : list Q) i : (length l <= i)%nat -> nth i l 0 = 0. Proof. apply nth_overflow. Qed.
Lemma conv_delayed s h k : conv_at s h k == delayed s h k.
Proof.
  unfold conv_at, delayed, at_or_0. rewrite fold_seq. set (g := fun j => nth j s 0 * (if Nat.leb j k then nth (k - j) h 0 else 0)).
  rewrite (qsum_ext (S k) _ g). 2:{ intros i Hi. unfold g. destruct (Nat.leb_spec i k); [reflexivity|lia]. }
  rewrite <- (qsum_more (S k) (S k + length s) g), (qsum_more (length s) (S k + length s) g); try lia; [reflexivity| |].
  - intros i Hi. unfold g. rewrite nth_over by lia. ring.
  - intros i Hi. unfold g. destruct (Nat.leb_spec i k); [lia|ring].
Qed.
Lemma conv_len s h : s <> [] -> h <> [] -> length (fftconvolve s h) = (length s + length h - 1)%nat.
Proof. intros Hs Hh. destruct s; [congruence|]. destruct h; [congruence|]. unfold fftconvolve. now rewrite map_length, seq_length. Qed.
Lemma conv_nth s h k x : nth_error (fftconvolve s h) k = Some x -> x == delayed s h k.
Proof.
  unfold fftconvolve. destruct s as [|a s]; [destruct k; discriminate|]. destruct h as [|b h]; [destruct k; discriminate|]. intros E. rewrite nth_error_map in E.
  destruct (nth_error (seq 0 _) k) as [i|] eqn:Ei; [|discriminate]. injection E as <-. assert (k < length (a :: s) + length (b :: h) - 1)%nat by (rewrite <- (seq_length (length (a :: s) + length (b :: h) - 1) 0); apply nth_error_Some; congruence).
  rewrite (nth_error_nth' _ 0%nat) in Ei by (rewrite seq_length; lia). rewrite seq_nth in Ei by lia. injection Ei as <-. apply conv_delayed.
Qed.
Lemma curve_times dt tstart s h lo lc : (forall k c, nth_error lc k = Some c -> c == delayed s h (lo + k)) ->
  delayed_curve dt tstart s h lo (length lc) (combine (map (fun i => dt * ((1 # 2) + inject_Z (Z.of_nat i)) + tstart) (seq 0 (length lc))) lc).
Proof.
  intros H. split; [rewrite combine_length, map_length, seq_length; lia|]. intros k t c E. apply combine_inv in E as [E1 E2]. cbn [fst snd] in *. split; [|apply H; exact E2].
  assert (k < length lc)%nat by (apply nth_error_Some; congruence). rewrite nth_error_map, (nth_error_nth' _ 0%nat) in E1 by (rewrite seq_length; lia). rewrite seq_nth in E1 by lia. injection E1 as <-. change (0 + k)%nat with k. ring.
Qed.
Theorem ir_full dt tstart s h : s <> [] -> h <> [] -> delayed_curve dt tstart s h 0 (length s + length h - 1) (simulate_impulse_response dt tstart s h ModeFull).
Proof. intros Hs Hh. unfold simulate_impulse_response. rewrite <- (conv_len s h Hs Hh). apply curve_times. intros k c E. exact (conv_nth _ _ _ _ E). Qed.
Lemma norm_neg n k : (k <= n)%nat -> (0 < k)%nat -> norm_idx n (- Z.of_nat k) = (n - k)%nat.
Proof. intros H K. unfold norm_idx. destruct (Z.ltb_spec (- Z.of_nat k) 0); [|lia]. rewrite Z.max_r by lia. lia. Qed.
Theorem ir_same dt tstart s h : s <> [] -> (2 <= length h)%nat -> delayed_curve dt tstart s h 0 (length s) (simulate_impulse_response dt tstart s h ModeSame).
Proof.
  intros Hs Hh. assert (Hn : h <> []) by (intros ->; cbn in Hh; lia). unfold simulate_impulse_response. assert (LS : (0 < length s)%nat) by (destruct s; [congruence|cbn; lia]).
  assert (E : zslice (fftconvolve s h) 0 (- (Z.of_nat (length h) - 1)) = slice (fftconvolve s h) 0 (length s)).
  { unfold zslice. replace (Z.of_nat (length h) - 1)%Z with (Z.of_nat (length h - 1)) by lia. rewrite norm_neg by (rewrite ?conv_len by assumption; lia). rewrite conv_len by assumption. change (norm_idx (length s + length h - 1) 0) with 0%nat. f_equal. lia. }
  rewrite E. assert (L : length (slice (fftconvolve s h) 0 (length s)) = length s) by (rewrite slice_len, conv_len by assumption; lia).
  rewrite <- L at 1. apply curve_times. intros k c Ec. assert (k < length s)%nat by (rewrite <- L; apply nth_error_Some; congruence). rewrite slice_nth in Ec by lia. exact (conv_nth _ _ _ _ Ec).
Qed.
Theorem ir_filtered dt tstart s h : (2 <= length h)%nat -> (length h <= length s)%nat -> delayed_curve dt tstart s h (length h - 1) (length s - (length h - 1)) (simulate_impulse_response dt tstart s h ModeFiltered).
Proof.
  intros Hh Hl. assert (Hn : h <> []) by (intros ->; cbn in Hh; lia). assert (Hs : s <> []) by (intros ->; cbn in Hl; lia). unfold simulate_impulse_response.
  assert (E : zslice (fftconvolve s h) (Z.of_nat (length h) - 1) (- (Z.of_nat (length h) - 1)) = slice (fftconvolve s h) (length h - 1) (length s)).
  { unfold zslice. replace (Z.of_nat (length h) - 1)%Z with (Z.of_nat (length h - 1)) by lia. rewrite norm_neg by (rewrite ?conv_len by assumption; lia). rewrite conv_len by assumption.
    unfold norm_idx. destruct (Z.ltb_spec (Z.of_nat (length h - 1)) 0); [lia|]. rewrite Nat2Z.id. f_equal. lia. }
  rewrite E. assert (L : length (slice (fftconvolve s h) (length h - 1) (length s)) = (length s - (length h - 1))%nat) by (rewrite slice_len, conv_len by assumption; lia).
  rewrite <- L at 1. apply curve_times. intros k c Ec. assert (k < length s - (length h - 1))%nat by (rewrite <- L; apply nth_error_Some; congruence). rewrite slice_nth in Ec by lia. exact (conv_nth _ _ _ _ Ec).
Qed.
(* An impulse response of one bin leaves nothing. *)
Theorem ir_one_bin dt tstart s c : simulate_impulse_response dt tstart s [c] ModeSame = [] /\ simulate_impulse_response dt tstart s [c] ModeFiltered = [].
Proof. split; unfold simulate_impulse_response, zslice; cbn [length Z.of_nat Pos.of_succ_nat]; change (norm_idx (length (fftconvolve s [c])) (- (1 - 1))) with 0%nat; reflexivity. Qed.
(* A delta response delays and scales. *)
Lemma qsum_one n f m : (m < n)%nat -> (forall i, (i < n)%nat -> i <> m -> f i == 0) -> qsum n f == f m.
Proof.
  induction n as [|n IH]; intros L H; [lia|]. cbn [qsum]. destruct (Nat.eq_dec m n) as [->|].
  - rewrite qsum_zero by (intros; apply H; lia). ring.
  - rewrite IH by (try lia; intros; apply H; lia). rewrite (H n) by lia. ring.
Qed.
Lemma nth_delta m c i : nth i (repeat 0 m ++ [c]) 0 == if Nat.eqb i m then c else 0.
Proof.
  destruct (Nat.eqb_spec i m) as [->|]; [rewrite app_nth2 by (rewrite repeat_length; lia); rewrite repeat_length, Nat.sub_diag; reflexivity|].
  destruct (lt_dec i m); [rewrite app_nth1 by (rewrite repeat_length; lia); rewrite nth_repeat; reflexivity|]. rewrite nth_overflow by (rewrite app_length, repeat_length; cbn; lia). reflexivity.
Qed.
Theorem delta_delay s m c k : delayed s (repeat 0 m ++ [c]) k == if Nat.leb m k then c * at_or_0 s (k - m) else 0.
Proof.
  unfold delayed, at_or_0. destruct (Nat.leb_spec m k) as [C|C].
  - destruct (lt_dec (k - m) (length s)) as [D|D].
    + rewrite (qsum_one _ _ (k - m) D).
      * destruct (Nat.leb_spec (k - m) k); [|lia]. rewrite nth_delta. replace (k - (k - m))%nat with m by lia. rewrite Nat.eqb_refl. ring.
      * intros i Hi Hn. destruct (Nat.leb_spec i k); [|ring]. rewrite nth_delta. destruct (Nat.eqb_spec (k - i) m); [lia|ring].
    + rewrite qsum_zero; [rewrite nth_over by lia; ring|]. intros i Hi. destruct (Nat.leb_spec i k); [|ring]. rewrite nth_delta. destruct (Nat.eqb_spec (k - i) m); [lia|ring].
  - apply qsum_zero. intros i Hi. destruct (Nat.leb_spec i k); [|ring]. rewrite nth_delta. destruct (Nat.eqb_spec (k - i) m); [lia|ring].
Qed.
(* Nothing is lost in the full light curve. *)
Lemma qsum_plus n f g : qsum n (fun i => f i + g i) == qsum n f + qsum n g.
Proof. induction n as [|n IH]; cbn [qsum]; [ring|]. rewrite IH. ring. Qed.
Lemma qsum_scal n a f : qsum n (fun i => a * f i) == a * qsum n f.
Proof. induction n as [|n IH]; cbn [qsum]; [ring|]. rewrite IH. ring. Qed.
Lemma qsum_swap n m f : qsum n (fun i => qsum m (f i)) == qsum m (fun j => qsum n (fun i => f i j)).
Proof.
  induction n as [|n IH]; cbn [qsum]; [symmetry; apply qsum_zero; reflexivity|]. rewrite IH, <- qsum_plus. apply qsum_ext. reflexivity.
Qed.
Lemma whole_qsum l : whole l == qsum (length l) (at_or_0 l).
Proof.
  unfold at_or_0. assert (G : forall k, (k <= length l)%nat -> area l k == qsum k (fun i => nth i l 0)); [|apply (G (length l)); lia].
  induction k as [|k IH]; intros H; [now rewrite area_0|]. cbn [qsum]. rewrite <- IH by lia. apply area_S. apply nth_error_nth'. lia.
Qed.
Lemma qsum_shift n j f : qsum (j + n) (fun k => if Nat.leb j k then f (k - j)%nat else 0) == qsum n f.
Proof.
  induction n as [|n IH].
  - rewrite Nat.add_0_r. apply qsum_zero. intros i Hi. destruct (Nat.leb_spec j i); [lia|reflexivity].
  - rewrite Nat.add_succ_r. cbn [qsum]. rewrite IH. destruct (Nat.leb_spec j (j + n)); [|lia]. replace (j + n - j)%nat with n by lia. reflexivity.
Qed.
Theorem delayed_total s h : s <> [] -> h <> [] -> qsum (length s + length h - 1) (delayed s h) == whole s * whole h.
Proof.
  intros Hs Hh. unfold delayed. assert (LS : (0 < length s)%nat) by (destruct s; [congruence|cbn; lia]). assert (LH : (0 < length h)%nat) by (destruct h; [congruence|cbn; lia]).
  rewrite qsum_swap. rewrite (whole_qsum s), Qmult_comm, <- qsum_scal. apply qsum_ext. intros j Hj. rewrite qsum_scal, Qmult_comm. apply Qmult_comp; [|reflexivity].
  rewrite (whole_qsum h), <- (qsum_shift (length h) j (at_or_0 h)). apply qsum_more; [lia|]. intros i Hi. destruct (Nat.leb_spec j i); [|reflexivity]. unfold at_or_0. rewrite nth_over by lia. reflexivity.
Qed.
(* Responses of constant intensity. *)
Lemma int_steps dt m : 0 < dt -> py_int (inject_Z (Z.of_nat m) * dt / dt) = Z.of_nat m.
Proof.
  intros H. unfold py_int. assert (E : inject_Z (Z.of_nat m) * dt / dt == inject_Z (Z.of_nat m)) by (field; lra).
  destruct (qle 0 _) eqn:C; [rewrite E; apply Qfloor_Z|rewrite E; apply Qceiling_Z].
Qed.
Theorem simple_ir_steps dt m w c : 0 < dt -> simple_ir dt (inject_Z (Z.of_nat m) * dt) (inject_Z (Z.of_nat w) * dt) c = Ok (repeat 0 m ++ repeat c w).
Proof.
  intros H. unfold simple_ir. destruct (qeq dt 0) eqn:E; [apply Qeq_bool_eq in E; lra|]. rewrite !int_steps by assumption.
  destruct (Z.ltb_spec (Z.of_nat m) 0); [lia|]. destruct (Z.ltb_spec (Z.of_nat w) 0); [lia|]. cbn [orb]. rewrite !Nat2Z.id. reflexivity.
Qed.
Theorem delta_width : exists dt h, dt = 1 # 8 /\ simple_ir dt 0 1 1 = Ok h /\ length h = 8%nat /\ (forall k, (k < 8)%nat -> nth k h 0 == 1).
Proof. exists (1 # 8), (repeat 1 8). split; [reflexivity|]. split; [vm_compute; reflexivity|]. split; [reflexivity|]. intros k H. do 8 (destruct k as [|k]; [reflexivity|]). lia. Qed.
(* Bins of the same signal: half a bin apart. *)
Theorem half_bin dt tstart s h : s <> [] -> (2 <= length h)%nat -> forall k t c t', nth_error (simulate_impulse_response dt tstart s h ModeSame) k = Some (t, c) -> nth_error (sim_time dt tstart (length s)) k = Some t' -> t == t' + dt / 2.
Proof.
  intros Hs Hh k t c t' E E'. destruct (ir_same dt tstart s h Hs Hh) as [L H]. destruct (H _ _ _ E) as [-> _]. unfold sim_time in E'. rewrite nth_error_map in E'. assert (k < length s)%nat by (rewrite <- L; apply nth_error_Some; congruence).
  rewrite (nth_error_nth' _ 0%nat) in E' by (rewrite seq_length; lia). rewrite seq_nth in E' by lia. injection E' as <-. change (0 + k)%nat with k. field.
Qed.
(* ---------- transfer functions ---------- *)
Lemma fold_qsum (l : list Q) : fold_left Qplus l 0 == qsum (length l) (at_or_0 l).
Proof.
  assert (E : l = map (fun i => nth i l 0) (seq 0 (length l))).
  { apply (nth_ext _ _ 0 0); [now rewrite map_length, seq_length|]. intros n Hn. rewrite (nth_indep (map _ _) 0 (nth 0 l 0)) by (now rewrite map_length, seq_length). rewrite (map_nth (fun i => nth i l 0) (seq 0 (length l)) 0%nat). rewrite seq_nth by assumption. reflexivity. }
  rewrite E at 1. rewrite fold_seq. reflexivity.
Qed.
Lemma mean_rows_band ncols data i j : (i < j)%nat -> (j <= length data)%nat -> length (mean_rows ncols (slice data i j)) = ncols /\ band_mean data i j (mean_rows ncols (slice data i j)).
Proof.
  intros H J. unfold mean_rows. split; [now rewrite map_length, seq_length|]. intros k o E. rewrite nth_error_map in E. destruct (nth_error (seq 0 ncols) k) as [m|] eqn:Em; [|discriminate].
  assert (k < ncols)%nat by (rewrite <- (seq_length ncols 0); apply nth_error_Some; congruence). rewrite (nth_error_nth' _ 0%nat) in Em by (rewrite seq_length; lia). rewrite seq_nth in Em by lia. injection Em as <-. change (0 + k)%nat with k in E.
  assert (L : length (slice data i j) = (j - i)%nat) by (rewrite slice_len; lia). destruct (slice data i j) as [|r rows] eqn:ES; [cbn in L; lia|]. rewrite <- ES in *. injection E as <-. eexists. split; [reflexivity|].
  rewrite L. assert (N : ~ inject_Z (Z.of_nat (j - i)) == 0) by (change 0 with (inject_Z 0); rewrite inject_Z_injective; lia).
  rewrite fold_qsum, map_length, L. generalize dependent (inject_Z (Z.of_nat (j - i))). intros N HN.
  rewrite (qsum_ext (j - i) _ (fun m => at_or_0 (nth (i + m) data []) k)); [field; exact HN|].
  intros m Hm. unfold at_or_0. assert (X : nth_error (map (fun r0 => nth k r0 0) (slice data i j)) m = Some (nth k (nth (i + m) data []) 0)).
  { rewrite nth_error_map, slice_nth by lia. rewrite (nth_error_nth' data []) by lia. reflexivity. }
  apply (nth_error_nth _ _ 0) in X. rewrite X. reflexivity.
Qed.
Lemma int_chan estart de m : estart == 0 -> 0 < de -> py_int (estart + inject_Z (Z.of_nat m) * de / de) = Z.of_nat m.
Proof.
  intros Es H. unfold py_int. assert (E : estart + inject_Z (Z.of_nat m) * de / de == inject_Z (Z.of_nat m)) by (rewrite Es; field; lra).
  destruct (qle 0 _) eqn:C; [rewrite E; apply Qfloor_Z|rewrite E; apply Qceiling_Z].
Qed.
Theorem time_response_band t row rows i j : tr_data t = row :: rows -> tr_estart t == 0 -> 0 < tr_de t -> (i < j)%nat -> (j <= length (tr_data t))%nat -> (j <= length row)%nat ->
  exists l, time_response t (Some (inject_Z (Z.of_nat i) * tr_de t)) (Some (inject_Z (Z.of_nat j) * tr_de t)) = Ok l /\ length l = length row /\ band_mean (tr_data t) i j l.
Proof.
  intros E Es D H J R. unfold time_response. rewrite E. cbn [get nth_error bind]. unfold get. cbn [nth_error bind]. rewrite !int_chan by assumption.
  destruct (Z.ltb_spec (Z.of_nat i) 0); [lia|]. destruct (Z.ltb_spec (Z.of_nat j) 0); [lia|]. destruct (Z.ltb_spec (Z.of_nat (length row)) (Z.of_nat i)); [lia|]. destruct (Z.ltb_spec (Z.of_nat (length row)) (Z.of_nat j)); [lia|]. cbn [orb].
  destruct (Z.eqb_spec (Z.of_nat i) (Z.of_nat j)); [lia|]. rewrite !Nat2Z.id. rewrite E in J. rewrite <- E in *. eexists. split; [reflexivity|]. exact (mean_rows_band (length row) (tr_data t) i j H J).
Qed.
(* Without limits: the number of times less one takes the place of the number of energies. *)
Theorem time_response_default t row rows : tr_data t = row :: rows -> (2 <= length row)%nat ->
  exists l, time_response t None None = Ok l /\ length l = length row /\ band_mean (tr_data t) 0 (Nat.min (length row - 1) (length (tr_data t))) l.
Proof.
  intros E L. unfold time_response, get. rewrite E. cbn [nth_error bind]. destruct (Z.ltb_spec (Z.of_nat (length row) - 1) 0); [lia|]. destruct (Z.ltb_spec (Z.of_nat (length row)) 0); [lia|].
  destruct (Z.ltb_spec (Z.of_nat (length row)) (Z.of_nat (length row) - 1)); [lia|]. change (0 <? 0)%Z with false. cbn [orb]. destruct (Z.eqb_spec 0 (Z.of_nat (length row) - 1)); [lia|].
  change (Z.to_nat 0) with 0%nat. replace (Z.to_nat (Z.of_nat (length row) - 1)) with (length row - 1)%nat by lia. rewrite <- E. eexists. split; [reflexivity|].
  assert (X : slice (tr_data t) 0 (length row - 1) = slice (tr_data t) 0 (Nat.min (length row - 1) (length (tr_data t)))).
  { unfold slice. rewrite !Nat.sub_0_r. cbn [skipn]. destruct (Nat.min_spec (length row - 1) (length (tr_data t))) as [[_ ->]|[C ->]]; [reflexivity|]. rewrite !firstn_all2 by lia. reflexivity. }
  rewrite X. apply mean_rows_band; [rewrite E; cbn [length]; lia|lia].
Qed.
Theorem energy_response_mean t i r x : nth_error (tr_data t) i = Some r -> r <> [] -> nth_error (energy_response t) i = Some x -> x * inject_Z (Z.of_nat (length r)) == whole r.
Proof.
  intros E Hr Ex. unfold energy_response in Ex. rewrite nth_error_map, E in Ex. injection Ex as <-. rewrite whole_qsum, fold_qsum. field. change 0 with (inject_Z 0). rewrite inject_Z_injective. destruct r; [congruence|cbn [length]; lia].
Qed.
Theorem square_drops : exists t l, new_transfer [[1; 1]; [3; 5]] 1 1 0 0 = Ok t /\ time_response t None None = Ok l /\ l = [Some 1; Some 1] /\ ~ band_mean (tr_data t) 0 2 l.
Proof.
  eexists. exists [Some 1; Some 1]. split; [reflexivity|]. split; [reflexivity|]. split; [reflexivity|]. intros B. destruct (B 0%nat _ eq_refl) as (x & [= <-] & X). vm_compute in X. discriminate.
Qed.
(* Energies start at 1: the first channel is 1..2, but the third one is taken. *)
Theorem estart_shift : exists t l, new_transfer [[1; 1; 1]; [3; 5; 7]; [9; 9; 9]] 1 1 0 1 = Ok t /\ time_response t (Some 1) (Some 2) = Ok l /\ length l = 3%nat /\ band_mean (tr_data t) 2 3 l /\ ~ band_mean (tr_data t) 0 1 l.
Proof.
  eexists. exists (mean_rows 3 [[9; 9; 9]]). split; [reflexivity|]. split; [reflexivity|]. split; [reflexivity|]. cbn [tr_data]. split.
  - exact (proj2 (mean_rows_band 3 [[1; 1; 1]; [3; 5; 7]; [9; 9; 9]] 2 3 ltac:(lia) ltac:(cbn; lia))).
  - intros B. destruct (B 0%nat _ eq_refl) as (x & [= <-] & X). vm_compute in X. discriminate.
Qed.
Theorem more_energies : exists t, new_transfer [[1; 1]; [3; 5]; [9; 9]] 1 1 0 0 = Ok t /\ time_response t (Some 0) (Some 3) = Err ValueError.
Proof. eexists. split; reflexivity. Qed.
Theorem too_small data dt de tstart estart row : nth_error data 0 = Some row -> (length row < 2)%nat \/ (length data < 2)%nat -> new_transfer data dt de tstart estart = Err ValueError.
Proof. intros E H. unfold new_transfer, get. rewrite E. cbn [bind]. destruct (Nat.ltb_spec (length row) 2); [reflexivity|]. destruct (Nat.ltb_spec (length data) 2); [reflexivity|lia]. Qed.
