(* T_ls.v: property theorems about the Lomb-Scargle transforms and spectra (C158 - C161). *)
From Verif Require Import Np M_utils Cplx M_fourier M_norm M_ls S_fourier S_ls P_timmer P_ls P_ls2 P_ls3 P_ls4 P_ls5.
From Coq Require Import QArith Qreals Lqa Reals List Arith ZArith Lra Lia.
Import ListNotations.
Open Scope R_scope.

(* ---------- C158: grid of frequencies ---------- *)
Theorem C158_grid : forall mi ma df dt len nf d s top,
  spacing df len d -> from_freq mi d s -> to_freq ma dt nf top ->
  exists l, autofrequency mi ma df dt len nf = Ok l /\
    (forall i x, nth_error l i = Some x <-> x = (s + inject_Z (Z.of_nat i) * d)%Q /\ (s + inject_Z (Z.of_nat i) * d < top + d)%Q) /\
    ((s < top + d)%Q -> exists x, In x l /\ (top <= x < top + d)%Q).
Proof. exact auto_values. Qed.
Print Assumptions C158_grid.
Theorem C158_length_error : forall mi ma df dt len nf,
  (df = None \/ exists x, df = Some x /\ (x <= 0)%Q) -> len = None -> autofrequency mi ma df dt len nf = Err ValueError.
Proof. exact auto_errors. Qed.
Print Assumptions C158_length_error.
Theorem C158_dt_error : forall mi df dt len nf d,
  spacing df len d -> (dt = None \/ exists x, dt = Some x /\ (x == 0)%Q) -> autofrequency mi None df dt len nf = Err ValueError.
Proof. exact auto_errors2. Qed.
Print Assumptions C158_dt_error.
(* the grid goes beyond max_freq when max_freq - min_freq is not a multiple of df *)
Theorem C158_exceeds_refuted : 
  exists mi ma df l x, autofrequency (Some mi) (Some ma) (Some df) None None 1 = Ok l /\ (0 < mi)%Q /\ (mi < ma)%Q /\ (0 < df)%Q /\ In x l /\ (ma < x)%Q.
Proof. exact auto_exceeds. Qed.
Print Assumptions C158_exceeds_refuted.
(* ---------- C159: lsft_slow ---------- *)
Theorem C159_periodogram : forall sgn y t f z,
  length y = length t -> f <> 0 -> sgn <> 0 -> slow_at sgn y t f = Some z ->
  exists phi, good_phase y t (2 * PI * f) phi /\ 0 < square_cos y t (2 * PI * f) phi /\ 0 < square_sin y t (2 * PI * f) phi /\
    cnorm2 z = INR (length y) / 2 * periodogram y t (2 * PI * f) phi.
Proof. exact slow_periodogram. Qed.
Print Assumptions C159_periodogram.
Theorem C159_undefined : forall sgn y t f,
  t <> [] -> f <> 0 ->
  slow_at sgn y t f = None <-> exists phi, forall x, In x t -> sin (2 * PI * f * x - phi) = 0.
Proof. exact slow_undefined. Qed.
Print Assumptions C159_undefined.
Theorem C159_shift : forall sgn y t f s z,
  length y = length t -> f <> 0 -> sgn <> 0 -> slow_at sgn y t f = Some z ->
  exists z', slow_at sgn y (map (fun x => x + s) t) f = Some z' /\ cnorm2 z' = cnorm2 z.
Proof. exact slow_shift. Qed.
Print Assumptions C159_shift.
Theorem C159_linear : forall sgn a b y t f,
  y <> [] ->
  slow_at sgn (map (fun v => a * v + b) y) t f = match slow_at sgn y t f with Some z => Some (cscal z a) | None => None end.
Proof. exact slow_linear. Qed.
Print Assumptions C159_linear.
Theorem C159_zero : forall sgn y t,
  y <> [] -> slow_at sgn y t 0 = Some (0, 0).
Proof. exact slow_zero. Qed.
Print Assumptions C159_zero.
Theorem C159_list : forall sgn y t freqs,
  t <> [] -> length y = length t -> (forall f, In f freqs -> 0 <= f) -> lsft_slow sgn y t freqs = Ok (map (slow_at sgn y t) freqs).
Proof. exact slow_list. Qed.
Print Assumptions C159_list.
Theorem C159_negative : forall sgn y t freqs l,
  t <> [] -> lsft_slow sgn y t freqs = Ok l ->
  length l = length (filter (fun f => if Rle_dec 0 f then true else false) freqs) /\ length y = length t.
Proof. exact slow_list_neg. Qed.
Print Assumptions C159_negative.
Theorem C159_even_negative : forall n k dt sgn y t0, (0 < k < n)%nat -> (2 * k <> n)%nat -> dt <> 0 -> sgn < 0 -> length y = n ->
  slow_at sgn y (even t0 dt n) (INR k / (INR n * dt)) = Some (dft y k).
Proof. intros n k dt sgn y t0 K K2 D. now apply even_neg. Qed.
Print Assumptions C159_even_negative.
Theorem C159_even_positive : forall n k dt sgn y t0, (0 < k < n)%nat -> (2 * k <> n)%nat -> dt <> 0 -> 0 < sgn -> length y = n ->
  let w := INR k / (INR n * dt) * 2 * PI in
  slow_at sgn y (even t0 dt n) (INR k / (INR n * dt)) = Some (cmul (cos (2 * (w * t0)), sin (2 * (w * t0))) (cconj (dft y k))).
Proof. intros n k dt sgn y t0 K K2 D. now apply even_pos. Qed.
Print Assumptions C159_even_positive.
(* ---------- C160: lsft_fast with exact sums of sines and cosines ---------- *)
Theorem C160_even : forall sgn y t0 dt f0 df N n,
  length y = n -> (2 <= N)%nat -> 0 <= f0 -> 0 <= df -> dt <> 0 -> (0 < n)%nat ->
  exists l, lsft_fast exact_trig sgn y (even t0 dt n) (map (fun j => f0 + INR j * df) (seq 0 N)) = Ok l /\ length l = N /\
    forall i k, (i < N)%nat -> (0 < k < n)%nat -> (2 * k <> n)%nat -> f0 + INR i * df = INR k / (INR n * dt) ->
      nth_error l i = Some (slow_at sgn y (even t0 dt n) (INR k / (INR n * dt))).
Proof. exact fast_even. Qed.
Print Assumptions C160_even.
(* sums of sines and cosines are exchanged in the phase *)
Theorem C160_slow_refuted : 
  exists sgn y t freqs l1 l2 a b, lsft_fast exact_trig sgn y t freqs = Ok l1 /\ lsft_slow sgn y t freqs = Ok l2 /\
  length freqs = length t /\ nth_error l1 0 = Some (Some a) /\ nth_error l2 0 = Some (Some b) /\ cnorm2 a <> cnorm2 b.
Proof. exact w_fast_refuted. Qed.
Print Assumptions C160_slow_refuted.
(* the number of frequencies is used for the number of points *)
Theorem C160_frequencies_refuted : 
  exists sgn y t freqs more l1 l2 a b, lsft_fast exact_trig sgn y t freqs = Ok l1 /\ lsft_fast exact_trig sgn y t (freqs ++ more) = Ok l2 /\
  nth_error l1 0 = Some (Some a) /\ nth_error l2 0 = Some (Some b) /\ cnorm2 a <> cnorm2 b.
Proof. exact v_fast_refuted. Qed.
Print Assumptions C160_frequencies_refuted.
(* ---------- C161: spectra ---------- *)
Theorem C161_symmetric : forall ft freqs,
  length ft = length freqs -> let N := length freqs in
  length (fst (impose_symmetry ft freqs)) = (2 * N + 1)%nat /\ length (snd (impose_symmetry ft freqs)) = (2 * N + 1)%nat /\
  nth_error (fst (impose_symmetry ft freqs)) N = Some (Some c0) /\ nth_error (snd (impose_symmetry ft freqs)) N = Some 0 /\
  forall i z f, nth_error ft i = Some z -> nth_error freqs i = Some f ->
    nth_error (fst (impose_symmetry ft freqs)) (N + 1 + i) = Some z /\ nth_error (snd (impose_symmetry ft freqs)) (N + 1 + i) = Some f /\
    nth_error (fst (impose_symmetry ft freqs)) (N - 1 - i) = Some (oconj z) /\ nth_error (snd (impose_symmetry ft freqs)) (N - 1 - i) = Some (- f).
Proof. exact both_sides. Qed.
Print Assumptions C161_symmetric.
Theorem C161_full : forall lsft lc1 lc2 freq f1 f2,
  lsft (counts_of lc1) (times_of lc1) freq = Ok f1 -> lsft (counts_of lc2) (times_of lc2) freq = Ok f2 ->
  length f1 = length freq -> length f2 = length freq -> let N := length freq in
  exists half full fr, ls_cross lsft lc1 lc2 freq false = Ok (freq, half) /\ ls_cross lsft lc1 lc2 freq true = Ok (fr, full) /\
    length half = N /\ length full = (2 * N + 1)%nat /\ length fr = (2 * N + 1)%nat /\ nth_error fr N = Some 0 /\ nth_error full N = Some (Some c0) /\
    forall i z f, nth_error half i = Some z -> nth_error freq i = Some f ->
      nth_error full (N + 1 + i) = Some z /\ nth_error fr (N + 1 + i) = Some f /\
      nth_error full (N - 1 - i) = Some (oconj z) /\ nth_error fr (N - 1 - i) = Some (- f).
Proof. exact cross_full. Qed.
Print Assumptions C161_full.
Theorem C161_cross_even : forall lc1 lc2 freqs t0 dt n,
  times_of lc1 = even t0 dt n -> times_of lc2 = even t0 dt n -> length (lc_counts lc1) = n -> length (lc_counts lc2) = n ->
  (0 < n)%nat -> dt <> 0 -> (forall f, In f freqs -> 0 <= f) ->
  exists l, ls_cross (lsft_slow 1) lc1 lc2 freqs false = Ok (freqs, l) /\ length l = length freqs /\
    forall i k, (0 < k < n)%nat -> (2 * k <> n)%nat -> nth_error freqs i = Some (INR k / (INR n * dt)) ->
      nth_error l i = Some (Some (cross_at (counts_of lc1) (counts_of lc2) k)).
Proof. exact cross_even. Qed.
Print Assumptions C161_cross_even.
Theorem C161_values : forall lsft lc1 lc2 norm pt fs mi ma df s,
  pt <> POther -> ls_from_lightcurve lsft lc1 lc2 norm pt fs mi ma df = Ok s ->
  exists e1 e2 b1 b2 freq cross kn,
    last_q (lc_time lc1) = Ok e1 /\ last_q (lc_time lc2) = Ok e2 /\ first_q (lc_time lc1) = Ok b1 /\ first_q (lc_time lc2) = Ok b2 /\
    autofrequency mi ma df (Some (qmin (lc_res lc1) (lc_res lc2))) (Some (qmax e1 e2 - qmin b1 b2)%Q) 1 = Ok freq /\
    ls_cross lsft lc1 lc2 (map Q2R freq) fs = Ok (ls_freq s, cross) /\ kind norm (gvar (variances lc1 lc2)) = Some kn /\
    ls_power s = map (fun z => match z with Some z => Some (as_type pt (cscal z (factor kn (Q2R (lc_res lc1)) (length (lc_time lc1)) (sqrt (nph_of lc1 * nph_of lc2) / INR (length (lc_time lc1))) (sqrt (nph_of lc1 * nph_of lc2))))) | None => None end) cross /\
    ls_unnorm s = (if match pt with PAll => true | _ => false end then cross else ls_power s) /\ ls_df s = None.
Proof. exact spectrum_values. Qed.
Print Assumptions C161_values.
Theorem C161_power_even : forall lc norm mi ma df s d e b t0 n,
  ls_powerspectrum (lsft_slow 1) lc norm PAll false mi ma df = Ok s ->
  lc_var lc = None -> times_of lc = even t0 (Q2R (lc_res lc)) n -> length (lc_counts lc) = n -> Q2R (lc_res lc) <> 0 -> 0 <= nph_of lc ->
  last_q (lc_time lc) = Ok e -> first_q (lc_time lc) = Ok b -> spacing df (Some (e - b)%Q) d -> (forall x, mi = Some x -> (0 < x)%Q) ->
  length (ls_power s) = length (ls_freq s) /\
  forall i k, (0 < k < n)%nat -> (2 * k <> n)%nat -> nth_error (ls_freq s) i = Some (INR k / (INR n * Q2R (lc_res lc))) ->
    nth_error (ls_power s) i = Some (Some (rtoc (power_at (counts_of lc) k * fac norm None (Q2R (lc_res lc)) n (nph_of lc / INR n) (nph_of lc)))) /\
    nth_error (ls_unnorm s) i = Some (Some (rtoc (power_at (counts_of lc) k))).
Proof. exact power_even. Qed.
Print Assumptions C161_power_even.
Theorem C161_df_ignored : forall lsft lc1 lc2 norm pt fs mi ma df,
  ls_crossspectrum lsft lc1 lc2 norm pt fs mi ma df = ls_from_lightcurve lsft lc1 lc2 norm pt fs mi ma None.
Proof. exact df_ignored. Qed.
Print Assumptions C161_df_ignored.
Theorem C161_df_refuted : 
  exists lc df s, (0 < df)%Q /\ ls_crossspectrum (lsft_slow 1) lc lc Leahy PAll false None (Some (1 # 2)%Q) (Some df) = Ok s /\
  nth 1 (ls_freq s) 0 - nth 0 (ls_freq s) 0 <> Q2R df /\
  exists s', ls_powerspectrum (lsft_slow 1) lc Leahy PAll false None (Some (1 # 2)%Q) (Some df) = Ok s' /\ nth 1 (ls_freq s') 0 - nth 0 (ls_freq s') 0 = Q2R df.
Proof. exact df_refuted. Qed.
Print Assumptions C161_df_refuted.
Theorem C161_unnorm_refuted : 
  exists lc s cross, ls_powerspectrum (lsft_slow 1) lc AbsNorm PReal false (Some (1 # 3)%Q) (Some (1 # 2)%Q) (Some (1 # 3)%Q) = Ok s /\
  ls_cross (lsft_slow 1) lc lc (ls_freq s) false = Ok (ls_freq s, cross) /\ nth_error cross 0 = Some (Some (rtoc 3)) /\ nth_error (ls_unnorm s) 0 = Some (Some (rtoc 2)).
Proof. exact unnorm_refuted. Qed.
Print Assumptions C161_unnorm_refuted.
Theorem C161_rms_error : forall lsft lc1 lc2 norm pt fs mi ma df s k,
  ls_from_lightcurve lsft lc1 lc2 norm pt fs mi ma df = Ok s -> ls_bin_width s k = Err TypeError.
Proof. exact rms_fails. Qed.
Print Assumptions C161_rms_error.
(* what the spectrum remembers of the two light curves *)
Theorem C161_bookkeeping : forall lsft lc1 lc2 norm pt fs mi ma df s, ls_from_lightcurve lsft lc1 lc2 norm pt fs mi ma df = Ok s ->
  ls_dt s = Q2R (lc_res lc1) /\ ls_n s = length (lc_time lc1) /\ ls_nph1 s = nph_of lc1 /\ ls_nph2 s = nph_of lc2 /\
  (lc_var lc1 = None -> lc_var lc2 = None -> ls_vars s = None) /\
  (forall v1 v2, lc_var lc1 = Some v1 -> lc_var lc2 = Some v2 -> ls_vars s = Some (v1, v2)) /\
  (forall v1, lc_var lc1 = Some v1 -> lc_var lc2 = None -> ls_vars s = Some (v1, nph_of lc2 / INR (length (lc_counts lc2)))) /\
  (forall v2, lc_var lc1 = None -> lc_var lc2 = Some v2 -> ls_vars s = Some (nph_of lc1 / INR (length (lc_counts lc1)), v2)).
Proof.
  intros lsft lc1 lc2 norm pt fs mi ma df s. unfold ls_from_lightcurve, bind.
  destruct (last_q (lc_time lc1)); [|discriminate]. destruct (last_q (lc_time lc2)); [|discriminate].
  destruct (first_q (lc_time lc1)); [|discriminate]. destruct (first_q (lc_time lc2)); [|discriminate].
  destruct (autofrequency _ _ _ _ _ _); [|discriminate]. destruct (ls_cross _ _ _ _ _) as [[fr cr]|]; [|discriminate].
  destruct (normalize_cross _ _ _ _ _ _ _ _); [|discriminate]. destruct (map_result _ _); [|discriminate].
  intro E. injection E as <-. cbn [ls_dt ls_n ls_nph1 ls_nph2 ls_vars]. unfold variances.
  split; [reflexivity|]. split; [reflexivity|]. split; [reflexivity|]. split; [reflexivity|].
  split; [intros -> ->; reflexivity|]. split; [intros v1 v2 -> ->; reflexivity|]. split; [intros v1 -> ->; reflexivity|intros v2 -> ->; reflexivity].
Qed.
Print Assumptions C161_bookkeeping.
Theorem C161_type_error : forall z, otype POther z = Err ValueError.
Proof. reflexivity. Qed.
Print Assumptions C161_type_error.
Theorem C161_bin_width : forall s k d, ls_df s = Some d -> ls_bin_width s k = Ok (d * k).
Proof. intros s k d H. unfold ls_bin_width. rewrite H. reflexivity. Qed.
Print Assumptions C161_bin_width.
(* limits of the frequencies: the check passes exactly for non-negative limits in order, otherwise ValueError *)
Theorem C158_limits : forall mi ma,
  (check_freqs mi ma = Ok tt <-> (forall a, mi = Some a -> (0 <= a)%Q) /\ (forall b, ma = Some b -> (0 <= b)%Q) /\ (forall a b, mi = Some a -> ma = Some b -> (a < b)%Q)) /\
  (check_freqs mi ma = Ok tt \/ check_freqs mi ma = Err ValueError).
Proof. exact limits_ok. Qed.
Print Assumptions C158_limits.
Theorem C159_lengths_error : forall sgn y t freqs, length y <> length t -> lsft_slow sgn y t freqs = Err ValueError.
Proof. intros sgn y t freqs H. unfold lsft_slow. apply Nat.eqb_neq in H. rewrite H. reflexivity. Qed.
Print Assumptions C159_lengths_error.
Example C158_limits_nonvacuous : check_freqs (Some 0%Q) (Some 1%Q) = Ok tt /\ check_freqs (Some 1%Q) (Some 1%Q) = Err ValueError.
Proof. split; reflexivity. Qed.
(* no spectrum made from data has an rms: the witness *)
Theorem C161_rms_refuted : exists lc s, ls_powerspectrum (lsft_slow 1) lc Frac PAll false None (Some (1 # 2)%Q) (Some (1 # 4)%Q) = Ok s /\ ls_bin_width s 1 = Err TypeError.
Proof.
  destruct (u_ok None ((1 # 4) / 2)%Q (Some (1 # 4)%Q) (1 # 4)%Q PAll Frac ltac:(left; exists (1 # 4)%Q; repeat split) ltac:(right; split; [now left|reflexivity]) ltac:(discriminate) ltac:(discriminate) ltac:(discriminate)) as (s & E & _).
  exists u_lc, s. split; [exact E|]. unfold ls_powerspectrum in E. exact (rms_fails _ _ _ _ _ _ _ _ _ _ 1 E).
Qed.
Print Assumptions C161_rms_refuted.

Example C158_nonvacuous : spacing (Some (1 # 10)%Q) None (1 # 10) /\ from_freq (Some (1 # 10)%Q) (1 # 10) (1 # 10) /\ to_freq (Some (1 # 2)%Q) None 1 (1 # 2) /\
  spacing None (Some 10%Q) (1 / 10) /\ from_freq None (1 # 10) ((1 # 10) / 2) /\ to_freq None (Some 1%Q) 1 (1 * (1 # 2) / 1).
Proof.
  split; [left; exists (1 # 10)%Q; repeat split|]. split; [left; exists (1 # 10)%Q; repeat split|]. split; [now left|].
  split; [right; split; [now left|]; exists 10%Q; repeat split|]. split; [right; split; [now left|reflexivity]|]. right. split; [reflexivity|]. exists 1%Q. split; [reflexivity|]. split; [discriminate|reflexivity].
Qed.
(* the example of the documentation, with the end point inside *)
Example C158_doc : exists l, autofrequency (Some (1 # 10)) (Some (1 # 2)) (Some (1 # 10)) None None 1 = Ok l /\ Forall2 Qeq l [1 # 10; 2 # 10; 3 # 10; 4 # 10; 5 # 10]%Q.
Proof. eexists. split; [vm_compute; reflexivity|]. repeat constructor. Qed.
Example C159_nonvacuous : exists z, slow_at 1 [1; 0; -1] [0; 1 / 4; 1 / 2] 1 = Some z /\ cnorm2 z = 3.
Proof. exact w_slow. Qed.
Example C159_undefined_nonvacuous : slow_at 1 [1; 0; 2] [0; 1; 2] 1 = None.
Proof.
  apply slow_undefined; [discriminate|lra|]. exists 0. intros x [<-|[<-|[<-|[]]]].
  - replace (2 * PI * 1 * 0 - 0) with 0 by ring. apply sin_0.
  - replace (2 * PI * 1 * 1 - 0) with (2 * PI) by ring. apply sin_2PI.
  - replace (2 * PI * 1 * 2 - 0) with (0 + 2 * INR 2 * PI) by (cbn; ring). rewrite sin_period. apply sin_0.
Qed.
Example C160_nonvacuous : exists l, lsft_fast exact_trig 1 [1; 0; 2; 5] (even 3 (1 / 2) 4) (map (fun j => 0 + INR j * (1 / 2)) (seq 0 3)) = Ok l /\
  nth_error l 1 = Some (slow_at 1 [1; 0; 2; 5] (even 3 (1 / 2) 4) (INR 1 / (INR 4 * (1 / 2)))).
Proof.
  destruct (fast_even 1 [1; 0; 2; 5] 3 (1 / 2) 0 (1 / 2) 3 4 eq_refl ltac:(lia) ltac:(lra) ltac:(lra) ltac:(lra) ltac:(lia)) as (l & E & _ & H). exists l. split; [exact E|].
  apply H; [lia|lia|lia|]. cbn [INR]. field.
Qed.
Example C161_nonvacuous : exists s, ls_powerspectrum (lsft_slow 1) u_lc Leahy PAll false (Some (1 # 3)%Q) (Some (1 # 2)%Q) (Some (1 # 3)%Q) = Ok s /\
  nth_error (ls_power s) 0 = Some (Some (rtoc (3 * (2 / 3)))).
Proof.
  assert (SP : spacing (Some (1 # 3)%Q) (Some 2%Q) (1 # 3)) by (left; exists (1 # 3)%Q; repeat split).
  assert (MI : forall x, Some (1 # 3)%Q = Some x -> (0 < x)%Q) by (intros x X; assert (x = (1 # 3)%Q) as -> by congruence; reflexivity).
  destruct (u_ok (Some (1 # 3)%Q) (1 # 3)%Q (Some (1 # 3)%Q) (1 # 3)%Q PAll Leahy SP ltac:(left; exists (1 # 3)%Q; repeat split) MI ltac:(discriminate) ltac:(discriminate)) as (s & E & F & _).
  exists s. split; [exact E|]. match type of F with _ = map Q2R ?l => let v := eval vm_compute in l in change l with v in F end.
  assert (R1 : Q2R (lc_res u_lc) = 1) by (unfold Q2R; cbn; lra). assert (NP : nph_of u_lc = 3) by (unfold nph_of, counts_of, u_lc, Q2R; cbn; lra).
  destruct (power_even u_lc Leahy (Some (1 # 3)%Q) (Some (1 # 2)%Q) (Some (1 # 3)%Q) s (1 # 3)%Q 2%Q 0%Q 0 3 E) as [_ H]; try reflexivity; try assumption.
  - rewrite R1. unfold times_of, u_lc, even. cbn [lc_time map seq INR]. assert (G : forall a b c a' b' c' : R, a = a' -> b = b' -> c = c' -> [a; b; c] = [a'; b'; c']) by (intros; subst; reflexivity). apply G; unfold Q2R; cbn; field.
  - rewrite R1. lra.
  - rewrite NP. lra.
  - destruct (H 0%nat 1%nat ltac:(lia) ltac:(lia)) as [P _]; [rewrite F, R1; cbn [map nth_error]; f_equal; unfold Q2R; cbn; field|].
    rewrite P, u_power, NP. cbn [fac kind factor]. reflexivity.
Qed.

