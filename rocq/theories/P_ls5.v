(* P_ls5.v: Lomb-Scargle spectra made from light curves. *)
From Verif Require Import Np M_utils Cplx M_fourier M_norm M_ls S_fourier S_ls P_pcolor2 P_lag P_timmer P_norm P_dft P_seg_cut P_helpers Lib P_ls P_ls2 P_ls3 P_ls4.
From Coq Require Import QArith Qreals Lqa Reals List Arith ZArith Lra Lia.
Import ListNotations.
Open Scope R_scope.

Lemma omulr_mul p a b : omulr (omulr p a) b = omulr p (a * b).
Proof. unfold omulr. rewrite map_map. apply map_ext. intros [z|]; [|reflexivity]. f_equal. apply cx_eq; unfold cscal, re, im; cbn; ring. Qed.
Lemma omulr_1 p : omulr p 1 = p.
Proof. unfold omulr. rewrite <- (map_id p) at 2. apply map_ext. intros [z|]; [|reflexivity]. f_equal. apply cx_eq; unfold cscal, re, im; cbn; ring. Qed.
Definition typed (pt : ptype) (z : option cx) : option cx := match z with Some z => Some (as_type pt z) | None => None end.
Lemma map_result_typed pt l : pt <> POther -> map_result (otype pt) l = Ok (map (typed pt) l).
Proof.
  intros N. induction l as [|z l IH]; [reflexivity|]. cbn [map_result map]. rewrite IH.
  destruct pt; try congruence; destruct z; reflexivity.
Qed.
Lemma typed_twice pt z : typed pt (typed pt z) = typed pt z.
Proof.
  destruct z as [z|]; [|reflexivity]. destruct pt; try reflexivity. cbn [typed as_type]. do 2 f_equal. unfold cabs. cbn [cnorm2]. unfold cnorm2 at 1, re, im. cbn [fst snd].
  f_equal. rewrite sqrt_sqrt; [ring|]. apply cnorm2_nonneg.
Qed.
(* geometric means of the two light curves *)
Definition nph_of (lc : lcurve) : R := rlsum (counts_of lc).
Definition gvar (v : option (R * R)) : option R := match v with Some (a, b) => Some (sqrt (a * b)) | None => None end.
Lemma normalize_cross_eval p dt n a b v norm pt : pt <> POther ->
  normalize_cross p dt n a b v norm pt = match kind norm (gvar v) with
    | Some k => Ok (map (typed pt) (omulr p (factor k dt n (sqrt (a * b) / INR n) (sqrt (a * b)))))
    | None => Err ValueError end.
Proof.
  intros N. unfold normalize_cross. fold (gvar v). rewrite (norm_factor omulr omulr_mul omulr_1). destruct (kind norm (gvar v)); [|reflexivity]. cbn [bind]. now apply map_result_typed.
Qed.
Theorem spectrum_values lsft lc1 lc2 norm pt fs mi ma df s : pt <> POther -> ls_from_lightcurve lsft lc1 lc2 norm pt fs mi ma df = Ok s ->
  exists e1 e2 b1 b2 freq cross kn,
    last_q (lc_time lc1) = Ok e1 /\ last_q (lc_time lc2) = Ok e2 /\ first_q (lc_time lc1) = Ok b1 /\ first_q (lc_time lc2) = Ok b2 /\
    autofrequency mi ma df (Some (qmin (lc_res lc1) (lc_res lc2))) (Some (qmax e1 e2 - qmin b1 b2)%Q) 1 = Ok freq /\
    ls_cross lsft lc1 lc2 (map Q2R freq) fs = Ok (ls_freq s, cross) /\ kind norm (gvar (variances lc1 lc2)) = Some kn /\
    ls_power s = map (fun z => match z with Some z => Some (as_type pt (cscal z (factor kn (Q2R (lc_res lc1)) (length (lc_time lc1)) (sqrt (nph_of lc1 * nph_of lc2) / INR (length (lc_time lc1))) (sqrt (nph_of lc1 * nph_of lc2))))) | None => None end) cross /\
    ls_unnorm s = (if match pt with PAll => true | _ => false end then cross else ls_power s) /\ ls_df s = None.
Proof.
  intros NP H. unfold ls_from_lightcurve in H.
  apply bind_ok in H as (e1 & E1 & H). apply bind_ok in H as (e2 & E2 & H). apply bind_ok in H as (b1 & B1 & H). apply bind_ok in H as (b2 & B2 & H).
  apply bind_ok in H as (freq & F & H). apply bind_ok in H as ([fr cross] & C & H). rewrite normalize_cross_eval in H by exact NP.
  destruct (kind norm (gvar (variances lc1 lc2))) as [kn|] eqn:K; [|discriminate]. cbn [bind] in H. rewrite map_result_typed in H by exact NP. cbn [bind] in H.
  exists e1, e2, b1, b2, freq, cross, kn. injection H as <-. cbn [ls_freq ls_power ls_unnorm ls_df].
  repeat split; auto.
  - unfold omulr. rewrite !map_map. apply map_ext. intros [z|]; [|reflexivity]. exact (typed_twice pt (Some _)).
  - destruct pt; try reflexivity. congruence.
Qed.
Lemma forall_nonneg mi ma df dt len nf d l : spacing df len d -> autofrequency mi ma df dt len nf = Ok l -> (forall x, mi = Some x -> (0 < x)%Q) -> forall f, In f (map Q2R l) -> 0 <= f.
Proof.
  intros D H M f I. apply in_map_iff in I. destruct I as (q & <- & I). replace 0 with (Q2R 0) by (unfold Q2R; cbn; lra). apply Qle_Rle.
  unfold autofrequency in H. apply bind_ok in H as (d' & E & H). apply bind_ok in H as (top & _ & H).
  assert (d' = d).
  { destruct D as [(x & -> & P & ->)|([->|(x & -> & P)] & y & -> & Q & ->)]; cbn [not_positive] in E.
    - rewrite (proj2 (qle_f _ _) P) in E. congruence.
    - destruct (qeq y 0); congruence.
    - rewrite (proj2 (qle_t _ _) P) in E. destruct (qeq y 0); congruence. }
  subst d'. pose proof (spacing_pos _ _ _ D) as P. assert (l = arange (match mi with None => (d / 2)%Q | Some f => if qle f 0 then (d / 2)%Q else f end) (top + d) d) as -> by congruence.
  apply in_arange in I; [|exact P]. destruct I as (i & -> & _). assert (S0 : (0 <= match mi with None => (d / 2)%Q | Some f => if qle f 0 then (d / 2)%Q else f end)%Q).
  { assert (0 <= d / 2)%Q by (apply Qle_shift_div_l; [reflexivity|Lqa.lra]). destruct mi as [x|]; [|assumption]. rewrite (proj2 (qle_f _ _) (M x eq_refl)). specialize (M x eq_refl). Lqa.lra. }
  assert (0 <= inject_Z (Z.of_nat i) * d)%Q; [|Lqa.lra]. apply Qmult_le_0_compat; [|Lqa.lra]. replace 0%Q with (inject_Z 0) by reflexivity. rewrite <- Zle_Qle. lia.
Qed.
(* the power spectrum agrees with the standard one at the Fourier frequencies *)
Theorem power_even lc norm mi ma df s d e b t0 n : ls_powerspectrum (lsft_slow 1) lc norm PAll false mi ma df = Ok s ->
  lc_var lc = None -> times_of lc = even t0 (Q2R (lc_res lc)) n -> length (lc_counts lc) = n -> Q2R (lc_res lc) <> 0 -> 0 <= nph_of lc ->
  last_q (lc_time lc) = Ok e -> first_q (lc_time lc) = Ok b -> spacing df (Some (e - b)%Q) d -> (forall x, mi = Some x -> (0 < x)%Q) ->
  length (ls_power s) = length (ls_freq s) /\
  forall i k, (0 < k < n)%nat -> (2 * k <> n)%nat -> nth_error (ls_freq s) i = Some (INR k / (INR n * Q2R (lc_res lc))) ->
    nth_error (ls_power s) i = Some (Some (rtoc (power_at (counts_of lc) k * fac norm None (Q2R (lc_res lc)) n (nph_of lc / INR n) (nph_of lc)))) /\
    nth_error (ls_unnorm s) i = Some (Some (rtoc (power_at (counts_of lc) k))).
Proof.
  intros H V T L D P E B SP M. unfold ls_powerspectrum in H. destruct (spectrum_values _ _ _ _ PAll _ _ _ _ _ ltac:(discriminate) H) as (e1 & e2 & b1 & b2 & freq & cross & kn & E1 & E2 & B1 & B2 & F & C & K & PW & UN & _).
  assert (e1 = e) by congruence. assert (e2 = e) by congruence. assert (b1 = b) by congruence. assert (b2 = b) by congruence. subst e1 e2 b1 b2.
  assert (LT : length (lc_time lc) = n) by (apply (f_equal (@length R)) in T; unfold times_of in T; rewrite map_length, even_len in T; exact T).
  assert (N0 : (0 < n)%nat). { destruct (lc_time lc) as [|x tl]; [discriminate|]. cbn in LT. lia. }
  assert (SP' : spacing df (Some (qmax e e - qmin b b)%Q) d).
  { assert (Q1 : qmax e e = e) by (unfold qmax; destruct (qle e e); reflexivity). assert (Q2 : qmin b b = b) by (unfold qmin; destruct (qle b b); reflexivity). now rewrite Q1, Q2. }
  destruct (cross_even lc lc (map Q2R freq) t0 (Q2R (lc_res lc)) n T T L L N0 D (forall_nonneg _ _ _ _ _ _ _ _ SP' F M)) as (l & CE & LL & VAL).
  assert (ls_freq s = map Q2R freq /\ cross = l) as [-> ->] by (split; congruence).
  split; [now rewrite PW, map_length, LL|].
  intros i k K1 K2 FI. specialize (VAL i k K1 K2 FI). rewrite UN, PW, nth_error_map, VAL. cbn [option_map].
  assert (CP : cross_at (counts_of lc) (counts_of lc) k = rtoc (power_at (counts_of lc) k)) by (unfold cross_at, power_at, rtoc; f_equal; ring).
  rewrite CP. split; [|reflexivity]. do 2 f_equal. unfold variances in K. rewrite V in K. cbn [gvar] in K. unfold fac. rewrite K, LT.
  rewrite sqrt_square by exact P. cbn [as_type]. apply cx_eq; unfold cscal, rtoc, re, im; cbn; ring.
Qed.
(* what does not work *)
Theorem df_ignored lsft lc1 lc2 norm pt fs mi ma df : ls_crossspectrum lsft lc1 lc2 norm pt fs mi ma df = ls_from_lightcurve lsft lc1 lc2 norm pt fs mi ma None.
Proof. reflexivity. Qed.
Theorem rms_fails lsft lc1 lc2 norm pt fs mi ma df s k : ls_from_lightcurve lsft lc1 lc2 norm pt fs mi ma df = Ok s -> ls_bin_width s k = Err TypeError.
Proof.
  intros H. unfold ls_bin_width. enough (ls_df s = None) as -> by reflexivity. unfold ls_from_lightcurve in H.
  apply bind_ok in H as (e1 & E1 & H). apply bind_ok in H as (e2 & E2 & H). apply bind_ok in H as (b1 & B1 & H). apply bind_ok in H as (b2 & B2 & H).
  apply bind_ok in H as (freq & F & H). apply bind_ok in H as ([fr cross] & C & H). apply bind_ok in H as (p & _ & H). apply bind_ok in H as (p' & _ & H).
  injection H as <-. reflexivity.
Qed.
Definition u_lc : lcurve := mkLc [0%Q; 1%Q; 2%Q] [1%Q; 0%Q; 2%Q] 1%Q None.
Lemma u_ok mi st df d pt norm : spacing df (Some 2%Q) d -> from_freq mi d st -> (forall x, mi = Some x -> (0 < x)%Q) -> pt <> POther -> norm <> OtherNorm -> exists s, ls_powerspectrum (lsft_slow 1) u_lc norm pt false mi (Some (1 # 2)%Q) df = Ok s /\
  ls_freq s = map Q2R (arange st ((1 # 2) + d) d) /\
  exists cross, ls_cross (lsft_slow 1) u_lc u_lc (ls_freq s) false = Ok (ls_freq s, cross) /\ length cross = length (ls_freq s).
Proof.
  intros SP FF MI PT NO. unfold ls_powerspectrum, ls_from_lightcurve. change (last_q (lc_time u_lc)) with (Ok 2%Q). change (first_q (lc_time u_lc)) with (Ok 0%Q). cbn [bind].
  assert (A : autofrequency mi (Some (1 # 2)%Q) df (Some (qmin (lc_res u_lc) (lc_res u_lc))) (Some (qmax 2 2 - qmin 0 0)%Q) 1 = Ok (arange st ((1 # 2) + d) d)).
  { apply auto_eval; [exact SP|exact FF|now left]. }
  assert (NN := forall_nonneg _ _ _ _ _ _ _ _ SP A MI).
  rewrite A. cbn [bind]. set (fr := map Q2R _) in *.
  assert (C : ls_cross (lsft_slow 1) u_lc u_lc fr false = Ok (fr, map cross_of (combine (map (slow_at 1 (counts_of u_lc) (times_of u_lc)) fr) (map (slow_at 1 (counts_of u_lc) (times_of u_lc)) fr)))).
  { unfold ls_cross. rewrite !slow_list by (try discriminate; try reflexivity; exact NN). reflexivity. }
  rewrite C. cbn [bind]. rewrite normalize_cross_eval by exact PT. change (gvar (variances u_lc u_lc)) with (@None R).
  destruct (kind norm None) as [kn|] eqn:K; [|exfalso; destruct norm; cbn in K; congruence]. cbn [bind]. rewrite map_result_typed by exact PT. cbn [bind]. eexists. split; [reflexivity|]. cbn [ls_freq].
  split; [reflexivity|]. eexists. split; [exact C|]. rewrite map_length, combine_length, map_length. lia.
Qed.
Lemma df_refuted : exists lc df s, (0 < df)%Q /\ ls_crossspectrum (lsft_slow 1) lc lc Leahy PAll false None (Some (1 # 2)%Q) (Some df) = Ok s /\
  nth 1 (ls_freq s) 0 - nth 0 (ls_freq s) 0 <> Q2R df /\
  exists s', ls_powerspectrum (lsft_slow 1) lc Leahy PAll false None (Some (1 # 2)%Q) (Some df) = Ok s' /\ nth 1 (ls_freq s') 0 - nth 0 (ls_freq s') 0 = Q2R df.
Proof.
  destruct (u_ok None (1 / 2 / 2)%Q None (1 / 2)%Q PAll Leahy ltac:(right; split; [now left|]; exists 2%Q; repeat split) ltac:(right; split; [now left|reflexivity]) ltac:(discriminate) ltac:(discriminate) ltac:(discriminate)) as (s & E & F & _).
  destruct (u_ok None ((1 # 4) / 2)%Q (Some (1 # 4)%Q) (1 # 4)%Q PAll Leahy ltac:(left; exists (1 # 4)%Q; repeat split) ltac:(right; split; [now left|reflexivity]) ltac:(discriminate) ltac:(discriminate) ltac:(discriminate)) as (s' & E' & F' & _).
  exists u_lc, (1 # 4)%Q, s. split; [reflexivity|]. split; [exact E|]. split.
  - match type of F with _ = map Q2R ?l => let v := eval vm_compute in l in change l with v in F end. rewrite F. unfold Q2R. cbn. lra.
  - exists s'. split; [exact E'|]. match type of F' with _ = map Q2R ?l => let v := eval vm_compute in l in change l with v in F' end. rewrite F'. unfold Q2R. cbn. lra.
Qed.
Lemma u_power : power_at (counts_of u_lc) 1 = 3.
Proof.
  unfold power_at, dft, counts_of, u_lc. cbn [lc_counts map length]. unfold rs. cbn [seq map rlsum fold_right]. unfold val. cbn [nth Nat.mul Nat.add]. unfold re, im. cbn [fst snd].
  replace (Q2R 0) with 0 by (unfold Q2R; cbn; lra). replace (Q2R 1) with 1 by (unfold Q2R; cbn; lra). replace (Q2R 2) with 2 by (unfold Q2R; cbn; lra).
  assert (A0 : 2 * PI * INR 0 / INR 3 = 0) by (cbn [INR]; field). assert (A2 : 2 * PI * INR 2 / INR 3 = 2 * (PI / 3) + 2 * (PI / 3)) by (cbn [INR]; field).
  rewrite A0, A2, cos_0, sin_0, cos_plus, sin_plus, cos_2PI3, sin_2PI3. assert (Q : sqrt 3 * sqrt 3 = 3) by (apply sqrt_sqrt; lra). nra.
Qed.
Lemma unnorm_refuted : exists lc s cross, ls_powerspectrum (lsft_slow 1) lc AbsNorm PReal false (Some (1 # 3)%Q) (Some (1 # 2)%Q) (Some (1 # 3)%Q) = Ok s /\
  ls_cross (lsft_slow 1) lc lc (ls_freq s) false = Ok (ls_freq s, cross) /\ nth_error cross 0 = Some (Some (rtoc 3)) /\ nth_error (ls_unnorm s) 0 = Some (Some (rtoc 2)).
Proof.
  assert (SP : spacing (Some (1 # 3)%Q) (Some 2%Q) (1 # 3)) by (left; exists (1 # 3)%Q; repeat split).
  destruct (u_ok (Some (1 # 3)%Q) (1 # 3)%Q (Some (1 # 3)%Q) (1 # 3)%Q PReal AbsNorm SP ltac:(left; exists (1 # 3)%Q; repeat split) ltac:(intros x X; assert (x = (1 # 3)%Q) as -> by congruence; reflexivity) ltac:(discriminate) ltac:(discriminate)) as (s & E & F & cross & C & L).
  match type of F with _ = map Q2R ?l => let v := eval vm_compute in l in change l with v in F end.
  assert (T : times_of u_lc = even 0 1 3).
  { unfold times_of, u_lc, even. cbn [lc_time map seq INR]. assert (G : forall a b c a' b' c' : R, a = a' -> b = b' -> c = c' -> [a; b; c] = [a'; b'; c']) by (intros; subst; reflexivity).
    apply G; unfold Q2R; cbn; field. }
  assert (NN : forall f, In f (ls_freq s) -> 0 <= f).
  { intros f I. rewrite F in I. apply in_map_iff in I. destruct I as (q & <- & I). replace 0 with (Q2R 0) by (unfold Q2R; cbn; lra). apply Qle_Rle. destruct I as [<-|[<-|[]]]; discriminate. }
  destruct (cross_even u_lc u_lc (ls_freq s) 0 1 3 T T eq_refl eq_refl ltac:(lia) ltac:(lra) NN) as (l & CE & _ & VAL). assert (l = cross) as -> by congruence.
  assert (X0 : nth_error cross 0 = Some (Some (rtoc 3))).
  { rewrite (VAL 0%nat 1%nat ltac:(lia) ltac:(lia)); [|rewrite F; cbn [map nth_error]; f_equal; unfold Q2R; cbn; field]. do 2 f_equal. rewrite <- u_power. unfold cross_at, power_at, rtoc. f_equal. ring. }
  exists u_lc, s, cross. split; [exact E|]. split; [exact C|]. split; [exact X0|].
  unfold ls_powerspectrum in E. destruct (spectrum_values _ _ _ _ PReal _ _ _ _ _ ltac:(discriminate) E) as (e1 & e2 & b1 & b2 & freq & cross' & kn & E1 & E2 & B1 & B2 & FF & CC & K & PW & UN & _).
  cbn [kind] in K. assert (kn = KAbs) as -> by congruence. rewrite UN, PW, nth_error_map.
  assert (cross' = cross) as ->.
  { assert (D : ls_freq s = map Q2R freq). { unfold ls_cross in CC. apply bind_ok in CC as (g1 & _ & CC). apply bind_ok in CC as (g2 & _ & CC). congruence. } rewrite <- D in CC. congruence. }
  rewrite X0. cbn [option_map]. do 2 f_equal. unfold factor, as_type, cscal, rtoc, re, im. cbn [fst snd]. f_equal. cbn. unfold Q2R. cbn. field.
Qed.

Lemma limits_ok mi ma :
  (check_freqs mi ma = Ok tt <-> (forall a, mi = Some a -> (0 <= a)%Q) /\ (forall b, ma = Some b -> (0 <= b)%Q) /\ (forall a b, mi = Some a -> ma = Some b -> (a < b)%Q)) /\
  (check_freqs mi ma = Ok tt \/ check_freqs mi ma = Err ValueError).
Proof.
  unfold check_freqs. destruct mi as [a|], ma as [b|].
  - destruct (qlt a 0) eqn:A; [apply qlt_t in A; split; [split; [discriminate|intros (H & _); specialize (H a eq_refl); Lqa.lra]|now right]|].
    destruct (qlt b 0) eqn:B; [apply qlt_t in B; split; [split; [discriminate|intros (_ & H & _); specialize (H b eq_refl); Lqa.lra]|now right]|].
    destruct (qle b a) eqn:C; [apply qle_t in C; split; [split; [discriminate|intros (_ & _ & H); specialize (H a b eq_refl eq_refl); Lqa.lra]|now right]|].
    apply qlt_f in A. apply qlt_f in B. apply qle_f in C. split; [split; [intros _|reflexivity]|now left].
    split; [intros x X; injection X as <-; exact A|]. split; [intros x X; injection X as <-; exact B|]. intros x x' X X'. injection X as <-. injection X' as <-. exact C.
  - destruct (qlt a 0) eqn:A; [apply qlt_t in A; split; [split; [discriminate|intros (H & _); specialize (H a eq_refl); Lqa.lra]|now right]|].
    apply qlt_f in A. split; [split; [intros _|reflexivity]|now left]. split; [intros x X; injection X as <-; exact A|]. split; discriminate.
  - destruct (qlt b 0) eqn:B; [apply qlt_t in B; split; [split; [discriminate|intros (_ & H & _); specialize (H b eq_refl); Lqa.lra]|now right]|].
    apply qlt_f in B. split; [split; [intros _|reflexivity]|now left]. split; [discriminate|]. split; [intros x X; injection X as <-; exact B|discriminate].
  - split; [split; [intros _; repeat split; discriminate|reflexivity]|now left].
Qed.
