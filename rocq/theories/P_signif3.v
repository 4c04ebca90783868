(* P_signif3.v: upper limits on modulations, coherences of cross spectrum objects. *)
From Verif Require Import Np Cplx S_stats S_fourier S_signif M_fourier M_stats M_zn M_signif P_pval P_stats P_zn P_lag P_cserr P_signif P_signif2.
From Coq Require Import Reals Lra Lia.
Open Scope R_scope.

Lemma rmax_list_spec l : l <> [] -> exists v, rmax_list l = Ok v /\ In v l /\ forall x, In x l -> x <= v.
Proof.
  destruct l as [|a l]; [congruence|]. intros _. cbn [rmax_list]. eexists. split; [reflexivity|].
  assert (K : forall l a, (fold_left Rmax l a = a \/ In (fold_left Rmax l a) l) /\ a <= fold_left Rmax l a /\ forall x, In x l -> x <= fold_left Rmax l a).
  { clear. induction l as [|b l IH]; intros a; cbn [fold_left]; [split; [now left|split; [lra|intros x []]]|].
    destruct (IH (Rmax a b)) as (H1 & H2 & H3). pose proof (Rmax_l a b). pose proof (Rmax_r a b). split; [|split; [lra|]].
    - destruct H1 as [E|H1]; [|right; now right]. rewrite E. unfold Rmax. destruct (Rle_dec a b); [right; now left|now left].
    - intros x [<-|Hx]; [lra|now apply H3]. }
  destruct (K l a) as (H1 & H2 & H3). split; [destruct H1 as [E|H1]; [left; now rewrite E|now right]|]. intros x [<-|Hx]; [assumption|now apply H3].
Qed.
Lemma Rltb_t x y : Rltb x y = true <-> x < y.
Proof. unfold Rltb. destruct (Rlt_dec x y); split; intros; try assumption; try reflexivity; try discriminate; contradiction. Qed.
Lemma Rltb_f x y : Rltb x y = false <-> y <= x.
Proof. unfold Rltb. destruct (Rlt_dec x y); split; intros; try reflexivity; try discriminate; lra. Qed.
(* the searched frequencies *)
Definition searched (fmin fmax : option R) (f : R) : Prop :=
  0 < f /\ (forall a, fmin = Some a -> a <= f) /\ (forall b, fmax = Some b -> f <= b).
Lemma freq_ok_iff fmin fmax f : freq_ok fmin fmax f = true <-> searched fmin fmax f.
Proof.
  unfold freq_ok, searched. rewrite !andb_true_iff, Rltb_t.
  assert (K1 : match fmin with Some a => negb (Rltb f a) | None => true end = true <-> forall a, fmin = Some a -> a <= f).
  { destruct fmin as [a|]; [|split; [discriminate|reflexivity]]. rewrite negb_true_iff, Rltb_f. split; [intros H b [= <-]; assumption|intros H; now apply H]. }
  assert (K2 : match fmax with Some b => negb (Rltb b f) | None => true end = true <-> forall b, fmax = Some b -> f <= b).
  { destruct fmax as [a|]; [|split; [discriminate|reflexivity]]. rewrite negb_true_iff, Rltb_f. split; [intros H b [= <-]; assumption|intros H; now apply H]. }
  rewrite K1, K2. tauto.
Qed.
(* response of the binned light curve between 0 and the Nyquist frequency *)
Definition bin_response (ratio : R) : R := sin (PI / 2 * ratio) / (PI / 2 * ratio).
Lemma response_bounds r : 0 < r <= 1 -> 0 < bin_response r < 1.
Proof.
  intros H. unfold bin_response. pose proof PI_RGT_0 as P. set (x := PI / 2 * r).
  assert (X : 0 < x) by (unfold x; apply Rmult_lt_0_compat; lra). assert (X2 : x <= PI / 2) by (unfold x; rewrite <- (Rmult_1_r (PI / 2)) at 2; apply Rmult_le_compat_l; lra).
  assert (S : 0 < sin x) by (apply sin_gt_0; lra). pose proof (sin_lt_x x X). split; [now apply Rdiv_lt_0_compat|].
  apply Rmult_lt_reg_r with x; [assumption|]. unfold Rdiv. rewrite Rmult_assoc, Rinv_l by lra. lra.
Qed.
Lemma amplitude_value ul pmeas counts n c fft r : 0 < counts -> 0 <= ul pmeas n c -> 0 < r <= 1 ->
  amplitude_upper_limit ul pmeas counts n c fft r * bin_response r * (if fft then sqrt (773 / 1000) else 1) = sqrt (2 * ul pmeas n c / counts).
Proof.
  intros Hc Hu Hr. unfold amplitude_upper_limit, a_from_ssig. destruct (Rlt_dec 0 r); [|lra]. destruct (response_bounds r Hr) as (B1 & B2).
  unfold bin_response in *. assert (S : sqrt (773 / 1000) <> 0) by (apply Rgt_not_eq, sqrt_lt_R0; lra).
  set (v := sin (PI / 2 * r) / (PI / 2 * r)) in *. destruct fft; field; repeat split; try assumption; lra.
Qed.
Lemma nth_get {A} (l : list A) i a : get l i = Ok a <-> nth_error l i = Some a.
Proof. unfold get. destruct (nth_error l i); split; intros H; try discriminate; congruence. Qed.
Lemma upper_limit_main ul freq power m nphots fmin fmax c :
  length power = length freq -> 0 < nphots -> (forall p k, 0 <= ul p k c) ->
  (exists f, In f freq /\ searched fmin fmax f) ->
  exists f p a fn, modulation_upper_limit ul freq power m nphots fmin fmax c = Ok a /\ In (f, p) (combine freq power) /\ searched fmin fmax f /\
    (forall f' p', In (f', p') (combine freq power) -> searched fmin fmax f' -> p' <= p) /\
    In fn freq /\ (forall f', In f' freq -> f' <= fn) /\
    a * bin_response (f / fn) * sqrt (773 / 1000) = sqrt (2 * ul (p * INR m) m c / nphots) /\ 0 < bin_response (f / fn) < 1 /\
    sqrt (2 * ul (p * INR m) m c / nphots) <= a.
Proof.
  intros HL Hn Hu (f0 & If & Hf). unfold modulation_upper_limit.
  destruct (rmax_list_spec freq) as (fn & E & Ifn & Hmax); [intros ->; destruct If|]. rewrite E. cbn [bind].
  set (kept := filter (fun fp => freq_ok fmin fmax (fst fp)) (combine freq power)).
  assert (NE : map snd kept <> []).
  { apply In_nth_error in If. destruct If as (i & Hi). destruct (nth_error power i) as [p0|] eqn:Ep; [|apply nth_error_None in Ep; assert (nth_error freq i <> None) by congruence; apply nth_error_Some in H; lia].
    assert (In (f0, p0) kept). { apply filter_In. split; [|cbn; now apply freq_ok_iff]. clear -Hi Ep. revert power i Hi Ep. induction freq as [|a l IH]; intros [|b r] [|i] Hi Ep; try discriminate.
      - injection Hi as ->. injection Ep as ->. now left. - right. now apply (IH r i). }
    intros Z. apply map_eq_nil in Z. rewrite Z in H. destruct H. }
  destruct (argmax_spec (map snd kept) NE) as (i & Ei & Li & M1 & _). rewrite Ei. cbn [bind]. rewrite map_length in *.
  destruct (nth_error kept i) as [(f, p)|] eqn:Ek; [|apply nth_error_None in Ek; lia].
  assert (G : get kept i = Ok (f, p)) by now apply nth_get. rewrite G. cbn [bind fst snd].
  assert (Ik : In (f, p) kept) by (eapply nth_error_In; eassumption). pose proof Ik as Ik'. apply filter_In in Ik'. destruct Ik' as (Ic & Hs). cbn in Hs. apply freq_ok_iff in Hs.
  assert (Ff : In f freq) by (eapply in_combine_l; eassumption). pose proof (Hmax f Ff) as Fm. destruct Hs as (F0 & Hs).
  assert (R : 0 < f / fn <= 1). { split; [apply Rdiv_lt_0_compat; lra|]. apply Rmult_le_reg_r with fn; [lra|]. unfold Rdiv. rewrite Rmult_assoc, Rinv_l by lra. lra. }
  set (a := amplitude_upper_limit ul (p * INR m) nphots m c true (f / fn)). exists f, p, a, fn.
  pose proof (amplitude_value ul (p * INR m) nphots m c true (f / fn) Hn (Hu _ _) R) as V. fold a in V. cbv iota in V. pose proof (response_bounds _ R) as B.
  split; [reflexivity|]. split; [assumption|]. split; [split; assumption|]. split.
  { intros f' p' H1 H2. assert (In (f', p') kept) by (apply filter_In; split; [assumption|cbn; now apply freq_ok_iff]). apply In_nth_error in H. destruct H as (q & Hq).
    assert (Lq : (q < length kept)%nat) by (apply nth_error_Some; congruence). specialize (M1 q Lq).
    assert (N : forall z f1 p1, nth_error kept z = Some (f1, p1) -> nth z (map snd kept) 0 = p1).
    { intros z f1 p1 Hz. apply nth_error_nth. rewrite nth_error_map, Hz. reflexivity. }
    rewrite (N _ _ _ Hq), (N _ _ _ Ek) in M1. exact M1. }
  split; [assumption|]. split; [exact Hmax|]. split; [exact V|]. split; [exact B|].
  rewrite <- V. assert (S : 0 < sqrt (773 / 1000) < 1). { split; [apply sqrt_lt_R0; lra|]. apply Rlt_le_trans with (sqrt 1); [apply sqrt_lt_1_alt; lra|rewrite sqrt_1; lra]. }
  assert (A : 0 <= a).
  { destruct (Rle_dec 0 a) as [|N]; [assumption|exfalso]. pose proof (sqrt_pos (2 * ul (p * INR m) m c / nphots)) as Q. rewrite <- V in Q.
    assert (a * bin_response (f / fn) * sqrt (773 / 1000) < 0). { rewrite Rmult_assoc. assert (0 < bin_response (f / fn) * sqrt (773 / 1000)) by (apply Rmult_lt_0_compat; lra).
      replace 0 with (0 * (bin_response (f / fn) * sqrt (773 / 1000))) by ring. apply Rmult_lt_compat_r; lra. } lra. }
  rewrite Rmult_assoc. rewrite <- (Rmult_1_r a) at 2. apply Rmult_le_compat_l; [assumption|]. left. rewrite <- (Rmult_1_r 1). apply Rmult_le_0_lt_compat; lra.
Qed.
Lemma upper_limit_empty ul freq power m nphots fmin fmax c : (forall f, In f freq -> ~ searched fmin fmax f) ->
  modulation_upper_limit ul freq power m nphots fmin fmax c = Err ValueError.
Proof.
  intros H. unfold modulation_upper_limit. destruct freq as [|a l] eqn:Ef; [reflexivity|]. rewrite <- Ef in *.
  destruct (rmax_list_spec freq) as (fn & E & _); [rewrite Ef; discriminate|]. rewrite E. cbn [bind].
  assert (N : filter (fun fp => freq_ok fmin fmax (fst fp)) (combine freq power) = []).
  { destruct (filter _ _) as [|(f, p) r] eqn:Ek; [reflexivity|exfalso]. assert (I : In (f, p) ((f, p) :: r)) by now left. rewrite <- Ek in I. apply filter_In in I. destruct I as (I & B).
    apply (H f); [eapply in_combine_l; eassumption|now apply freq_ok_iff]. }
  rewrite N. reflexivity.
Qed.
(* the pulsed fraction limit is the pulsed fraction of the amplitude limit *)
Lemma pf_limit ul pmeas counts n c fft r : let a := amplitude_upper_limit ul pmeas counts n c fft r in
  0 <= a -> 0 <= pf_upper_limit ul pmeas counts n c fft r < 2 /\ a_from_pf (pf_upper_limit ul pmeas counts n c fft r) = a.
Proof.
  intros a A. unfold pf_upper_limit. fold a. unfold pf_from_a, a_from_pf. split; [split|].
  - unfold Rdiv. apply Rmult_le_pos; [lra|]. left. apply Rinv_0_lt_compat. lra.
  - apply Rmult_lt_reg_r with (1 + a); [lra|]. unfold Rdiv. rewrite Rmult_assoc, Rinv_l by lra. lra.
  - field. lra.
Qed.

(* ---- coherence ---- *)
Lemma acs_main z p q n1 n2 n m : 0 < p -> 0 < q -> (0 < n)%nat -> 0 < m -> 0 <= n1 <= p -> 0 <= n2 <= q -> cnorm2 z <= p * q ->
  let r := acs_coherence z p q n1 n2 n m in
  0 <= fst r <= 1 /\ snd r = sqrt 2 * (1 - fst r) * sqrt (fst r) / sqrt m /\ 0 <= snd r /\ (fst r = 1 -> snd r = 0).
Proof.
  intros Hp Hq Hn Hm N1 N2 Hz r. unfold r, acs_coherence. cbn [fst snd].
  pose proof (coherence_noise z p q n1 n2 n Hp Hq Hn N1 N2 Hz) as B. set (c := raw_coherence z p q n1 n2 n 1) in *.
  assert (S2 : 0 < sqrt 2) by (apply sqrt_lt_R0; lra). assert (SM : 0 < sqrt m) by (now apply sqrt_lt_R0).
  assert (E : (if Req_EM_T c 0 then 0 else sqrt 2 * c * (1 - c) / (sqrt c * sqrt m)) = sqrt 2 * (1 - c) * sqrt c / sqrt m).
  { destruct (Req_EM_T c 0) as [->|N]; [rewrite sqrt_0; field; lra|]. assert (SC : 0 < sqrt c) by (apply sqrt_lt_R0; lra).
    rewrite <- (sqrt_sqrt c) at 1 by lra. field. split; lra. }
  split; [exact B|]. rewrite E. split; [reflexivity|]. split.
  - unfold Rdiv. apply Rmult_le_pos; [|left; now apply Rinv_0_lt_compat]. apply Rmult_le_pos; [apply Rmult_le_pos; lra|apply sqrt_pos].
  - intros ->. field. lra.
Qed.
(* the bias of the coherence is computed for n, the bins of a segment, instead of the number m of averaged segments *)
Lemma acs_bias : exists z p q n1 n2 n m, 0 < p /\ 0 < q /\ 0 <= n1 <= p /\ 0 <= n2 <= q /\ cnorm2 z <= p * q /\ (0 < m)%nat /\ (0 < n)%nat /\
  expected_bias p q n1 n2 m 1 < cnorm2 z /\
  fst (acs_coherence z p q n1 n2 n (INR m)) <> (cnorm2 z - expected_bias p q n1 n2 m 1) / (p * q).
Proof.
  exists (1, 0), 2, 2, 1, 1, 1000%nat, 10%nat. unfold cnorm2, re, im. cbn [fst snd].
  assert (I : INR 10 = 10) by (rewrite INR_IZR_INZ; reflexivity). split; [lra|]. split; [lra|]. split; [lra|]. split; [lra|]. split; [lra|]. split; [lia|]. split; [lia|].
  unfold expected_bias. cbn [Nat.ltb Nat.leb]. rewrite I. split; [lra|]. unfold acs_coherence. cbn [fst]. unfold raw_coherence, bias_term.
  replace (Nat.ltb 500 1000) with true by (symmetry; apply Nat.ltb_lt; lia). unfold cmul, cconj, re, im. cbn [fst snd]. destruct (Rlt_dec _ _); lra.
Qed.
(* one segment: the coherence is 1 whatever the light curves *)
Lemma single_coherence x y k n : 0 < power_at x k -> 0 < power_at y k ->
  cs_coherence (cross_at x y k) (power_at x k) (power_at y k) n = 1.
Proof.
  intros Hx Hy. unfold cs_coherence. rewrite coherence_value by assumption. rewrite cross_conj.
  assert (E : cnorm2 (cmul (cconj (dft x k)) (dft y k)) = power_at x k * power_at y k).
  { unfold power_at, cnorm2, cmul, cconj, re, im. destruct (dft x k) as (a, b), (dft y k) as (c, d). cbn. ring. }
  rewrite E. field. split; lra.
Qed.
(* ---- error of the rms from single powers ---- *)
Lemma rms_error_value powers nphots m : (0 < m)%nat -> 0 < nphots -> 0 < rlsum powers ->
  rms_error powers nphots m = 4 / nphots * sqrt (rlsum (map (fun p => p * p) powers)) / (2 * sqrt (rlsum powers / nphots)).
Proof.
  intros Hm Hn Hs. unfold rms_error. rewrite map_map. assert (M : 0 < INR m) by (apply lt_0_INR; lia).
  assert (E : rlsum (map (fun x => 2 * (2 * INR m) * x / INR m / nphots * (2 * (2 * INR m) * x / INR m / nphots)) powers) = (4 / nphots) * (4 / nphots) * rlsum (map (fun p => p * p) powers)).
  { clear Hs. induction powers as [|a l IH]; [cbn; ring|]. cbn [map]. unfold rlsum in *. cbn [fold_right]. rewrite IH. field. split; lra. }
  rewrite E. assert (P : 0 <= rlsum (map (fun p => p * p) powers)). { clear. induction powers as [|a l IH]; [cbn; lra|]. cbn [map]. unfold rlsum in *. cbn [fold_right]. pose proof (Rle_0_sqr a) as Q. unfold Rsqr in Q. lra. }
  assert (F : 0 <= 4 / nphots) by (left; apply Rdiv_lt_0_compat; lra).
  rewrite sqrt_mult, sqrt_square; [|assumption|now apply Rmult_le_pos|assumption]. assert (0 < sqrt (rlsum powers / nphots)) by (apply sqrt_lt_R0, Rdiv_lt_0_compat; assumption). field. split; lra.
Qed.
(* averaging 100 spectra should divide the error by 10 *)
Lemma rms_error_averaged : exists powers nphots, 0 < nphots /\ 0 < rlsum powers /\ 0 < rms_error powers nphots 1 /\ rms_error powers nphots 100 = rms_error powers nphots 1.
Proof.
  exists [1], 1. assert (R : rlsum [1] = 1) by (cbn; ring). assert (V : forall m, (0 < m)%nat -> rms_error [1] 1 m = 2).
  { intros m Hm. rewrite rms_error_value by (try assumption; lra). cbn [map]. replace (rlsum [1 * 1]) with 1 by (cbn; ring). rewrite R. replace (1 / 1) with 1 by field. rewrite sqrt_1. field. }
  rewrite !V by lia. lra.
Qed.
