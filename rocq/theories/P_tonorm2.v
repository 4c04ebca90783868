(* P_tonorm2.v: changing the normalization of averaged spectra. *)
From Verif Require Import Np Lib Cplx M_fourier M_norm S_fourier S_norm P_norm P_avg P_avgcs P_tonorm.
From Coq Require Import Lra Lia.
Open Scope R_scope.

Lemma same_raw_pds segs dt a b (sub : bool) n t t' : (0 < n)%nat -> tuples_nonzero segs -> (forall u, In u (usable segs) -> length (s_flux u) = n) ->
  avg_pds segs dt a true sub = Ok (Some t) -> avg_pds segs dt b true sub = Ok (Some t') -> same_raw (spectrum_of_pds t) (spectrum_of_pds t').
Proof.
  intros Hn H1 H2 E E'. rewrite (avg_pds_common segs dt a sub n Hn H1 H2) in E. rewrite (avg_pds_common segs dt b sub n Hn H1 H2) in E'.
  destruct (usable segs) as [|u us]; [discriminate|].
  destruct (kind a _) as [ka|]; [|discriminate]. destruct (kind b _) as [kb|]; [|discriminate].
  injection E as <-. injection E' as <-. unfold same_raw, spectrum_of_pds. cbn. repeat split; reflexivity.
Qed.
Lemma consistent_pds segs dt a (sub : bool) n t : (0 < n)%nat -> tuples_nonzero segs -> (forall u, In u (usable segs) -> length (s_flux u) = n) ->
  avg_pds segs dt a true sub = Ok (Some t) ->
  consistent (spectrum_of_pds t) /\ complete (spectrum_of_pds t) /\ computable (spectrum_of_pds t) a /\ p_norm t = a.
Proof.
  intros Hn H1 H2 E. rewrite (avg_pds_common segs dt a sub n Hn H1 H2) in E.
  destruct (usable segs) as [|u us]; [discriminate|]. set (l := u :: us) in *.
  set (var := mean_present (map err2 l)) in *. destruct (kind a var) as [k|] eqn:K; [|discriminate].
  injection E as <-. unfold consistent, complete, computable, spectrum_of_pds, variance_of, counts_of. cbn.
  assert (V : (if some var then var else None) = var) by (now destruct var).
  fold l. fold var. rewrite V. unfold refused. rewrite K. split; [|repeat split; try congruence].
  unfold scaled, fac, rl, over. cbn. fold l. fold var. rewrite ?V, K.
  split; [|split; [|discriminate]]; intros w [= <-]; f_equal; rewrite !map_map; apply map_ext; intros x; unfold cscal, rtoc, re, im; cbn; f_equal; unfold Rdiv; ring.
Qed.
(* the normalization can be chosen afterwards *)
Lemma pds_renorm segs dt a b (sub : bool) n t t' : (0 < n)%nat -> tuples_nonzero segs -> (forall u, In u (usable segs) -> length (s_flux u) = n) ->
  avg_pds segs dt a true sub = Ok (Some t) -> avg_pds segs dt b true sub = Ok (Some t') ->
  to_norm b (spectrum_of_pds t) = Ok (spectrum_of_pds t').
Proof.
  intros Hn H1 H2 E E'. pose proof (same_raw_pds segs dt a b sub n t t' Hn H1 H2 E E') as R.
  destruct (consistent_pds segs dt a sub n t Hn H1 H2 E) as (C & K & P & N).
  destruct (consistent_pds segs dt b sub n t' Hn H1 H2 E') as (C' & K' & P' & N').
  assert (P2 : computable (spectrum_of_pds t) b).
  { revert P'. unfold computable, variance_of, channel_variance. destruct R as (-> & _ & _ & _ & _ & _ & _ & -> & -> & -> & -> & _). intros (A & B & D & _).
    split; [exact A|]. split; [exact B|]. split; [exact D|]. intros F. now destruct F. }
  assert (O : b <> OtherNorm) by (intros ->; destruct P' as (P' & _); discriminate).
  destruct (normt_eqb b a) eqn:Eab.
  - apply normt_eqb_t in Eab as ->. rewrite E in E'. injection E' as <-. unfold to_norm.
    replace (sp_norm (spectrum_of_pds t)) with a by (symmetry; exact N). now rewrite normt_refl.
  - assert (Nb : b <> sp_norm (spectrum_of_pds t)) by (cbn; rewrite N; now apply normt_eqb_f).
    destruct (tonorm_values (spectrum_of_pds t) b ltac:(discriminate) K P2 Nb) as (s' & -> & Cs & Ns & Rs & Es). f_equal. symmetry.
    apply consistent_unique; auto.
    + destruct R as (r1 & r2 & r3 & r4 & r5 & r6 & r7 & r8 & r9 & r10 & r11 & r12).
      destruct Rs as (q1 & q2 & q3 & q4 & q5 & q6 & q7 & q8 & q9 & q10 & q11 & q12).
      unfold same_raw. cbn [sp_halves spectrum_of_pds] in q12 |- *. destruct (sp_halves s'); [contradiction|]. repeat split; congruence.
    + unfold same_errors. cbn. congruence.
    + cbn. now rewrite N'.
    + cbn. congruence.
Qed.

Section Cross.
Variable cs_errors : list cx -> list R -> list R -> nat -> R -> R -> R -> R -> list cx.

Lemma same_raw_cs segs1 segs2 dt a b (fullspec : bool) pt (sub : bool) n t t' s s' : (0 < n)%nat -> tuples_nonzero segs1 -> tuples_nonzero segs2 ->
  (forall p, In p (usable2 segs1 segs2) -> length (s_flux (fst p)) = n /\ length (s_flux (snd p)) = n) ->
  avg_cs segs1 segs2 dt a true fullspec pt true sub = Ok (Some t) -> avg_cs segs1 segs2 dt b true fullspec pt true sub = Ok (Some t') ->
  spectrum_of_cs cs_errors pt t = Ok s -> spectrum_of_cs cs_errors pt t' = Ok s' -> same_raw s s'.
Proof.
  intros Hn T1 T2 H2 E E'. rewrite (avg_cs_common segs1 segs2 dt a fullspec pt true sub n Hn T1 T2 H2) in E.
  rewrite (avg_cs_common segs1 segs2 dt b fullspec pt true sub n Hn T1 T2 H2) in E'.
  destruct (usable2 segs1 segs2) as [|u us]; [discriminate|]. set (l := u :: us) in *.
  destruct (refused a _ || bad_type pt)%bool; [discriminate|]. destruct (refused b _ || bad_type pt)%bool; [discriminate|].
  injection E as <-. injection E' as <-. unfold spectrum_of_cs. cbn [c_auxil].
  destruct (normalize _ _ _ _ _ _ _ _ _) as [e1|]; [|discriminate]. cbn [bind].
  destruct (normalize _ _ _ _ _ _ _ _ _) as [e2|]; [|discriminate]. cbn [bind].
  intros [= <-] [= <-]. unfold same_raw. cbn. repeat split; reflexivity.
Qed.

(* powers of a cross spectrum; errors too when power_type is "all" *)
Lemma cs_facts segs1 segs2 dt a (fullspec : bool) pt (sub : bool) n t : (0 < n)%nat -> tuples_nonzero segs1 -> tuples_nonzero segs2 ->
  (forall p, In p (usable2 segs1 segs2) -> length (s_flux (fst p)) = n /\ length (s_flux (snd p)) = n) ->
  avg_cs segs1 segs2 dt a true fullspec pt true sub = Ok (Some t) ->
  exists s h1 h2, spectrum_of_cs cs_errors pt t = Ok s /\ complete s /\ computable s a /\ sp_norm s = a /\ c_norm t = a /\
    sp_power_type s = false /\
    (exists u, sp_unnorm s = Some u /\ c_power t = scaled s a (counts_of s) (variance_of s) u) /\ sp_power s = Some (c_power t) /\
    sp_unnorm_err s <> None /\ sp_halves s = Some (h1, h2) /\
    (exists p1 p2 us, c_auxil t = Some (p1, p2, us) /\ h_power h1 = rl p1 /\ h_power h2 = rl p2) /\
    h_power h1 = scaled s a (sp_nph1 s) (channel_variance s (sp_var1 s)) (h_unnorm h1) /\
    h_power h2 = scaled s a (sp_nph2 s) (channel_variance s (sp_var2 s)) (h_unnorm h2) /\
    (pt = PAll -> consistent s).
Proof.
  intros Hn T1 T2 H2 E. rewrite (avg_cs_common segs1 segs2 dt a fullspec pt true sub n Hn T1 T2 H2) in E.
  destruct (usable2 segs1 segs2) as [|u us]; [discriminate|]. set (l := u :: us) in *.
  set (var1 := mean_present (map pvar1 l)) in *. set (var2 := mean_present (map pvar2 l)) in *.
  destruct (refused a (gmean_opt var1 var2) || bad_type pt)%bool eqn:Rf; [discriminate|].
  apply Bool.orb_false_elim in Rf. destruct Rf as [Rf Bt].
  assert (K : kind a (gmean_opt var1 var2) <> None) by (unfold refused in Rf; destruct (kind a (gmean_opt var1 var2)); congruence).
  pose proof (kind_gmean a l K) as [K1 K2]. fold var1 in K1. fold var2 in K2.
  assert (R1 : refused a var1 = false) by (unfold refused; destruct (kind a var1); congruence).
  assert (R2 : refused a var2 = false) by (unfold refused; destruct (kind a var2); congruence).
  assert (V : (if some (gmean_opt var1 var2) then gmean_opt var1 var2 else None) = gmean_opt var1 var2) by (now destruct (gmean_opt var1 var2)).
  assert (V12 : (if (some (gmean_opt var1 var2) && true)%bool then var1 else None) = var1 /\ (if (some (gmean_opt var1 var2) && true)%bool then var2 else None) = var2 /\
                (some (gmean_opt var1 var2) = true -> var1 <> None /\ var2 <> None)).
  { destruct (mean_present_pair l) as [(x & y & Ex & Ey & _)|(Ex & Ey)]; fold var1 in Ex; fold var2 in Ey; rewrite Ex, Ey; cbn; repeat split; congruence. }
  destruct V12 as (V1 & V2 & V3).
  injection E as <-. unfold spectrum_of_cs. cbn [c_auxil c_unnorm c_m c_mean1 c_mean2 c_dt c_nphots1 c_nphots2 c_n c_mean c_variance c_variance1 c_variance2 c_norm c_power].
  rewrite (norm_factor cmulr cmulr_mul cmulr_1). fold l. fold var1. fold var2.
  destruct (kind a (gmean_opt var1 var2)) as [k|] eqn:Ek; [|congruence]. cbn [bind].
  do 3 eexists. split; [reflexivity|]. unfold complete, computable, variance_of, channel_variance, counts_of.
  cbn [sp_halves sp_power_type sp_unnorm_err sp_gauss sp_var1 sp_var2 sp_ptype sp_norm sp_unnorm sp_power sp_nph1 sp_nph2 negb].
  rewrite V, V1, V2. split.
  { intros h1 h2 [= <- <-]. cbn. split; [reflexivity|]. intros _. split; congruence. }
  split. { split; [exact Rf|]. split; [exact Bt|]. split; [intros G _; exact (V3 G)|]. intros _. split; assumption. }
  do 3 (split; [reflexivity|]). split.
  { eexists. split; [reflexivity|]. unfold scaled. cbn [sp_ptype sp_dt sp_n]. rewrite map_map. reflexivity. }
  split; [reflexivity|]. split; [congruence|]. split; [reflexivity|]. split.
  { do 3 eexists. split; [reflexivity|]. split; reflexivity. }
  cbn [h_power h_unnorm].
  assert (HR : forall var nph (f : nat -> R) ks, map (fun x : R => rtoc x) (map (fun k => as_type_r pt (f k * fac a var dt n (nph / INR n) nph)) ks) =
                map (fun z => as_type pt (cscal z (fac a var dt n (nph / INR n) nph))) (map (fun x : R => rtoc x) (map f ks))).
  { intros var nph f ks. rewrite !map_map. apply map_ext. intros x. unfold cscal, rtoc, re, im. cbn.
    destruct pt; cbn [as_type_r as_type fst snd re im]; try (f_equal; ring); [].
    unfold cabs, cnorm2. cbn. f_equal. rewrite <- sqrt_Rsqr_abs. f_equal. unfold Rsqr. ring. }
  split. { unfold rl, scaled. cbn [sp_ptype sp_dt sp_n]. apply HR. }
  split. { unfold rl, scaled. cbn [sp_ptype sp_dt sp_n]. apply HR. }
  intros ->. unfold consistent, half_ok, scaled, variance_of, channel_variance, counts_of.
  cbn [sp_halves sp_power_type sp_unnorm_err sp_gauss sp_var1 sp_var2 sp_ptype sp_norm sp_unnorm sp_power sp_nph1 sp_nph2 negb sp_err sp_dt sp_n].
  rewrite V. split; [intros w [= <-]; f_equal; rewrite map_map; reflexivity|]. split.
  { intros w [= <-]. unfold fac. rewrite Ek. f_equal. }
  intros h1 h2 [= <- <-]. cbn [h_norm h_power h_unnorm h_err h_unnorm_err option_map]. rewrite V1, V2. unfold rl, over.
  repeat split; intros _; try f_equal; rewrite ?map_map; apply map_ext; intros x; unfold cscal, rtoc, re, im; cbn; f_equal; unfold Rdiv; ring.
Qed.

Lemma computable_same_raw s s' b : same_raw s s' -> computable s' b -> computable s b.
Proof.
  intros R. unfold computable, variance_of, channel_variance. destruct R as (-> & _ & _ & _ & _ & _ & _ & -> & -> & -> & -> & Hh).
  intros (A & B & C & D). repeat split; auto; try (apply C; assumption); apply D; destruct (sp_halves s) as [[? ?]|], (sp_halves s') as [[? ?]|]; try contradiction; congruence.
Qed.

Lemma cs_renorm segs1 segs2 dt a b (fullspec sub : bool) n t t' : (0 < n)%nat -> tuples_nonzero segs1 -> tuples_nonzero segs2 ->
  (forall p, In p (usable2 segs1 segs2) -> length (s_flux (fst p)) = n /\ length (s_flux (snd p)) = n) ->
  avg_cs segs1 segs2 dt a true fullspec PAll true sub = Ok (Some t) -> avg_cs segs1 segs2 dt b true fullspec PAll true sub = Ok (Some t') ->
  exists s s', spectrum_of_cs cs_errors PAll t = Ok s /\ spectrum_of_cs cs_errors PAll t' = Ok s' /\ to_norm b s = Ok s'.
Proof.
  intros Hn T1 T2 H2 E E'.
  destruct (cs_facts segs1 segs2 dt a fullspec PAll sub n t Hn T1 T2 H2 E) as (s & h1 & h2 & Es & K & P & N & Nt & Ty & (u & Eu & _) & _ & Ue & Hs & _ & _ & _ & C).
  destruct (cs_facts segs1 segs2 dt b fullspec PAll sub n t' Hn T1 T2 H2 E') as (s' & k1 & k2 & Es' & K' & P' & N' & Nt' & Ty' & _ & _ & Ue' & Hs' & _ & _ & _ & C').
  specialize (C eq_refl). specialize (C' eq_refl). exists s, s'. split; [assumption|]. split; [assumption|].
  pose proof (same_raw_cs segs1 segs2 dt a b fullspec PAll sub n t t' s s' Hn T1 T2 H2 E E' Es Es') as R.
  assert (O : b <> OtherNorm) by (intros ->; destruct P' as (P' & _); discriminate).
  assert (U : sp_unnorm s <> None) by congruence.
  destruct (normt_eqb b a) eqn:Eab.
  - apply normt_eqb_t in Eab as ->. rewrite E in E'. injection E' as <-. rewrite Es in Es'. injection Es' as <-.
    unfold to_norm. now rewrite N, normt_refl.
  - assert (Nb : b <> sp_norm s) by (rewrite N; now apply normt_eqb_f).
    destruct (tonorm_values s b U K (computable_same_raw s s' b R P') Nb) as (s2 & -> & Cs & Ns & Rs & Ex). f_equal. symmetry.
    apply consistent_unique; auto.
    + destruct R as (r1 & r2 & r3 & r4 & r5 & r6 & r7 & r8 & r9 & r10 & r11 & r12).
      destruct Rs as (q1 & q2 & q3 & q4 & q5 & q6 & q7 & q8 & q9 & q10 & q11 & q12).
      unfold same_raw. rewrite Hs, Hs' in *. destruct (sp_halves s2) as [[m1 m2]|]; [|contradiction]. unfold same_raw_half in *.
      repeat split; destruct r12 as ((? & ?) & (? & ?)), q12 as ((? & ?) & (? & ?)); congruence.
    + unfold same_errors. congruence.
    + congruence.
    + destruct R as (_ & R & _). congruence.
Qed.
(* any power_type: the powers *)
Lemma cs_renorm_power segs1 segs2 dt a b (fullspec : bool) pt (sub : bool) n t t' : (0 < n)%nat -> tuples_nonzero segs1 -> tuples_nonzero segs2 ->
  (forall p, In p (usable2 segs1 segs2) -> length (s_flux (fst p)) = n /\ length (s_flux (snd p)) = n) ->
  avg_cs segs1 segs2 dt a true fullspec pt true sub = Ok (Some t) -> avg_cs segs1 segs2 dt b true fullspec pt true sub = Ok (Some t') ->
  exists s s' h1 h2 p1 p2 u, spectrum_of_cs cs_errors pt t = Ok s /\ to_norm b s = Ok s' /\ sp_power s' = Some (c_power t') /\
    sp_halves s' = Some (h1, h2) /\ c_auxil t' = Some (p1, p2, u) /\ h_power h1 = rl p1 /\ h_power h2 = rl p2.
Proof.
  intros Hn T1 T2 H2 E E'.
  destruct (cs_facts segs1 segs2 dt a fullspec pt sub n t Hn T1 T2 H2 E) as (s & h1 & h2 & Es & K & P & N & Nt & Ty & (u & Eu & _) & Pw & Ue & Hs & (p1 & p2 & us & Ea & A1 & A2) & _ & _ & _).
  destruct (cs_facts segs1 segs2 dt b fullspec pt sub n t' Hn T1 T2 H2 E') as (s' & k1 & k2 & Es' & K' & P' & N' & Nt' & Ty' & (u' & Eu' & Pu') & Pw' & Ue' & Hs' & (q1 & q2 & us' & Ea' & B1 & B2) & X1 & X2 & _).
  pose proof (same_raw_cs segs1 segs2 dt a b fullspec pt sub n t t' s s' Hn T1 T2 H2 E E' Es Es') as R.
  assert (O : b <> OtherNorm) by (intros ->; destruct P' as (P' & _); discriminate).
  assert (U : sp_unnorm s <> None) by congruence.
  destruct (normt_eqb b a) eqn:Eab.
  - apply normt_eqb_t in Eab as ->. rewrite E in E'. injection E' as <-. rewrite Es in Es'. injection Es' as <-.
    exists s, s, h1, h2, p1, p2, us. unfold to_norm. rewrite N, normt_refl by assumption. repeat split; assumption.
  - assert (Nb : b <> sp_norm s) by (rewrite N; now apply normt_eqb_f).
    destruct (tonorm_values s b U K (computable_same_raw s s' b R P') Nb) as (s2 & E2 & Cs & Ns & Rs & Ex).
    assert (R2 : same_raw s2 s').
    { destruct R as (r1 & r2 & r3 & r4 & r5 & r6 & r7 & r8 & r9 & r10 & r11 & r12).
      destruct Rs as (z1 & z2 & z3 & z4 & z5 & z6 & z7 & z8 & z9 & z10 & z11 & z12).
      unfold same_raw. rewrite Hs, Hs' in *. destruct (sp_halves s2) as [[m1 m2]|]; [|contradiction]. unfold same_raw_half in *.
      repeat split; destruct r12 as ((? & ?) & (? & ?)), z12 as ((? & ?) & (? & ?)); congruence. }
    destruct Cs as (C1 & C2 & C3). destruct R2 as (r1 & r2 & r3 & r4 & r5 & r6 & r7 & r8 & r9 & r10 & r11 & r12).
    rewrite Hs' in r12. destruct (sp_halves s2) as [[m1 m2]|] eqn:Hm; [|contradiction].
    exists s, s2, m1, m2, q1, q2, us'. split; [assumption|]. split; [assumption|]. rewrite Eu' in r2.
    assert (SC : forall nph var l, scaled s2 b nph var l = scaled s' b nph var l) by (intros; unfold scaled; now rewrite r4, r5, r11).
    assert (VO : variance_of s2 = variance_of s') by (unfold variance_of; now rewrite r1, r8, r9, r10).
    assert (CO : counts_of s2 = counts_of s') by (unfold counts_of; now rewrite r1, r6, r7).
    assert (CV : forall v, channel_variance s2 v = channel_variance s' v) by (intros; unfold channel_variance; now rewrite r1, r8).
    split. { rewrite (C1 u' r2), Ns, SC, VO, CO. congruence. }
    split; [first [reflexivity|assumption]|]. split; [assumption|].
    destruct (C3 m1 m2 eq_refl) as ((M1 & M2 & _) & (M3 & M4 & _)). assert (W : sp_unnorm s2 <> None) by congruence.
    destruct r12 as ((F1 & _) & (F2 & _)).
    rewrite (M2 W), (M4 W), Ns, !SC, !CV, r6, r7, r9, r10, F1, F2, <- X1, <- X2. now split.
Qed.
End Cross.

Lemma nz_flux x l e : x <> 0 -> nonzero {| s_flux := x :: l; s_err := e |} = true.
Proof. intros H. unfold nonzero. cbn [existsb s_flux]. destruct (Req_EM_T x 0); [contradiction|reflexivity]. Qed.
Definition two_segs := [Some {| s_flux := [1; 0; 0]; s_err := None |}; Some {| s_flux := [2; 0; 0]; s_err := None |}].
Lemma usable_two : usable two_segs = [{| s_flux := [1; 0; 0]; s_err := None |}; {| s_flux := [2; 0; 0]; s_err := None |}].
Proof. unfold usable, two_segs. cbn [flat_map]. rewrite !nz_flux by lra. reflexivity. Qed.
Lemma power_first x k : power_at [x; 0; 0] k = x * x.
Proof.
  unfold power_at, dft, val. cbn [length re im fst snd]. unfold rs. cbn [seq map fold_right rlsum nth].
  rewrite !Nat.mul_0_l. change (INR 0) with 0. replace (2 * PI * 0 / INR 3) with 0 by (unfold Rdiv; ring). rewrite cos_0, sin_0. ring.
Qed.
(* normalization segment by segment: the way back gives other powers *)
Lemma own_mean_refuted : exists segs t s1 s2, tuples_nonzero segs /\ (forall u, In u (usable segs) -> length (s_flux u) = 3%nat) /\
  avg_pds segs 1 Frac false false = Ok (Some t) /\ to_norm NoNorm (spectrum_of_pds t) = Ok s1 /\ to_norm Frac s1 = Ok s2 /\
  sp_power s2 <> sp_power (spectrum_of_pds t).
Proof.
  assert (T : tuples_nonzero two_segs).
  { intros s [[= <-]|[[= <-]|[]]] F; cbn in F; congruence. }
  assert (L : forall u, In u (usable two_segs) -> length (s_flux u) = 3%nat).
  { rewrite usable_two. intros u [<-|[<-|[]]]; reflexivity. }
  exists two_segs. pose proof (avg_pds_own two_segs 1 Frac false 3 ltac:(lia) T L) as E. cbv zeta in E. rewrite usable_two in E.
  cbn [existsb kind orb] in E. set (t := Build_pds_table _ _ _ _ _ _ _ _ _ _ _ _ _ _) in E.
  set (s := spectrum_of_pds t).
  assert (K : complete s) by (intros h1 h2; discriminate).
  assert (P : forall b, b <> OtherNorm -> b <> Leahy -> computable s b).
  { intros b Hb Hl. unfold computable, refused. split; [destruct b; reflexivity || congruence|]. split; [reflexivity|].
    split; [discriminate|]. intros F. now destruct F. }
  destruct (tonorm_values s NoNorm) as (s1 & E1 & C1 & N1 & R1 & X1); try assumption; try discriminate; try (apply P; discriminate).
  assert (E1' : to_norm NoNorm (relabel s) = Ok s1) by (rewrite relabel_to_norm; [assumption|discriminate|reflexivity]).
  pose proof (path_independent (relabel s) NoNorm Frac s1 E1' ltac:(discriminate)) as E2.
  destruct (tonorm_values (relabel s) Frac) as (s2 & E3 & C2 & N2 & R2 & X2); try assumption; try discriminate; try (apply (P Frac); discriminate).
  exists t, s1, s2. split; [exact T|]. split; [exact L|]. split; [exact E|]. split; [exact E1|]. split; [now rewrite E2|].
  destruct C2 as (C2 & _). destruct R2 as (R21 & R22 & R23 & R24 & R25 & R26 & R27 & R28 & R29 & R210 & R211 & _).
  rewrite (C2 (rl (p_unnorm t))) by (rewrite <- R22; reflexivity). rewrite N2.
  unfold scaled, counts_of, variance_of, fac. rewrite <- R21, <- R24, <- R25, <- R26, <- R28, <- R211.
  cbn [kind factor relabel s spectrum_of_pds sp_power_type sp_gauss sp_ptype sp_dt sp_n sp_nph1 sp_power as_type].
  intros F. injection F as F. subst t. cbn [p_unnorm p_power p_dt p_n p_nphots] in F. unfold rl in F.
  change (n_pos 3) with 1%nat in F. cbn [seq map] in F. unfold avg, photons in F. cbn [map rlsum fold_right length s_flux kind err2 option_map s_err factor] in F.
  rewrite !power_first in F. unfold cscal, rtoc, re, im in F. cbn in F. field_simplify in F. lra.
Qed.

(* power_type "real": the errors come back without their imaginary part *)
Definition seg_x := {| s_flux := [1; 0; 0]; s_err := None |}.
Definition seg_y := {| s_flux := [1; 1; 0]; s_err := None |}.
Lemma dft_x k : dft [1; 0; 0] k = (1, 0).
Proof.
  unfold dft, val. cbn [length]. unfold rs. cbn [seq map fold_right rlsum nth].
  rewrite !Nat.mul_0_l. change (INR 0) with 0. replace (2 * PI * 0 / INR 3) with 0 by (unfold Rdiv; ring). rewrite cos_0, sin_0. f_equal; ring.
Qed.
Lemma dft_y1 : dft [1; 1; 0] 1 = (1 + cos (2 * PI / 3), - sin (2 * PI / 3)).
Proof.
  unfold dft, val. cbn [length]. unfold rs. cbn [seq map fold_right rlsum nth].
  rewrite !Nat.mul_0_l. change (INR 0) with 0. replace (2 * PI * 0 / INR 3) with 0 by (unfold Rdiv; ring). rewrite cos_0, sin_0.
  replace (INR (1 * 1)) with 1 by reflexivity. replace (INR 3) with 3 by (cbn; ring). replace (2 * PI * 1 / 3) with (2 * PI / 3) by (unfold Rdiv; ring).
  f_equal; ring.
Qed.
Lemma half_trig : cos (2 * PI / 3) = - (1 / 2) /\ sin (2 * PI / 3) = sqrt 3 / 2.
Proof.
  replace (2 * PI / 3) with (2 * (PI / 3)) by (unfold Rdiv; ring). rewrite cos_2PI3, sin_2PI3. split; lra.
Qed.
Lemma real_error_refuted : exists t s s1 s2, 
  avg_cs [Some seg_x] [Some seg_y] 1 NoNorm true false PReal true false = Ok (Some t) /\ spectrum_of_cs raw_cross_errors PReal t = Ok s /\
  to_norm AbsNorm s = Ok s1 /\ to_norm NoNorm s1 = Ok s2 /\ sp_power s2 = sp_power s /\ sp_err s2 <> sp_err s.
Proof.
  assert (Us : usable2 [Some seg_x] [Some seg_y] = [(seg_x, seg_y)]).
  { unfold usable2. cbn [combine flat_map]. unfold seg_x, seg_y. rewrite !nz_flux by lra. reflexivity. }
  assert (T1 : tuples_nonzero [Some seg_x]) by (intros u [[= <-]|[]] F; cbn in F; congruence).
  assert (T2 : tuples_nonzero [Some seg_y]) by (intros u [[= <-]|[]] F; cbn in F; congruence).
  assert (L : forall p, In p (usable2 [Some seg_x] [Some seg_y]) -> length (s_flux (fst p)) = 3%nat /\ length (s_flux (snd p)) = 3%nat).
  { rewrite Us. intros p [<-|[]]. split; reflexivity. }
  pose proof (avg_cs_common [Some seg_x] [Some seg_y] 1 NoNorm false PReal true false 3 ltac:(lia) T1 T2 L) as E. cbv zeta in E. rewrite Us in E.
  cbn [refused kind bad_type orb] in E. set (t := Build_cs_table _ _ _ _ _ _ _ _ _ _ _ _ _ _ _ _ _ _ _ _) in E.
  destruct (cs_facts raw_cross_errors [Some seg_x] [Some seg_y] 1 NoNorm false PReal false 3 t ltac:(lia) T1 T2 L E)
    as (s & h1 & h2 & Es & K & P & N & Nt & Ty & (u & Eu & Pu) & Pw & Ue & Hs & _).
  assert (P2 : computable s AbsNorm).
  { unfold computable in *. destruct P as (_ & P1 & P2 & _). split; [reflexivity|]. split; [exact P1|]. split; [exact P2|]. intros _. split; reflexivity. }
  assert (U : sp_unnorm s <> None) by congruence.
  destruct (tonorm_values s AbsNorm U K P2 ltac:(rewrite N; discriminate)) as (s1 & E1 & _).
  assert (E1' : to_norm AbsNorm (relabel s) = Ok s1) by (rewrite relabel_to_norm; [assumption|assumption|now rewrite N]).
  pose proof (path_independent (relabel s) AbsNorm NoNorm s1 E1' ltac:(discriminate)) as E2.
  destruct (tonorm_values (relabel s) NoNorm U K P ltac:(discriminate)) as (s2 & E3 & (C1 & C2 & _) & N2 & R2 & _).
  exists t, s, s1, s2. split; [exact E|]. split; [exact Es|]. split; [exact E1|]. split; [now rewrite E2|].
  destruct R2 as (R21 & R22 & R23 & R24 & R25 & R26 & R27 & R28 & R29 & R210 & R211 & _).
  split.
  { rewrite Pw, Pu, (C1 u) by (rewrite <- R22; exact Eu). rewrite N2. unfold scaled, counts_of, variance_of.
    now rewrite <- R21, <- R24, <- R25, <- R26, <- R27, <- R28, <- R29, <- R210, <- R211. }
  unfold spectrum_of_cs in Es. cbn [t c_auxil c_norm normalize bind] in Es.
  assert (IR : forall x y : spectrum, Ok x = Ok y -> x = y) by congruence. apply IR in Es.
  rewrite <- Es in R23. cbn [relabel sp_unnorm_err] in R23. symmetry in R23. rewrite (C2 _ R23). rewrite <- Es. cbn [sp_err]. intros F.
  assert (IO : forall x y : list cx, Some x = Some y -> x = y) by congruence. apply IO in F.
  rewrite N2 in F. unfold scaled in F. rewrite <- R211 in F. rewrite <- Es in F. cbn [relabel sp_ptype as_type] in F.
  unfold raw_cross_errors in F. cbn [c_unnorm c_m t] in F. change (bins false 3) with [1%nat] in F. cbn [map combine] in F.
  set (z := cavg (fun p : seg * seg => cpower p 1) [(seg_x, seg_y)]) in F.
  set (a1 := avg (fun p : seg * seg => pow1 p 1) [(seg_x, seg_y)]) in F. set (a2 := avg (fun p : seg * seg => pow2 p 1) [(seg_x, seg_y)]) in F.
  destruct half_trig as [Hc Hs3]. pose proof (sqrt_sqrt 3 ltac:(lra)) as Q3.
  assert (Z : z = (1 + cos (2 * PI / 3), - sin (2 * PI / 3))).
  { unfold z, cavg, avg, cpower, cross_at. cbn [map fst snd s_flux seg_x seg_y length rlsum fold_right]. rewrite dft_x, dft_y1. cbn. f_equal; field. }
  assert (A1 : a1 = 1). { unfold a1, avg, pow1, power_at. cbn [map fst snd s_flux seg_x length rlsum fold_right]. rewrite dft_x. cbn. field. }
  assert (A2 : a2 = 1). { unfold a2, avg, pow2, power_at. cbn [map fst snd s_flux seg_y length rlsum fold_right]. rewrite dft_y1. cbn. rewrite Hc, Hs3. nra. }
  assert (IM : forall q q' : cx, [q] = [q'] -> im q = im q') by (intros q q' G; now injection G as ->).
  apply IM in F. revert F. rewrite Z, A1, A2, Hc, Hs3. cbn [re im fst snd length].
  destruct (Rlt_dec _ 0) as [G|_]; [nra|]. destruct (Rlt_dec _ 0) as [G|_]; [nra|]. cbn [re im fst snd]. intros F. symmetry in F.
  apply sqrt_eq_0 in F; [|].
  - cbn in F. nra.
  - cbn. nra.
Qed.
(* the errors of the raw cross powers *)
Lemma raw_errors_main cross pds1 pds2 m r1 r2 n1 n2 i z s r : (0 < m)%nat ->
  nth_error cross i = Some z -> nth_error pds1 i = Some s -> nth_error pds2 i = Some r ->
  exists dre dim, nth_error (raw_cross_errors cross pds1 pds2 m r1 r2 n1 n2) i = Some (dre, dim) /\
    (Rabs (re z * re z - im z * im z) <= s * r ->
       0 <= dre /\ 0 <= dim /\ dre * dre + dim * dim = s * r / INR m /\ dre * dre - dim * dim = (re z * re z - im z * im z) / INR m) /\
    (s * r < Rabs (re z * re z - im z * im z) -> dre = sqrt (2 / INR m) * sqrt (n1 * n2) / 2 /\ dim = dre).
Proof.
  intros Hm Hz Hs Hr. pose proof (lt_0_INR m Hm) as P. unfold raw_cross_errors.
  assert (C : nth_error (combine cross (combine pds1 pds2)) i = Some (z, (s, r))).
  { revert cross pds1 pds2 Hz Hs Hr. induction i as [|i IH]; intros [|a ca] [|b cb] [|c cc]; cbn; try discriminate.
    - congruence.
    - apply IH. }
  rewrite (map_nth_error _ i _ C). destruct z as [x y]. cbn [re im fst snd] in *.
  assert (Ab : Rabs (x * x - y * y) <= s * r <-> 0 <= r * s + x * x - y * y /\ 0 <= r * s - x * x + y * y).
  { split; intros H.
    - pose proof (Rle_abs (x * x - y * y)). pose proof (Rle_abs (- (x * x - y * y))) as H2. rewrite Rabs_Ropp in H2. lra.
    - apply Rabs_le. lra. }
  assert (Sq : forall t, 0 <= t -> sqrt (t / (2 * INR m)) * sqrt (t / (2 * INR m)) = t / (2 * INR m)).
  { intros t Ht. apply sqrt_sqrt. apply Rmult_le_pos; [lra|]. left. apply Rinv_0_lt_compat. lra. }
  destruct (Rlt_dec (r * s + x * x - y * y) 0) as [A|A].
  - do 2 eexists. split; [reflexivity|]. split; [intros H; apply Ab in H; lra|]. intros _. split; reflexivity.
  - destruct (Rlt_dec (r * s - x * x + y * y) 0) as [B|B].
    + do 2 eexists. split; [reflexivity|]. split; [intros H; apply Ab in H; lra|]. intros _. split; reflexivity.
    + do 2 eexists. split; [reflexivity|]. split.
      * intros H. split; [apply sqrt_pos|]. split; [apply sqrt_pos|]. rewrite !Sq by lra. split; field; lra.
      * intros H. assert (Rabs (x * x - y * y) <= s * r) by (apply Ab; lra). lra.
Qed.
