(* P_fad.v: the loop of the Fourier amplitude difference correction *)
From Coq Require Import Reals Qreals.
From Verif Require Import Np M_gti M_utils Cplx M_fourier M_flux S_fourier S_fad M_fad P_dft P_norm P_avg.
From Coq Require Import Reals List Bool Arith Lra Lia.
Import ListNotations.
Open Scope R_scope.

Lemma both_cons o1 o2 l1 l2 : both (o1 :: l1) (o2 :: l2) = match o1, o2 with Some s1, Some s2 => [(s1, s2)] | _, _ => [] end ++ both l1 l2.
Proof. unfold both. cbn [combine flat_map]. destruct o1, o2; reflexivity. Qed.
Lemma divl_map {A} (f g : A -> R) l : divl (map f l) (map g l) = map (fun k => f k / g k) l.
Proof. unfold divl. induction l as [|a l IH]; [reflexivity|]. cbn [map combine]. now rewrite IH. Qed.
Lemma cdivl_map {A} (f : A -> cx) (g : A -> R) l : cdivl (map f l) (map g l) = map (fun k => cscal (f k) (/ g k)) l.
Proof. unfold cdivl. induction l as [|a l IH]; [reflexivity|]. cbn [map combine]. now rewrite IH. Qed.
Lemma rmul_map {A} (f : A -> R) l r : rmul (map f l) r = map (fun k => f k * r) l.
Proof. unfold rmul. apply map_map. Qed.
Lemma cmulr_map {A} (f : A -> cx) l r : cmulr (map f l) r = map (fun k => cscal (f k) r) l.
Proof. unfold cmulr. apply map_map. Qed.
Lemma list_as_map (l : list R) m : length l = m -> l = map (fun k => nth (k - 1) l 0) (seq 1 m).
Proof.
  intros H. subst m. apply (nth_ext _ _ 0 0); [now rewrite map_length, seq_length|]. intros i Hi.
  rewrite (nth_indep (map _ _) 0 ((fun k => nth (k - 1) l 0) 0%nat)) by (rewrite map_length, seq_length; lia).
  rewrite (map_nth (fun k => nth (k - 1) l 0)), seq_nth by lia. f_equal. lia.
Qed.

Section Loop.
Variables (gaussian : list R -> R -> list R) (dt : R) (norm : normt) (len : R) (n : nat).
Hypothesis Hg : forall l s, length (gaussian l s) = length l.
Hypothesis Hn : (0 < n)%nat.
Hypothesis Hk : kind norm None <> None.
Let ks := seq 1 (n_pos n).
Let smooth := fun l => gaussian l len.
Definition gain (p : seg * seg) (k : nat) : R := 2 / scatter smooth n p k.
Definition corr1 p k := S_fourier.pow1 p k * gain p k.
Definition corr2 p k := S_fourier.pow2 p k * gain p k.
Definition corrt p k := power_at (together p) k * gain p k.
Definition corrc p k := cscal (cpower p k) (gain p k).
Definition fac_of (v : R) : R := fac norm None dt n (v / INR n) v.
Definition norm1 p k := corr1 p k * fac_of (photons (fst p)).
Definition norm2 p k := corr2 p k * fac_of (photons (snd p)).
Definition normt' p k := corrt p k * fac_of (photons (fst p) + photons (snd p)).
Definition normc p k := cscal (corrc p k) (fac_of (pph p)).
Definition cdiff p k := cscal (cscal (leahy_difference p k) (/ sqrt (scatter smooth n p k))) (sqrt 2).
Definition rsk (f : seg * seg -> nat -> R) us := map (fun k => rlsum (map (fun p => f p k) us)) ks.
Definition csk (f : seg * seg -> nat -> cx) us := map (fun k => clsum (map (fun p => f p k) us)) ks.
Definition sums_of us : fad_sums :=
  mkSums (rsk norm1 us) (rsk norm2 us) (rsk normt' us) (csk normc us) (rsk corr1 us) (rsk corr2 us) (rsk corrt us) (csk corrc us) (csk cdiff us) (csk leahy_difference us).
Definition grid_of := (positive_fft_bins n false, map (fun k => INR k / (INR n * dt)) ks).
Definition after us : fad_state :=
  mkFad (Some len) (Some grid_of) (Some (sums_of us)) (length us) (rlsum (map (fun p => photons (fst p)) us)) (rlsum (map (fun p => photons (snd p)) us))
    (rlsum (map (fun p => photons (fst p) + photons (snd p)) us)).
Lemma csk_snoc f us p : vmap2 cadd (csk f us) (map (f p) ks) = Ok (csk f (us ++ [p])).
Proof.
  unfold csk. rewrite vmap2_map. f_equal. apply map_ext. intros k. rewrite map_app, clsum_app. cbn [map]. f_equal. apply cx_eq; cbn; ring.
Qed.
Lemma csk_one f p : map (f p) ks = csk f [p].
Proof. unfold csk. apply map_ext. intros k. cbn [map]. apply cx_eq; cbn; ring. Qed.
Lemma rsk_snoc f us p : vmap2 Rplus (rsk f us) (map (f p) ks) = Ok (rsk f (us ++ [p])).
Proof. unfold rsk. rewrite vmap2_map. f_equal. apply map_ext. intros k. now rewrite sum_snoc. Qed.
Lemma rsk_one f p : map (f p) ks = rsk f [p].
Proof. unfold rsk. apply map_ext. intros k. cbn. ring. Qed.
Lemma norm_real l mean nph : normalize rmul l dt n (Some mean) (Some nph) None 0 norm = Ok (map (fun z => z * fac norm None dt n mean nph) l).
Proof. rewrite (norm_factor rmul rmul_mul rmul_1). unfold fac. destruct (kind norm None); [reflexivity|congruence]. Qed.
Lemma norm_cplx l mean nph : normalize cmulr l dt n (Some mean) (Some nph) None 0 norm = Ok (map (fun z => cscal z (fac norm None dt n mean nph)) l).
Proof. rewrite (norm_factor cmulr cmulr_mul cmulr_1). unfold fac. destruct (kind norm None); [reflexivity|congruence]. Qed.
Definition one_sums (p : seg * seg) : fad_sums :=
  mkSums (map (norm1 p) ks) (map (norm2 p) ks) (map (normt' p) ks) (map (normc p) ks) (map (corr1 p) ks) (map (corr2 p) ks) (map (corrt p) ks) (map (corrc p) ks)
    (map (cdiff p) ks) (map (leahy_difference p) ks).
Lemma add_one us p : add_sums (match us with [] => None | _ => Some (sums_of us) end) (one_sums p) = Ok (sums_of (us ++ [p])).
Proof.
  destruct us as [|u us].
  - cbn [add_sums app]. unfold one_sums, sums_of. rewrite !rsk_one, !csk_one. reflexivity.
  - unfold add_sums, one_sums. cbn [f_pds1 f_pds2 f_ptot f_cs f_pds1u f_pds2u f_ptotu f_csu f_diff f_diffu sums_of].
    rewrite !rsk_snoc, !csk_snoc. reflexivity.
Qed.
Definition start (l : option R) : fad_state := mkFad l None None 0 0 0 0.
Definition state_at l us := match us with [] => start l | _ => after us end.
Definition good_len (l : option R) := match l with Some v => v = len | None => len = INR n * dt * 3 end.
Lemma step_use l us s1 s2 : good_len l -> length (s_flux s1) = n -> length (s_flux s2) = n -> s_err s1 = None -> s_err s2 = None ->
  fad_step gaussian true dt norm (state_at l us) (Some s1, Some s2) = Ok (state_at l (us ++ [(s1, s2)])).
Proof.
  intros L L1 L2 E1 E2. unfold fad_step. rewrite E1, E2, L1. cbv zeta.
  replace (match d_len (state_at l us) with Some l0 => l0 | None => INR n * dt * 3 end) with len.
  2:{ destruct us; cbn [state_at start after d_len]; [destruct l; cbn [good_len] in L; congruence|reflexivity]. }
  replace (match d_grid (state_at l us) with Some g => g | None => (positive_fft_bins n false, cut (fftfreq n dt) (positive_fft_bins n false)) end) with grid_of.
  2:{ destruct us; cbn [state_at start after d_grid]; [|reflexivity]. unfold grid_of. now rewrite freq_pos. }
  change (fst grid_of) with (positive_fft_bins n false).
  rewrite (fft_map (s_flux s1)), (fft_map (s_flux s2)), L1, L2, !(cut_pos _ n Hn).
  unfold vmap2 at 1. rewrite L1, L2, Nat.eqb_refl. cbn [bind]. change (map (fun p => fst p + snd p) (combine (s_flux s1) (s_flux s2))) with (together (s1, s2)).
  assert (LT : length (together (s1, s2)) = n) by (unfold together; rewrite map_length, combine_length; cbn [fst snd]; rewrite L1, L2; lia).
  rewrite (fft_map (together (s1, s2))), LT, (cut_pos _ n Hn). fold ks. rewrite !cmulr_map, vmap2_map. cbn [bind negb].
  set (p := (s1, s2)).
  replace (map (fun k => csub (cscal (dft (s_flux s1) k) (sqrt (2 / rlsum (s_flux s1)))) (cscal (dft (s_flux s2) k) (sqrt (2 / rlsum (s_flux s2))))) ks) with (map (leahy_difference p) ks) by reflexivity.
  rewrite !map_map.
  set (sm := gaussian (map (fun k => re (leahy_difference p k) * re (leahy_difference p k)) ks) len).
  assert (SM : sm = map (scatter smooth n p) ks).
  { assert (LS : length sm = n_pos n) by (unfold sm; rewrite Hg, map_length; unfold ks; apply seq_length).
    rewrite (list_as_map sm (n_pos n) LS). fold ks. apply map_ext. intros k. unfold scatter, smooth. f_equal. unfold sm. f_equal. fold ks. apply map_ext. intros j. cbn [pow]. ring. }
  clearbody sm. subst sm. rewrite vmap2_map. cbn [bind]. rewrite !map_map, !divl_map, !cdivl_map, !rmul_map, !cmulr_map.
  replace (map (fun k => re (cmul (dft (s_flux s1) k) (cconj (dft (s_flux s1) k))) / scatter smooth n p k * 2) ks) with (map (corr1 p) ks).
  2:{ apply map_ext. intros k. unfold corr1, gain, S_fourier.pow1, power_at. cbn [p fst]. unfold cmul, cconj, re, im. cbn [fst snd]. unfold Rdiv. ring. }
  replace (map (fun k => re (cmul (dft (s_flux s2) k) (cconj (dft (s_flux s2) k))) / scatter smooth n p k * 2) ks) with (map (corr2 p) ks).
  2:{ apply map_ext. intros k. unfold corr2, gain, S_fourier.pow2, power_at. cbn [p snd]. unfold cmul, cconj, re, im. cbn [fst snd]. unfold Rdiv. ring. }
  replace (map (fun k => re (cmul (dft (together p) k) (cconj (dft (together p) k))) / scatter smooth n p k * 2) ks) with (map (corrt p) ks).
  2:{ apply map_ext. intros k. unfold corrt, gain, power_at. unfold cmul, cconj, re, im. cbn [fst snd]. unfold Rdiv. ring. }
  replace (map (fun k => cscal (cscal (cmul (dft (s_flux s2) k) (cconj (dft (s_flux s1) k))) (/ scatter smooth n p k)) 2) ks) with (map (corrc p) ks).
  2:{ apply map_ext. intros k. unfold corrc, gain, cpower, cross_at. cbn [p fst snd]. apply cx_eq; unfold cscal, cmul, cconj, re, im; cbn [fst snd]; unfold Rdiv; ring. }
  rewrite !norm_real, norm_cplx. cbn [bind]. rewrite !map_map.
  change (fun k => corr1 p k * fac norm None dt n (rlsum (s_flux s1) / INR n) (rlsum (s_flux s1))) with (norm1 p).
  change (fun k => corr2 p k * fac norm None dt n (rlsum (s_flux s2) / INR n) (rlsum (s_flux s2))) with (norm2 p).
  change (fun k => corrt p k * fac norm None dt n ((rlsum (s_flux s1) + rlsum (s_flux s2)) / INR n) (rlsum (s_flux s1) + rlsum (s_flux s2))) with (normt' p).
  change (fun k => cscal (corrc p k) (fac norm None dt n (sqrt (rlsum (s_flux s1) * rlsum (s_flux s2)) / INR n) (sqrt (rlsum (s_flux s1) * rlsum (s_flux s2))))) with (normc p).
  change (fun k => cscal (cscal (leahy_difference p k) (/ sqrt (scatter smooth n p k))) (sqrt 2)) with (cdiff p).
  change (mkSums (map (norm1 p) ks) (map (norm2 p) ks) (map (normt' p) ks) (map (normc p) ks) (map (corr1 p) ks) (map (corr2 p) ks) (map (corrt p) ks) (map (corrc p) ks)
    (map (cdiff p) ks) (map (leahy_difference p) ks)) with (one_sums p).
  replace (d_sums (state_at l us)) with (match us with [] => None | _ => Some (sums_of us) end) by (destruct us; reflexivity).
  rewrite add_one. cbn [bind]. replace (state_at l (us ++ [p])) with (after (us ++ [p])) by (destruct us; reflexivity). unfold after.
  assert (N1 : d_m (state_at l us) = length us) by (destruct us; reflexivity).
  rewrite N1, !map_app, !rlsum_app, app_length. cbn [map length]. replace (length us + 1)%nat with (S (length us)) by lia.
  change (rlsum [photons (fst p)]) with (rlsum (s_flux s1) + 0). change (rlsum [photons (snd p)]) with (rlsum (s_flux s2) + 0).
  change (rlsum [photons (fst p) + photons (snd p)]) with (rlsum (s_flux s1) + rlsum (s_flux s2) + 0). rewrite !Rplus_0_r.
  destruct us; reflexivity.
Qed.
Lemma loop_all l : good_len l -> forall segs1 segs2 us,
  (forall p, In p (both segs1 segs2) -> length (s_flux (fst p)) = n /\ length (s_flux (snd p)) = n /\ s_err (fst p) = None /\ s_err (snd p) = None) ->
  loop (fad_step gaussian true dt norm) (state_at l us) (combine segs1 segs2) = Ok (state_at l (us ++ both segs1 segs2)).
Proof.
  intros G. induction segs1 as [|o1 l1 IH]; intros segs2 us H; [cbn; now rewrite app_nil_r|]. destruct segs2 as [|o2 l2]; [cbn; now rewrite app_nil_r|].
  rewrite both_cons in *. cbn [combine loop]. destruct o1 as [s1|], o2 as [s2|]; cbn [app] in *; try (cbn [fad_step bind]; apply IH; exact H).
  destruct (H (s1, s2) (or_introl eq_refl)) as (A & B & C & D). rewrite step_use by assumption. cbn [bind]. rewrite IH by (intros p Hp; apply H; now right). now rewrite <- app_assoc.
Qed.
End Loop.
