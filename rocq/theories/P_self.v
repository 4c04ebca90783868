(* P_self.v: the averaged cross spectrum of a series with itself *)
From Verif Require Import Np Cplx M_fourier S_fourier P_dft P_norm P_avg P_avgcs P_spec.
From Coq Require Import Lra.
Open Scope R_scope.

Definition dup (u : seg) : seg * seg := (u, u).
Lemma usable2_self segs : usable2 segs segs = map dup (usable segs).
Proof.
  unfold usable2, usable. induction segs as [|[s|] l IH]; [reflexivity| |exact IH].
  cbn [combine flat_map]. rewrite IH. destruct (nonzero s); reflexivity.
Qed.
Lemma avg_map {A B} (f : B -> R) (g : A -> B) l : avg f (map g l) = avg (fun a => f (g a)) l.
Proof. unfold avg. now rewrite map_map, map_length. Qed.
Lemma cavg_map {A B} (f : B -> cx) (g : A -> B) l : cavg f (map g l) = cavg (fun a => f (g a)) l.
Proof. unfold cavg. now rewrite !avg_map. Qed.
Lemma cross_self x k : cross_at x x k = rtoc (power_at x k).
Proof. unfold cross_at, power_at, rtoc. f_equal. ring. Qed.
Lemma avg_zero {A} (l : list A) : avg (fun _ => 0) l = 0.
Proof.
  unfold avg. rewrite (rlsum_map _ (fun _ : A => 0 * 0)) by (intros; ring). rewrite rlsum_map_scal.
  unfold Rdiv. ring.
Qed.
Lemma cavg_rtoc {A} (f : A -> R) l : cavg (fun a => rtoc (f a)) l = rtoc (avg f l).
Proof. unfold cavg, rtoc. cbn. f_equal. apply avg_zero. Qed.
Lemma cavg_ext {A} (f g : A -> cx) l : (forall a, In a l -> f a = g a) -> cavg f l = cavg g l.
Proof. intros H. unfold cavg. f_equal; apply avg_ext; intros a Ha; now rewrite H. Qed.
Lemma cscal_rtoc a r : cscal (rtoc a) r = rtoc (a * r).
Proof. unfold cscal, rtoc. cbn. f_equal. ring. Qed.
Lemma gmean_self a : 0 <= a -> gmean a a = a.
Proof. intros. unfold gmean. now apply sqrt_square. Qed.
Lemma err2_dup u : err2_pair (dup u) = option_map (fun v => (v, v)) (err2 u).
Proof. unfold err2_pair, dup. cbn. destruct (err2 u); reflexivity. Qed.
Lemma pvar1_dup u : pvar1 (dup u) = err2 u.
Proof. unfold pvar1. rewrite err2_dup. destruct (err2 u); reflexivity. Qed.
Lemma pvar2_dup u : pvar2 (dup u) = err2 u.
Proof. unfold pvar2. rewrite err2_dup. destruct (err2 u); reflexivity. Qed.
Lemma pvar_dup u : pvar (dup u) = err2 u.
Proof.
  unfold pvar. rewrite err2_dup. destruct (err2 u) eqn:E; [|reflexivity]. cbn. f_equal.
  apply gmean_self. now apply (err2_nonneg u).
Qed.
Lemma rlsum_nonneg {A} (f : A -> R) l : (forall a, In a l -> 0 <= f a) -> 0 <= rlsum (map f l).
Proof.
  intros H. induction l as [|a l IH]; [cbn; lra|]. unfold rlsum in *. cbn.
  assert (0 <= f a) by (apply H; now left). assert (0 <= fold_right Rplus 0 (map f l)) by (apply IH; intros; apply H; now right).
  lra.
Qed.
Lemma avg_nonneg {A} (f : A -> R) l : (forall a, In a l -> 0 <= f a) -> 0 <= avg f l.
Proof.
  intros H. unfold avg. destruct l as [|a l]; [cbn; unfold Rdiv; lra|].
  apply Rmult_le_pos; [now apply rlsum_nonneg|]. left. apply Rinv_0_lt_compat, lt_0_INR. cbn; lia.
Qed.
Lemma mean_err2_nonneg us v : mean_present (map err2 us) = Some v -> 0 <= v.
Proof.
  unfold mean_present. assert (P : forall x, In x (present (map err2 us)) -> 0 <= x).
  { unfold present. intros x Hx. apply in_flat_map in Hx. destruct Hx as (o & Ho & Hx). apply in_map_iff in Ho.
    destruct Ho as (u & Eu & _). destruct o as [y|]; [|destruct Hx]. destruct Hx as [ <- |[]]. now apply (err2_nonneg u). }
  destruct (present (map err2 us)) as [|y l] eqn:E; [discriminate|]. intros F.
  assert (v = rlsum (y :: l) / INR (length (map err2 us))) as -> by congruence.
  apply Rmult_le_pos.
  - rewrite <- (map_id (y :: l)). now apply rlsum_nonneg.
  - destruct us as [|u us]; [discriminate|]. left. apply Rinv_0_lt_compat, lt_0_INR. cbn; lia.
Qed.
Lemma gmean_opt_mean us : gmean_opt (mean_present (map err2 us)) (mean_present (map err2 us)) = mean_present (map err2 us).
Proof.
  destruct (mean_present (map err2 us)) eqn:E; [|reflexivity]. cbn. f_equal. apply gmean_self.
  now apply (mean_err2_nonneg us).
Qed.
Lemma bin_freq_pos n dt k : (0 < n)%nat -> In k (seq 1 (n_pos n)) -> bin_freq n dt k = INR k / (INR n * dt).
Proof.
  intros Hn H. apply in_seq in H. unfold bin_freq. destruct (Nat.ltb_spec (2 * k) n).
  - f_equal. ring.
  - destruct (n_pos_half n Hn); lia.
Qed.
Lemma existsb_map {A B} (p : B -> bool) (f : A -> B) l : existsb p (map f l) = existsb (fun a => p (f a)) l.
Proof. induction l; cbn; congruence. Qed.
Lemma existsb_ext' {A} (p q : A -> bool) l : (forall a, p a = q a) -> existsb p l = existsb q l.
Proof. intros H. induction l; cbn; [|rewrite H]; congruence. Qed.

Lemma cs_self segs dt norm (common auxil subcs : bool) n : (0 < n)%nat ->
  tuples_nonzero segs -> (forall u, In u (usable segs) -> length (s_flux u) = n) ->
  (forall u, In u (usable segs) -> 0 <= photons u) ->
  match avg_pds segs dt norm common subcs with
  | Ok (Some t) => exists c, avg_cs segs segs dt norm common false PAll auxil subcs = Ok (Some c) /\ same_table t c
  | Ok None => avg_cs segs segs dt norm common false PAll auxil subcs = Ok None
  | Err e => avg_cs segs segs dt norm common false PAll auxil subcs = Err e
  end.
Proof.
  intros Hn H1 H2 H3.
  assert (H2' : forall p, In p (usable2 segs segs) -> length (s_flux (fst p)) = n /\ length (s_flux (snd p)) = n).
  { rewrite usable2_self. intros p Hp. apply in_map_iff in Hp. destruct Hp as (u & <- & Hu). cbn. auto. }
  assert (Hph : 0 <= avg photons (usable segs)) by now apply avg_nonneg.
  destruct common.
  - rewrite (avg_pds_common segs dt norm subcs n Hn H1 H2).
    rewrite (avg_cs_common segs segs dt norm false PAll auxil subcs n Hn H1 H1 H2').
    rewrite usable2_self. cbn [bins]. rewrite !map_map, !avg_map, map_length.
    rewrite (map_ext _ _ pvar1_dup), (map_ext _ _ pvar2_dup), gmean_opt_mean.
    destruct (usable segs) as [|u0 us0] eqn:Eu; [reflexivity|]. rewrite <- Eu in *.
    assert (NE : forall {B} (x y : B), match map dup (usable segs) with [] => x | _ :: _ => y end = y)
      by (intros; rewrite Eu; reflexivity).
    rewrite NE. clear NE. unfold refused. cbn [bad_type dup fst snd].
    change (avg (fun a => photons a) (usable segs)) with (avg photons (usable segs)). rewrite gmean_self by assumption.
    unfold fac. destruct (kind norm (mean_present (map err2 (usable segs)))) as [kn|] eqn:Ek; [|reflexivity].
    cbn [orb]. eexists. split; [reflexivity|].
    unfold same_table. cbn [c_freq c_power c_unnorm c_n c_m c_dt c_norm c_df c_segment_size c_nphots c_nphots1 c_nphots2
      c_mean c_mean1 c_mean2 c_variance c_variance1 c_variance2 c_subcs p_freq p_power p_unnorm p_n p_m p_dt p_norm p_df
      p_nphots p_mean p_variance p_segment_size p_subcs p_unnorm_subcs].
    repeat split; auto.
    + apply map_ext_in. intros k Hk. now apply bin_freq_pos.
    + rewrite map_map. apply map_ext. intros k. cbn [as_type]. rewrite cavg_map. unfold cpower. cbn [dup fst snd].
      rewrite (cavg_ext _ (fun u => rtoc (power_at (s_flux u) k))) by (intros; apply cross_self).
      rewrite cavg_rtoc. apply cscal_rtoc.
    + rewrite map_map. apply map_ext. intros k. rewrite cavg_map. unfold cpower. cbn [dup fst snd].
      rewrite (cavg_ext _ (fun u => rtoc (power_at (s_flux u) k))) by (intros; apply cross_self).
      apply cavg_rtoc.
    + destruct subcs; [|reflexivity]. cbn. f_equal. rewrite !map_map. apply map_ext. intros u. rewrite map_map.
      apply map_ext. intros k. unfold cpower. cbn. rewrite cross_self. apply cscal_rtoc.
    + destruct subcs; [|reflexivity]. cbn. f_equal. rewrite !map_map. apply map_ext. intros u. rewrite map_map.
      apply map_ext. intros k. unfold cpower. cbn. apply cross_self.
  - rewrite (avg_pds_own segs dt norm subcs n Hn H1 H2).
    rewrite (avg_cs_own segs segs dt norm false PAll auxil subcs n Hn H1 H1 H2').
    rewrite usable2_self. cbn [bins]. rewrite !map_map, !avg_map, map_length.
    rewrite (map_ext _ _ pvar1_dup), (map_ext _ _ pvar2_dup), gmean_opt_mean, existsb_map.
    rewrite (existsb_ext' (fun a => refused norm (pvar (dup a)) || bad_type PAll)%bool (fun u => match kind norm (err2 u) with Some _ => false | None => true end))
      by (intros u; rewrite pvar_dup; unfold refused; cbn [bad_type]; now destruct (kind norm (err2 u))).
    destruct (usable segs) as [|u0 us0] eqn:Eu; [reflexivity|]. rewrite <- Eu in *.
    assert (NE : forall {B} (x y : B), match map dup (usable segs) with [] => x | _ :: _ => y end = y)
      by (intros; rewrite Eu; reflexivity).
    rewrite NE. clear NE. cbn [dup fst snd].
    change (avg (fun a => photons a) (usable segs)) with (avg photons (usable segs)). rewrite gmean_self by assumption.
    destruct (existsb _ (usable segs)); [reflexivity|].
    eexists. split; [reflexivity|].
    unfold same_table. cbn [c_freq c_power c_unnorm c_n c_m c_dt c_norm c_df c_segment_size c_nphots c_nphots1 c_nphots2
      c_mean c_mean1 c_mean2 c_variance c_variance1 c_variance2 c_subcs p_freq p_power p_unnorm p_n p_m p_dt p_norm p_df
      p_nphots p_mean p_variance p_segment_size p_subcs p_unnorm_subcs].
    assert (OWN : forall u k, In u (usable segs) ->
      as_type PAll (cscal (cpower (dup u) k) (fac norm (pvar (dup u)) dt n (pph (dup u) / INR n) (pph (dup u))))
      = rtoc (power_at (s_flux u) k * match kind norm (err2 u) with
                                      | Some kn => factor kn dt n (photons u / INR n) (photons u) | None => 0 end)).
    { intros u k Hu. cbn [as_type]. unfold cpower, pph. cbn [dup fst snd]. rewrite gmean_self by auto.
      rewrite cross_self, cscal_rtoc. fold (dup u). rewrite pvar_dup. reflexivity. }
    repeat split; auto.
    + apply map_ext_in. intros k Hk. now apply bin_freq_pos.
    + rewrite map_map. apply map_ext. intros k. rewrite cavg_map. rewrite <- cavg_rtoc.
      apply cavg_ext. intros u Hu. now apply OWN.
    + rewrite map_map. apply map_ext. intros k. rewrite cavg_map. unfold cpower. cbn [dup fst snd].
      rewrite (cavg_ext _ (fun u => rtoc (power_at (s_flux u) k))) by (intros; apply cross_self).
      apply cavg_rtoc.
    + destruct subcs; [|reflexivity]. cbn [option_map fst]. f_equal. rewrite !map_map. apply map_ext_in. intros u Hu. rewrite map_map.
      apply map_ext. intros k. now apply OWN.
    + destruct subcs; [|reflexivity]. cbn. f_equal. rewrite !map_map. apply map_ext. intros u. rewrite map_map.
      apply map_ext. intros k. unfold cpower. cbn. apply cross_self.
Qed.
