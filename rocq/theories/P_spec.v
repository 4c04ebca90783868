(* P_spec.v: consequences for averaged spectra: rms, cross spectrum of a series with itself,
   coherence, lags *)
From Verif Require Import Np Cplx M_fourier S_fourier P_dft P_norm P_avg P_avgcs.
From Coq Require Import Lra.
Open Scope R_scope.

(* ---- C29 ---- *)
Lemma avg_lin {A} (f : A -> R) (c : R) l : avg (fun a => f a * c) l = avg f l * c.
Proof. unfold avg. rewrite rlsum_map_scal. unfold Rdiv. ring. Qed.
Lemma avg_ext {A} (f g : A -> R) l : (forall a, In a l -> f a = g a) -> avg f l = avg g l.
Proof. intros H. unfold avg. now rewrite (rlsum_map f g). Qed.
Lemma avg_plus {A} (f g : A -> R) l : avg (fun a => f a + g a) l = avg f l + avg g l.
Proof. unfold avg. rewrite rlsum_map_plus. unfold Rdiv. ring. Qed.
Lemma sum_seq1 f m : rlsum (map f (seq 1 m)) = rs m (fun k => f (S k)).
Proof. unfold rs. rewrite <- seq_shift, map_map. reflexivity. Qed.
Lemma rlsum_rs_swap {A} (f : A -> nat -> R) l m :
  rs m (fun k => rlsum (map (fun a => f a k) l)) = rlsum (map (fun a => rs m (f a)) l).
Proof.
  induction l as [|a l IH]; [cbn; now apply rs_zero|].
  cbn [map]. unfold rlsum in *. cbn [fold_right]. rewrite rs_plus. now rewrite IH.
Qed.
Lemma avg_rs {A} (f : A -> nat -> R) l m : rs m (fun k => avg (fun a => f a k) l) = avg (fun a => rs m (f a)) l.
Proof. unfold avg, Rdiv. rewrite rs_scal. now rewrite rlsum_rs_swap. Qed.

Lemma usable_nonempty s segs : In s (usable segs) -> nonzero s = true.
Proof.
  unfold usable. intros H. apply in_flat_map in H. destruct H as ([x|] & _ & H); [|destruct H].
  destruct (nonzero x) eqn:E; [|destruct H]. destruct H as [ <- |[]]. exact E.
Qed.
Lemma nonzero_len s : nonzero s = true -> s_flux s <> [].
Proof. unfold nonzero. destruct (s_flux s); [discriminate|congruence]. Qed.

Lemma frac_power segs dt (subcs : bool) n t : (0 < n)%nat -> 0 < dt ->
  tuples_nonzero segs -> (forall u, In u (usable segs) -> length (s_flux u) = n) ->
  avg_pds segs dt Frac true subcs = Ok (Some t) -> p_mean t <> 0 ->
  rlsum (map (fun p => p * p_df t) (p_power t)) =
  (avg (fun u => variance (s_flux u)) (usable segs)
   - (if Nat.even n then avg (fun u => power_at (s_flux u) (n / 2)) (usable segs) / (INR n * INR n) else 0))
  / (p_mean t * p_mean t).
Proof.
  intros Hn Hdt H1 H2 E Hm. rewrite (avg_pds_common segs dt Frac subcs n Hn H1 H2) in E.
  set (us := usable segs) in *.
  assert (Em : us <> []) by (intros Z; rewrite Z in E; discriminate).
  assert (Em' : forall {B} (x y : B), match us with [] => x | _ => y end = y) by (intros; destruct us; [congruence|reflexivity]).
  rewrite Em' in E. cbn [kind] in E.
  match type of E with Ok (Some ?T) = _ => assert (Et : t = T) by congruence end.
  clear E. subst t. cbn [p_mean p_df p_power factor] in *.
  set (mean := avg photons us / INR n) in *. rewrite map_map.
  assert (Hn' : INR n <> 0) by (apply not_0_INR; lia).
  transitivity (rlsum (map (fun k => avg (fun u => power_at (s_flux u) k) us) (seq 1 (n_pos n))) * (2 / (mean * mean * INR n * INR n))).
  { rewrite <- rlsum_map_scal. apply rlsum_map. intros k _. field. repeat split; try assumption; lra. }
  rewrite sum_seq1, (avg_rs (fun u k => power_at (s_flux u) (S k))).
  set (nyq := fun u => if Nat.even n then power_at (s_flux u) (n / 2) else 0).
  assert (P : avg (fun u => rs (n_pos n) (fun k => power_at (s_flux u) (S k))) us * 2
              = INR n * INR n * avg (fun u => variance (s_flux u)) us - avg nyq us).
  { assert (Q : avg (fun u => rs (n_pos n) (fun k => power_at (s_flux u) (S k)) * 2 + nyq u) us
              = avg (fun u => variance (s_flux u) * (INR n * INR n)) us).
    { apply avg_ext. intros u Hu. pose proof (H2 u Hu) as L.
      assert (NE : s_flux u <> []) by (apply nonzero_len; eapply usable_nonempty; exact Hu).
      pose proof (parseval_pos (s_flux u) NE) as V. rewrite L in V. unfold nyq. rewrite (Rmult_comm (variance _)), <- V. ring. }
    rewrite avg_plus, !avg_lin in Q. lra. }
  assert (N : avg nyq us = if Nat.even n then avg (fun u => power_at (s_flux u) (n / 2)) us else 0).
  { unfold nyq. destruct (Nat.even n); [reflexivity|]. unfold avg, Rdiv.
    rewrite (rlsum_map _ (fun u : seg => 0 * 0)) by (intros; ring). rewrite rlsum_map_scal. ring. }
  rewrite N in P.
  replace (avg (fun u => rs (n_pos n) (fun k => power_at (s_flux u) (S k))) us)
    with ((INR n * INR n * avg (fun u => variance (s_flux u)) us -
      (if Nat.even n then avg (fun u => power_at (s_flux u) (n / 2)) us else 0)) / 2) by (rewrite <- P; field).
  destruct (Nat.even n); field; split; assumption.
Qed.

Lemma frac_power_even_refuted :
  exists x dt t, length x = 2%nat /\ 0 < dt /\
    avg_pds [Some {| s_flux := x; s_err := None |}] dt Frac true false = Ok (Some t) /\ 0 < p_mean t /\
    rlsum (map (fun p => p * p_df t) (p_power t)) <> variance x / (p_mean t * p_mean t).
Proof.
  assert (Z : nonzero {| s_flux := [1; 3]; s_err := None |} = true).
  { unfold nonzero. cbn. destruct (Req_EM_T 1 0); [lra|reflexivity]. }
  assert (U : usable [Some {| s_flux := [1; 3]; s_err := None |}] = [{| s_flux := [1; 3]; s_err := None |}]).
  { unfold usable. cbn [flat_map]. rewrite Z. reflexivity. }
  eexists [1; 3], 1, _. split; [reflexivity|]. split; [lra|]. split.
  - rewrite (avg_pds_common _ 1 Frac false 2); [|lia|..].
    + rewrite U. cbn [kind]. reflexivity.
    + intros s [E|[]]. injection E as <-. intros; exact Z.
    + rewrite U. intros u [ <- |[]]. reflexivity.
  - cbn [p_mean p_df p_power]. change (n_pos 2) with 0%nat. cbn [seq map]. split.
    + unfold avg, photons, rlsum. cbn. lra.
    + unfold variance, avg, photons, rlsum. cbn. intros E.
      match type of E with 0 = ?a / ?b => assert (B : b <> 0) by lra; assert (E' : a = 0)
        by (replace a with (a / b * b) by (field; exact B); rewrite <- E; ring) end.
      lra.
Qed.

(* ---- rms from the unnormalized powers, without noise ---- *)
Lemma pds_unnorm segs dt norm (common subcs : bool) n t : (0 < n)%nat ->
  tuples_nonzero segs -> (forall u, In u (usable segs) -> length (s_flux u) = n) ->
  avg_pds segs dt norm common subcs = Ok (Some t) ->
  usable segs <> [] /\ p_unnorm t = map (fun k => avg (fun u => power_at (s_flux u) k) (usable segs)) (seq 1 (n_pos n)) /\
  p_nphots t = avg photons (usable segs) /\ p_df t = 1 / (dt * INR n) /\ p_segment_size t = dt * INR n /\
  p_mean t = avg photons (usable segs) / INR n.
Proof.
  intros Hn H1 H2 E. destruct common.
  - rewrite (avg_pds_common segs dt norm subcs n Hn H1 H2) in E.
    destruct (usable segs) as [|u0 us0] eqn:Eu; [discriminate|]. rewrite <- Eu in *.
    destruct (kind _ _) as [kn|]; [|discriminate]. cbv zeta in E.
    match type of E with Ok (Some ?T) = _ => assert (Et : t = T) by congruence end. subst t.
    split; [rewrite Eu; discriminate|]. repeat split.
  - rewrite (avg_pds_own segs dt norm subcs n Hn H1 H2) in E.
    destruct (usable segs) as [|u0 us0] eqn:Eu; [discriminate|]. rewrite <- Eu in *.
    destruct (existsb _ _); [discriminate|].
    match type of E with Ok (Some ?T) = _ => assert (Et : t = T) by congruence end. subst t.
    split; [rewrite Eu; discriminate|]. repeat split.
Qed.

Lemma sum_powers us n : (forall u, In u us -> length (s_flux u) = n /\ s_flux u <> []) ->
  2 * rs (n_pos n) (fun k => avg (fun u => power_at (s_flux u) (S k)) us)
  = INR n * INR n * avg (fun u => variance (s_flux u)) us
    - (if Nat.even n then avg (fun u => power_at (s_flux u) (n / 2)) us else 0).
Proof.
  intros H. rewrite (avg_rs (fun u k => power_at (s_flux u) (S k))).
  set (nyq := fun u => if Nat.even n then power_at (s_flux u) (n / 2) else 0).
  assert (Q : avg (fun u => rs (n_pos n) (fun k => power_at (s_flux u) (S k)) * 2 + nyq u) us
              = avg (fun u => variance (s_flux u) * (INR n * INR n)) us).
  { apply avg_ext. intros u Hu. destruct (H u Hu) as [L NE].
    pose proof (parseval_pos (s_flux u) NE) as V. rewrite L in V. unfold nyq. rewrite (Rmult_comm (variance _)), <- V. ring. }
  assert (N : avg nyq us = if Nat.even n then avg (fun u => power_at (s_flux u) (n / 2)) us else 0).
  { unfold nyq. destruct (Nat.even n); [reflexivity|]. unfold avg, Rdiv.
    rewrite (rlsum_map _ (fun u : seg => 0 * 0)) by (intros; ring). rewrite rlsum_map_scal. ring. }
  rewrite avg_plus, !avg_lin, N in Q. lra.
Qed.

Lemma sqrt_div_sq a b : 0 <= a -> 0 < b -> sqrt (a / (b * b)) = sqrt a / b.
Proof.
  intros Ha Hb. rewrite sqrt_div_alt by nra. rewrite sqrt_square by lra. reflexivity.
Qed.

Lemma rms_main segs dt norm (common subcs : bool) n t ss (frac : bool) : (0 < n)%nat -> 0 < dt ->
  tuples_nonzero segs -> (forall u, In u (usable segs) -> length (s_flux u) = n) ->
  avg_pds segs dt norm common subcs = Ok (Some t) -> 0 < p_mean t -> (ss = None \/ ss = Some (p_segment_size t)) ->
  rms_from_unnorm (p_unnorm t) (p_nphots t) (p_df t) (Some 0) ss frac =
  sqrt (avg (fun u => variance (s_flux u)) (usable segs)
        - (if Nat.even n then avg (fun u => power_at (s_flux u) (n / 2)) (usable segs) / (INR n * INR n) else 0))
  / (if frac then p_mean t else dt).
Proof.
  intros Hn Hdt H1 H2 E Hm Hs. destruct (pds_unnorm _ _ _ _ _ _ _ Hn H1 H2 E) as (NE & E1 & E2 & E3 & E4 & E5).
  assert (Hn' : 0 < INR n) by now apply lt_0_INR.
  assert (P : 0 < p_nphots t) by (rewrite E2; rewrite E5 in Hm; replace (avg photons (usable segs)) with (avg photons (usable segs) / INR n * INR n) by (field; lra); nra).
  assert (SP := sum_powers (usable segs) n). specialize (SP ltac:(intros u Hu; split; [now apply H2|apply nonzero_len; eapply usable_nonempty; exact Hu])).
  set (V := avg (fun u => variance (s_flux u)) (usable segs) - _) in *.
  set (S := rs (n_pos n) (fun k => avg (fun u => power_at (s_flux u) (Datatypes.S k)) (usable segs))) in *.
  assert (EV : 2 * S = INR n * INR n * V) by (unfold V; rewrite SP; destruct (Nat.even n); field; lra).
  assert (SS : match ss with Some s => s | None => 1 / p_df t end = dt * INR n).
  { destruct Hs as [ -> | -> ]; [|exact E4]. rewrite E3. field. split; lra. }
  assert (S0 : 0 <= S).
  { unfold S. apply rs_nonneg. intros k _. unfold avg. destruct (usable segs) as [|u0 us0] eqn:Eu; [congruence|]. rewrite <- Eu.
    apply Rmult_le_pos; [|left; apply Rinv_0_lt_compat, lt_0_INR; rewrite Eu; cbn; lia].
    clear. induction (usable segs) as [|u l IH]; [cbn; lra|]. unfold rlsum in *. cbn [map fold_right].
    pose proof (cnorm2_nonneg (dft (s_flux u) (Datatypes.S k))) as C. rewrite <- power_at_norm in C. lra. }
  assert (V0 : 0 <= V).
  { apply (Rmult_le_reg_l (INR n * INR n)); [nra|]. rewrite Rmult_0_r. lra. }
  unfold rms_from_unnorm. rewrite SS.
  assert (T : forall c, rlsum (map (fun q => (q - 0 * c) * p_df t) (map (fun p => p * c) (p_unnorm t))) = S * c * p_df t).
  { intros c. rewrite E1, !map_map. rewrite (rlsum_map _ (fun k => avg (fun u => power_at (s_flux u) k) (usable segs) * (c * p_df t))) by (intros; ring).
    rewrite rlsum_map_scal, sum_seq1. unfold S. ring. }
  assert (NPH : p_nphots t = p_mean t * INR n) by (rewrite E2, E5; field; lra).
  destruct frac.
  - rewrite (map_ext _ (fun p => p * (2 / p_nphots t / (p_nphots t / (dt * INR n))))) by (intros; field; repeat split; lra).
    replace (0 * 2 / p_nphots t / (p_nphots t / (dt * INR n))) with (0 * (2 / p_nphots t / (p_nphots t / (dt * INR n)))) by (field; repeat split; lra).
    unfold rms_from_rms_norm. rewrite T.
    assert (X : S * (2 / p_nphots t / (p_nphots t / (dt * INR n))) * p_df t = V / (p_mean t * p_mean t)).
    { replace (S * (2 / p_nphots t / (p_nphots t / (dt * INR n))) * p_df t) with (2 * S * (/ p_nphots t / p_nphots t))
        by (rewrite E3; field; repeat split; lra).
      rewrite EV, NPH. field. split; lra. }
    rewrite X. destruct (Rlt_dec _ 0) as [G|_].
    + exfalso. assert (0 <= V / (p_mean t * p_mean t)) by (apply Rmult_le_pos; [lra|left; apply Rinv_0_lt_compat; nra]). lra.
    + now apply sqrt_div_sq.
  - rewrite (map_ext _ (fun p => p * (2 / p_nphots t * (p_nphots t / (dt * INR n))))) by (intros; field; repeat split; lra).
    replace (0 * 2 / p_nphots t * (p_nphots t / (dt * INR n))) with (0 * (2 / p_nphots t * (p_nphots t / (dt * INR n)))) by (field; repeat split; lra).
    unfold rms_from_rms_norm. rewrite T.
    assert (X : S * (2 / p_nphots t * (p_nphots t / (dt * INR n))) * p_df t = V / (dt * dt)).
    { replace (S * (2 / p_nphots t * (p_nphots t / (dt * INR n))) * p_df t) with (2 * S * (/ (dt * INR n) / (dt * INR n)))
        by (rewrite E3; field; repeat split; lra).
      rewrite EV. field. split; lra. }
    rewrite X. destruct (Rlt_dec _ 0) as [G|_].
    + exfalso. assert (0 <= V / (dt * dt)) by (apply Rmult_le_pos; [lra|left; apply Rinv_0_lt_compat; nra]). lra.
    + now apply sqrt_div_sq.
Qed.

(* with noise: the rms is that of the summed excess, 0 where it is negative *)
Lemma rms_noise powers noise df : 0 <= rms_from_rms_norm powers noise df /\
  let tot := rlsum (map (fun p => (p - noise) * df) powers) in
  (0 <= tot -> rms_from_rms_norm powers noise df * rms_from_rms_norm powers noise df = tot) /\
  (tot < 0 -> rms_from_rms_norm powers noise df = 0).
Proof.
  unfold rms_from_rms_norm. cbv zeta. destruct (Rlt_dec _ 0) as [G|G].
  - repeat split; intros; lra.
  - split; [apply sqrt_pos|]. split; [intros; now apply sqrt_sqrt|]. intros; lra.
Qed.
