(* P_avg.v: the averaging loops *)
From Verif Require Import Np Cplx M_fourier S_fourier P_dft P_norm.
From Coq Require Import Lra.
Open Scope R_scope.

Lemma vmap2_map {A B} (f : A -> A -> A) (a b : B -> A) l :
  vmap2 f (map a l) (map b l) = Ok (map (fun k => f (a k) (b k)) l).
Proof.
  unfold vmap2. rewrite !map_length, Nat.eqb_refl. f_equal.
  induction l as [|x l IH]; [reflexivity|]. cbn. now rewrite IH.
Qed.
Lemma loop_app {S X} (step : S -> X -> result S) st l m :
  loop step st (l ++ m) = let! s := loop step st l in loop step s m.
Proof. revert st. induction l as [|x l IH]; intros st; [reflexivity|]. cbn. destruct (step st x); cbn; [apply IH|reflexivity]. Qed.
Lemma present_app {A} (l m : list (option A)) : present (l ++ m) = present l ++ present m.
Proof. apply flat_map_app. Qed.

(* skipping *)
Lemma all_zero_plain s : s_err s = None -> all_zero s = negb (nonzero s).
Proof.
  intros E. unfold all_zero, nonzero. rewrite E. induction (s_flux s) as [|x l IH]; [reflexivity|].
  cbn. destruct (Req_EM_T x 0); cbn; [exact IH|reflexivity].
Qed.
Lemma all_zero_spec s : (s_err s <> None -> nonzero s = true) -> all_zero s = negb (nonzero s).
Proof.
  intros H. destruct (s_err s) eqn:E; [|now apply all_zero_plain].
  rewrite H by congruence. unfold all_zero. rewrite E. reflexivity.
Qed.

Definition powers (x : list R) : list R := map (fun z => re (cmul z (cconj z))) (fft (map rtoc x)).
Lemma powers_map x : powers x = map (power_at x) (seq 0 (length x)).
Proof.
  unfold powers. rewrite fft_map, map_map. apply map_ext. intros k. rewrite mul_conj. reflexivity.
Qed.
Lemma cut_pos {A} (f : nat -> A) n : (0 < n)%nat ->
  cut (map f (seq 0 n)) (positive_fft_bins n false) = map f (seq 1 (n_pos n)).
Proof.
  intros H. rewrite pos_bins by exact H. rewrite cut_range by (destruct (n_pos_half n H); lia).
  do 2 f_equal. lia.
Qed.
Lemma freq_pos n dt : (0 < n)%nat ->
  cut (fftfreq n dt) (positive_fft_bins n false) = map (fun k => INR k / (INR n * dt)) (seq 1 (n_pos n)).
Proof.
  intros H. rewrite fftfreq_map, cut_pos by exact H. apply map_ext_in. intros k Hk. apply in_seq in Hk.
  unfold bin_freq. assert (E : Nat.ltb (2 * k) n = true) by (apply Nat.ltb_lt; destruct (n_pos_half n H); lia).
  rewrite E, Rminus_0_r. reflexivity.
Qed.
Lemma pos_bins_indep n : (0 < n)%nat -> positive_fft_bins n false = (1%nat, S (n_pos n)).
Proof. intros H. now rewrite pos_bins. Qed.

Lemma seg_var_err2 s : seg_var s = err2 s.
Proof. unfold seg_var, err2, rmean, avg. destruct (s_err s) as [e|]; [|reflexivity]. cbn. now rewrite map_id. Qed.

(* factor applied to one segment when normalizing segment by segment *)
Definition own_factor (norm : normt) (dt : R) (s : seg) : R :=
  match kind norm (err2 s) with
  | Some k => factor k dt (length (s_flux s)) (photons s / INR (length (s_flux s))) (photons s)
  | None => 0
  end.

Section Pds.
Variables (dt : R) (norm : normt) (common : bool) (n : nat).
Hypothesis Hn : (0 < n)%nat.
Let ks := seq 1 (n_pos n).
Definition contrib (u : seg) (k : nat) : R :=
  if common then power_at (s_flux u) k else power_at (s_flux u) k * own_factor norm dt u.

Definition pds_after (us : list seg) : pds_state :=
  {| ps_cross := Some (map (fun k => rlsum (map (fun u => contrib u k) us)) ks);
     ps_unnorm := Some (map (fun k => rlsum (map (fun u => power_at (s_flux u) k) us)) ks);
     ps_n_ave := length us; ps_ph := rlsum (map photons us);
     ps_var := match present (map err2 us) with [] => None | vs => Some (rlsum vs) end;
     ps_fgt0 := positive_fft_bins n false;
     ps_freq := map (fun k => INR k / (INR n * dt)) ks;
     ps_n_bin := n;
     ps_subcs := map (fun u => map (contrib u) ks) us;
     ps_usubcs := map (fun u => map (power_at (s_flux u)) ks) us |}.
Definition pds_at (us : list seg) : pds_state := match us with [] => pds_init | _ => pds_after us end.

Lemma var_snoc us u :
  match err2 u with
  | Some v => Some (add_or_init1 (match present (map err2 us) with [] => None | vs => Some (rlsum vs) end) v)
  | None => match present (map err2 us) with [] => None | vs => Some (rlsum vs) end
  end = match present (map err2 (us ++ [u])) with [] => None | vs => Some (rlsum vs) end.
Proof.
  rewrite map_app, present_app. cbn [map present flat_map app]. destruct (err2 u) as [v|]; cbn [app].
  - destruct (present (map err2 us)) as [|a l] eqn:E; [cbn; f_equal; ring|].
    cbn [app add_or_init1]. f_equal. change (a :: l ++ [v]) with ((a :: l) ++ [v]). rewrite rlsum_app. cbn. ring.
  - rewrite app_nil_r. reflexivity.
Qed.
Lemma sum_snoc {A} (f : A -> R) l a : rlsum (map f (l ++ [a])) = rlsum (map f l) + f a.
Proof. rewrite map_app, rlsum_app. cbn. ring. Qed.

Lemma pds_step_use us u : length (s_flux u) = n -> all_zero u = false ->
  (common = false -> kind norm (err2 u) <> None) ->
  pds_step dt norm common (pds_at us) (Some u) = Ok (pds_at (us ++ [u])).
Proof.
  intros Hl Hz Hk. unfold pds_step. rewrite Hz. fold (powers (s_flux u)). rewrite powers_map, Hl.
  assert (Ecut : forall st, ps_fgt0 st = positive_fft_bins n false \/ ps_cross st = None ->
            match ps_cross st with None => positive_fft_bins n false | Some _ => ps_fgt0 st end
            = positive_fft_bins n false).
  { intros st [H|H]; rewrite H; [now destruct (ps_cross st)|reflexivity]. }
  assert (E1 : (match ps_cross (pds_at us) with None => positive_fft_bins n false | Some _ => ps_fgt0 (pds_at us) end)
                = positive_fft_bins n false) by (apply Ecut; destruct us; [now right|now left]).
  rewrite E1, cut_pos, freq_pos by exact Hn. fold ks.
  assert (E2 : (if common then Ok (map (power_at (s_flux u)) ks)
                else normalize rmul (map (power_at (s_flux u)) ks) dt n (Some (rlsum (s_flux u) / INR n))
                       (Some (rlsum (s_flux u))) (seg_var u) 0 norm) = Ok (map (contrib u) ks)).
  { unfold contrib. destruct common; [reflexivity|].
    rewrite (norm_factor rmul rmul_mul rmul_1), seg_var_err2. unfold own_factor.
    destruct (kind norm (err2 u)) as [k|]; [|exfalso; now apply Hk].
    unfold rmul. rewrite map_map. unfold photons. rewrite Hl. reflexivity. }
  rewrite E2. cbn [bind].
  assert (E3 : add_or_init Rplus (ps_cross (pds_at us)) (map (contrib u) ks)
               = Ok (map (fun k => rlsum (map (fun u => contrib u k) (us ++ [u]))) ks)).
  { destruct us as [|a l].
    - cbn. f_equal. apply map_ext. intros k. ring.
    - cbn [pds_at pds_after ps_cross add_or_init]. rewrite vmap2_map. f_equal. apply map_ext. intros k.
      rewrite sum_snoc. reflexivity. }
  assert (E4 : add_or_init Rplus (ps_unnorm (pds_at us)) (map (power_at (s_flux u)) ks)
               = Ok (map (fun k => rlsum (map (fun u => power_at (s_flux u) k) (us ++ [u]))) ks)).
  { destruct us as [|a l].
    - cbn. f_equal. apply map_ext. intros k. ring.
    - cbn [pds_at pds_after ps_unnorm add_or_init]. rewrite vmap2_map. f_equal. apply map_ext. intros k.
      rewrite sum_snoc. reflexivity. }
  rewrite E3. cbn [bind]. rewrite E4. cbn [bind].
  assert (E5 : pds_at (us ++ [u]) = pds_after (us ++ [u])) by (destruct us; reflexivity).
  rewrite E5. unfold pds_after. f_equal.
  rewrite !map_app, app_length. cbn [map length]. rewrite seg_var_err2.
  f_equal.
  - destruct us; cbn [pds_at pds_init pds_after ps_n_ave length]; lia.
  - destruct us; cbn [pds_at pds_init pds_after ps_ph]; [cbn; unfold photons; ring|].
    rewrite rlsum_app. cbn. unfold photons. ring.
  - replace (map err2 us ++ [err2 u]) with (map err2 (us ++ [u])) by (rewrite map_app; reflexivity).
    rewrite <- var_snoc. destruct us; [|reflexivity]. cbn. now destruct (err2 u).
  - destruct us; reflexivity.
  - destruct us; reflexivity.
  - destruct us; reflexivity.
Qed.

Lemma pds_step_bad us u : length (s_flux u) = n -> all_zero u = false ->
  common = false -> kind norm (err2 u) = None ->
  pds_step dt norm common (pds_at us) (Some u) = Err ValueError.
Proof.
  intros Hl Hz Hc Hk. unfold pds_step. rewrite Hz, Hc, (norm_factor rmul rmul_mul rmul_1), seg_var_err2, Hk. reflexivity.
Qed.

Lemma pds_loop segs us :
  (forall s, In (Some s) segs -> s_err s <> None -> nonzero s = true) ->
  (forall u, In u (usable segs) -> length (s_flux u) = n) ->
  (common = false -> forall u, In u (usable segs) -> kind norm (err2 u) <> None) ->
  loop (pds_step dt norm common) (pds_at us) segs = Ok (pds_at (us ++ usable segs)).
Proof.
  revert us. induction segs as [|o segs IH]; intros us H1 H2 H3.
  - cbn. now rewrite app_nil_r.
  - cbn [loop].
    assert (H1' : forall s, In (Some s) segs -> s_err s <> None -> nonzero s = true) by (intros; apply H1; [now right|assumption]).
    assert (H2' : forall u, In u (usable segs) -> length (s_flux u) = n)
      by (intros; apply H2; unfold usable; cbn [flat_map]; apply in_or_app; now right).
    assert (H3' : common = false -> forall u, In u (usable segs) -> kind norm (err2 u) <> None)
      by (intros; apply H3; [assumption|]; unfold usable; cbn [flat_map]; apply in_or_app; now right).
    destruct o as [s|].
    + assert (Z : all_zero s = negb (nonzero s)) by (apply all_zero_spec, H1; now left).
      unfold usable. cbn [flat_map]. fold (usable segs).
      destruct (nonzero s) eqn:E; cbn [negb] in Z.
      * rewrite pds_step_use; cbn [bind]; try exact Z.
        -- rewrite IH by assumption. rewrite <- app_assoc. reflexivity.
        -- apply H2. unfold usable. cbn [flat_map]. rewrite E. now left.
        -- intros C. apply H3; [exact C|]. unfold usable. cbn [flat_map]. rewrite E. now left.
      * unfold pds_step. rewrite Z. cbn [bind app]. now apply IH.
    + cbn [pds_step bind]. unfold usable. cbn [flat_map app]. fold (usable segs). now apply IH.
Qed.

Lemma pds_loop_bad segs us :
  (forall s, In (Some s) segs -> s_err s <> None -> nonzero s = true) ->
  (forall u, In u (usable segs) -> length (s_flux u) = n) ->
  common = false -> (exists u, In u (usable segs) /\ kind norm (err2 u) = None) ->
  loop (pds_step dt norm common) (pds_at us) segs = Err ValueError.
Proof.
  revert us. induction segs as [|o segs IH]; intros us H1 H2 HC H3.
  - destruct H3 as (u & Hu & _). destruct Hu.
  - cbn [loop].
    assert (H1' : forall s, In (Some s) segs -> s_err s <> None -> nonzero s = true) by (intros; apply H1; [now right|assumption]).
    assert (H2' : forall u, In u (usable segs) -> length (s_flux u) = n)
      by (intros; apply H2; unfold usable; cbn [flat_map]; apply in_or_app; now right).
    destruct o as [s|].
    + assert (Z : all_zero s = negb (nonzero s)) by (apply all_zero_spec, H1; now left).
      unfold usable in H3. cbn [flat_map] in H3. fold (usable segs) in H3.
      destruct (nonzero s) eqn:E; cbn [negb] in Z.
      * assert (Ls : length (s_flux s) = n) by (apply H2; unfold usable; cbn [flat_map]; rewrite E; now left).
        destruct (kind norm (err2 s)) eqn:K.
        -- rewrite pds_step_use by (auto; congruence). cbn [bind]. apply IH; try assumption.
           destruct H3 as (u & Hu & Ku). destruct Hu as [ <- |Hu]; [congruence|]. now exists u.
        -- rewrite pds_step_bad by auto. reflexivity.
      * unfold pds_step. rewrite Z. cbn [bind]. apply IH; assumption.
    + cbn [pds_step bind]. apply IH; assumption.
Qed.
End Pds.

(* the averaged periodogram, normalized with the common mean *)
Lemma avg_pds_common segs dt norm subcs n : (0 < n)%nat ->
  (forall s, In (Some s) segs -> s_err s <> None -> nonzero s = true) ->
  (forall u, In u (usable segs) -> length (s_flux u) = n) ->
  let us := usable segs in
  let ks := seq 1 (n_pos n) in
  let nph := avg photons us in
  let mean := nph / INR n in
  let var := mean_present (map err2 us) in
  let unnorm k := avg (fun u => power_at (s_flux u) k) us in
  avg_pds segs dt norm true subcs =
  match us with
  | [] => Ok None
  | _ =>
    match kind norm var with
    | None => Err ValueError
    | Some kn =>
      let f := factor kn dt n mean nph in
      Ok (Some {| p_freq := map (fun k => INR k / (INR n * dt)) ks;
                  p_power := map (fun k => unnorm k * f) ks;
                  p_unnorm := map unnorm ks;
                  p_n := n; p_m := length us; p_dt := dt; p_norm := norm; p_df := 1 / (dt * INR n);
                  p_nphots := nph; p_mean := mean; p_variance := var; p_segment_size := dt * INR n;
                  p_subcs := if subcs then Some (map (fun u => map (fun k => power_at (s_flux u) k * f) ks) us) else None;
                  p_unnorm_subcs := if subcs then Some (map (fun u => map (power_at (s_flux u)) ks) us) else None |})
    end
  end.
Proof.
  intros Hn H1 H2 us ks nph mean var unnorm. unfold avg_pds.
  change pds_init with (pds_at dt norm true n []).
  rewrite (pds_loop dt norm true n Hn segs []) by (auto; congruence).
  cbn [app bind]. fold us.
  assert (E0 : us = [] \/ us <> []) by (destruct us; [now left|right; congruence]).
  destruct E0 as [E0|E0]; [rewrite E0; reflexivity|].
  assert (Eat : pds_at dt norm true n us = pds_after dt norm true n us) by (destruct us; [congruence|reflexivity]).
  assert (Em : forall {B} (x y : B), match us with [] => x | _ => y end = y) by (intros; destruct us; [congruence|reflexivity]).
  rewrite Eat, Em. cbn [pds_after ps_cross ps_unnorm ps_n_ave ps_n_bin ps_ph ps_var].
  assert (Ev : option_map (fun v => v / INR (length us)) (match present (map err2 us) with [] => None | vs => Some (rlsum vs) end) = var).
  { unfold var, mean_present. rewrite map_length. now destruct (present (map err2 us)). }
  rewrite Ev. fold (avg photons us). fold nph. fold mean.
  rewrite (norm_factor Rmult Rmult_mul Rmult_1_r).
  destruct (kind norm var) as [kn|]; cbn [bind fst snd]; [|reflexivity].
  unfold rmul. rewrite !map_map. do 2 f_equal. cbn [pds_after ps_freq ps_subcs ps_usubcs].
  rewrite Rmult_1_l. f_equal.
  destruct subcs; [|reflexivity]. f_equal. rewrite map_map. apply map_ext. intros a. rewrite map_map. reflexivity.
Qed.

(* the averaged periodogram, normalized segment by segment *)
Lemma avg_pds_own segs dt norm subcs n : (0 < n)%nat ->
  (forall s, In (Some s) segs -> s_err s <> None -> nonzero s = true) ->
  (forall u, In u (usable segs) -> length (s_flux u) = n) ->
  let us := usable segs in
  let ks := seq 1 (n_pos n) in
  let nph := avg photons us in
  let own u k := power_at (s_flux u) k *
                 match kind norm (err2 u) with
                 | Some kn => factor kn dt n (photons u / INR n) (photons u)
                 | None => 0
                 end in
  let unnorm k := avg (fun u => power_at (s_flux u) k) us in
  avg_pds segs dt norm false subcs =
  match us with
  | [] => Ok None
  | _ =>
    if existsb (fun u => match kind norm (err2 u) with None => true | Some _ => false end) us
    then Err ValueError
    else
      Ok (Some {| p_freq := map (fun k => INR k / (INR n * dt)) ks;
                  p_power := map (fun k => avg (fun u => own u k) us) ks;
                  p_unnorm := map unnorm ks;
                  p_n := n; p_m := length us; p_dt := dt; p_norm := norm; p_df := 1 / (dt * INR n);
                  p_nphots := nph; p_mean := nph / INR n;
                  p_variance := mean_present (map err2 us); p_segment_size := dt * INR n;
                  p_subcs := if subcs then Some (map (fun u => map (own u) ks) us) else None;
                  p_unnorm_subcs := if subcs then Some (map (fun u => map (power_at (s_flux u)) ks) us) else None |})
  end.
Proof.
  intros Hn H1 H2 us ks nph own unnorm. unfold avg_pds.
  change pds_init with (pds_at dt norm false n []).
  assert (E0 : us = [] \/ us <> []) by (destruct us; [now left|right; congruence]).
  assert (Em : us <> [] -> forall {B} (x y : B), match us with [] => x | _ => y end = y) by (intros; destruct us; [congruence|reflexivity]).
  destruct (existsb (fun u => match kind norm (err2 u) with None => true | Some _ => false end) us) eqn:X.
  - apply existsb_exists in X. destruct X as (u & Hu & Ku).
    rewrite (pds_loop_bad dt norm false n Hn segs []); auto.
    + destruct E0 as [E0|E0]; [rewrite E0 in Hu; destruct Hu|]. now rewrite Em.
    + exists u. split; [exact Hu|]. destruct (kind norm (err2 u)); [discriminate|reflexivity].
  - assert (K : forall u, In u us -> kind norm (err2 u) <> None).
    { intros u Hu Ku. assert (Y : existsb (fun u => match kind norm (err2 u) with None => true | Some _ => false end) us = true)
        by (apply existsb_exists; exists u; rewrite Ku; auto). rewrite Y in X. discriminate X. }
    rewrite (pds_loop dt norm false n Hn segs []) by auto.
    cbn [app bind]. fold us. destruct E0 as [E0|E0]; [rewrite E0; reflexivity|].
    assert (Eat : pds_at dt norm false n us = pds_after dt norm false n us) by (destruct us; [congruence|reflexivity]).
    rewrite Eat, Em by exact E0. cbn [pds_after ps_cross ps_unnorm ps_n_ave ps_n_bin ps_ph ps_var bind fst snd ps_freq ps_subcs ps_usubcs].
    assert (Ev : option_map (fun v => v / INR (length us)) (match present (map err2 us) with [] => None | vs => Some (rlsum vs) end) = mean_present (map err2 us)).
    { unfold mean_present. rewrite map_length. now destruct (present (map err2 us)). }
    rewrite Ev. fold (avg photons us). fold nph. rewrite !map_map.
    assert (Eo : forall u k, In u us -> contrib dt norm false u k = own u k).
    { intros u k Hu. unfold contrib, own, own_factor. rewrite (H2 u Hu). reflexivity. }
    do 2 f_equal. f_equal.
    + apply map_ext. intros k. unfold avg. do 2 f_equal. apply map_ext_in. intros u Hu. now apply Eo.
    + destruct subcs; [|reflexivity]. f_equal. apply map_ext_in. intros u Hu. apply map_ext. intros k. now apply Eo.
Qed.
