(* P_avgcs.v: the averaged cross spectrum *)
From Verif Require Import Np Cplx M_fourier S_fourier P_dft P_norm P_avg.
From Coq Require Import Lra.
Open Scope R_scope.

Lemma cross_map x y : length x = length y ->
  vmap2 cmul (map cconj (fft (map rtoc x))) (fft (map rtoc y)) = Ok (map (cross_at x y) (seq 0 (length x))).
Proof.
  intros E. rewrite !fft_map, map_map, <- E, vmap2_map. f_equal. apply map_ext. intros k.
  apply cx_eq; cbn; ring.
Qed.

Lemma re_clsum l : re (clsum l) = rlsum (map re l).
Proof. unfold clsum, rlsum. induction l as [|a l IH]; [reflexivity|]. cbn [fold_right map]. rewrite <- IH. reflexivity. Qed.
Lemma im_clsum l : im (clsum l) = rlsum (map im l).
Proof. unfold clsum, rlsum. induction l as [|a l IH]; [reflexivity|]. cbn [fold_right map]. rewrite <- IH. reflexivity. Qed.
Lemma cavg_clsum {A} (f : A -> cx) l : cscal (clsum (map f l)) (/ INR (length l)) = cavg f l.
Proof. unfold cavg, avg, Rdiv. apply cx_eq; cbn [cscal re im fst snd]; fold (re (clsum (map f l))) (im (clsum (map f l))); rewrite ?re_clsum, ?im_clsum, map_map; reflexivity. Qed.


Lemma err2_nonneg s v : err2 s = Some v -> 0 <= v.
Proof.
  unfold err2. destruct (s_err s); cbn; [|discriminate]. intros E.
  assert (v = avg (fun x => x) l * avg (fun x => x) l) by congruence. subst. nra.
Qed.
Lemma kind_parts norm a b : 0 <= a -> 0 <= b -> kind norm (Some (gmean a b)) <> None ->
  kind norm (Some a) <> None /\ kind norm (Some b) <> None.
Proof.
  intros Ha Hb. destruct norm; cbn [kind]; try (split; discriminate); [|tauto].
  intros H. unfold gmean in H. destruct (Req_EM_T (sqrt (a * b)) 0) as [E|E]; [congruence|].
  split; destruct (Req_EM_T _ 0) as [E1|E1]; try discriminate; intros _; apply E; subst;
    rewrite ?Rmult_0_l, ?Rmult_0_r; apply sqrt_0.
Qed.
Lemma pvar_parts norm p : kind norm (pvar p) <> None -> kind norm (pvar1 p) <> None /\ kind norm (pvar2 p) <> None.
Proof.
  unfold pvar, pvar1, pvar2, err2_pair. destruct (err2 (fst p)) eqn:E1, (err2 (snd p)) eqn:E2; cbn [option_map fst snd]; try tauto.
  apply kind_parts; eapply err2_nonneg; eassumption.
Qed.

Section Cs.
Variables (dt : R) (norm : normt) (common fullspec : bool) (pt : ptype) (auxil : bool) (n : nat).
Hypothesis Hn : (0 < n)%nat.
Let ks := bins fullspec n.
Definition own_c p k : cx := as_type pt (cscal (cpower p k) (fac norm (pvar p) dt n (pph p / INR n) (pph p))).
Definition own_1 p k : R := as_type_r pt (pow1 p k * fac norm (pvar1 p) dt n (photons (fst p) / INR n) (photons (fst p))).
Definition own_2 p k : R := as_type_r pt (pow2 p k * fac norm (pvar2 p) dt n (photons (snd p) / INR n) (photons (snd p))).
Definition con_c p k := if common then cpower p k else own_c p k.
Definition con_1 p k := if common || negb auxil then pow1 p k else own_1 p k.
Definition con_2 p k := if common || negb auxil then pow2 p k else own_2 p k.
Definition osum (l : list (option R)) : option R := match present l with [] => None | vs => Some (rlsum vs) end.
Definition csumk (f : seg * seg -> nat -> cx) us := map (fun k => clsum (map (fun p => f p k) us)) ks.
Definition rsumk (f : seg * seg -> nat -> R) us := map (fun k => rlsum (map (fun p => f p k) us)) ks.

Definition cs_after (us : list (seg * seg)) : cs_state :=
  {| st_cross := Some (csumk con_c us); st_unnorm := Some (csumk cpower us);
     st_upds1 := if auxil then Some (rsumk pow1 us) else None;
     st_upds2 := if auxil then Some (rsumk pow2 us) else None;
     st_pds1 := if auxil then Some (rsumk con_1 us) else None;
     st_pds2 := if auxil then Some (rsumk con_2 us) else None;
     st_n_ave := length us; st_ph1 := rlsum (map (fun p => photons (fst p)) us);
     st_ph2 := rlsum (map (fun p => photons (snd p)) us);
     st_var1 := osum (map pvar1 us); st_var2 := osum (map pvar2 us);
     st_fgt0 := positive_fft_bins n false; st_freq := fftfreq n dt; st_n_bin := n;
     st_subcs := map (fun p => map (con_c p) ks) us; st_usubcs := map (fun p => map (cpower p) ks) us |}.
Definition cs_at us := match us with [] => cs_init | _ => cs_after us end.

Lemma osum_snoc {A} (f : A -> option R) us u :
  match f u with Some v => Some (add_or_init1 (osum (map f us)) v) | None => osum (map f us) end
  = osum (map f (us ++ [u])).
Proof.
  unfold osum. rewrite map_app, present_app. cbn [map present flat_map app]. destruct (f u) as [v|]; cbn [app].
  - destruct (present (map f us)) as [|a l] eqn:E; [cbn; f_equal; ring|].
    cbn [app add_or_init1]. f_equal. change (a :: l ++ [v]) with ((a :: l) ++ [v]). rewrite rlsum_app. cbn. ring.
  - rewrite app_nil_r. reflexivity.
Qed.
Lemma csumk_snoc f us p : vmap2 cadd (csumk f us) (map (f p) ks) = Ok (csumk f (us ++ [p])).
Proof.
  unfold csumk. rewrite vmap2_map. f_equal. apply map_ext. intros k. rewrite map_app, clsum_app.
  cbn [map]. f_equal. apply cx_eq; cbn; ring.
Qed.
Lemma csumk_one f p : map (f p) ks = csumk f [p].
Proof. unfold csumk. apply map_ext. intros k. cbn [map]. apply cx_eq; cbn; ring. Qed.
Lemma rsumk_snoc f us p : vmap2 Rplus (rsumk f us) (map (f p) ks) = Ok (rsumk f (us ++ [p])).
Proof. unfold rsumk. rewrite vmap2_map. f_equal. apply map_ext. intros k. now rewrite sum_snoc. Qed.
Lemma rsumk_one f p : map (f p) ks = rsumk f [p].
Proof. unfold rsumk. apply map_ext. intros k. cbn. ring. Qed.

Lemma with_type_c l : bad_type pt = false ->
  with_ptype creal cabsl pt (Ok l) = Ok (map (as_type pt) l).
Proof. destruct pt; intros E; cbn; try discriminate; try reflexivity. now rewrite map_id. Qed.
Lemma with_type_r l : bad_type pt = false ->
  with_ptype (fun l => l) rabsl pt (Ok l) = Ok (map (as_type_r pt) l).
Proof. destruct pt; intros E; cbn; try discriminate; try reflexivity; now rewrite map_id. Qed.

Lemma norm_c l mean nph var : bad_type pt = false -> kind norm var <> None ->
  with_ptype creal cabsl pt (normalize cmulr l dt n (Some mean) (Some nph) var 0 norm)
  = Ok (map (fun z => as_type pt (cscal z (fac norm var dt n mean nph))) l).
Proof.
  intros T K. rewrite (norm_factor cmulr cmulr_mul cmulr_1). unfold fac. destruct (kind norm var); [|congruence].
  rewrite with_type_c by exact T. unfold cmulr. now rewrite map_map.
Qed.
Lemma norm_r l mean nph var : bad_type pt = false -> kind norm var <> None ->
  with_ptype (fun l => l) rabsl pt (normalize rmul l dt n (Some mean) (Some nph) var 0 norm)
  = Ok (map (fun z => as_type_r pt (z * fac norm var dt n mean nph)) l).
Proof.
  intros T K. rewrite (norm_factor rmul rmul_mul rmul_1). unfold fac. destruct (kind norm var); [|congruence].
  rewrite with_type_r by exact T. unfold rmul. now rewrite map_map.
Qed.
Lemma norm_c_bad l mean nph var : bad_type pt = true \/ kind norm var = None ->
  with_ptype creal cabsl pt (normalize cmulr l dt n (Some mean) (Some nph) var 0 norm) = Err ValueError.
Proof.
  rewrite (norm_factor cmulr cmulr_mul cmulr_1). intros [T|K].
  - destruct (kind norm var); [|reflexivity]. destruct pt; try discriminate. reflexivity.
  - rewrite K. reflexivity.
Qed.

Lemma pick_ks {A} (f : nat -> A) : (if fullspec then map f (seq 0 n) else cut (map f (seq 0 n)) (positive_fft_bins n false)) = map f ks.
Proof. unfold ks, bins. destruct fullspec; [reflexivity|]. now rewrite cut_pos. Qed.

Lemma cs_step_use us s1 s2 : length (s_flux s1) = n -> length (s_flux s2) = n ->
  all_zero s1 = false -> all_zero s2 = false ->
  (common = false -> kind norm (pvar (s1, s2)) <> None /\ bad_type pt = false) ->
  cs_step dt norm common fullspec pt auxil (cs_at us) (Some s1, Some s2) = Ok (cs_at (us ++ [(s1, s2)])).
Proof.
  intros L1 L2 Z1 Z2 Hk. set (p := (s1, s2)). unfold cs_step. rewrite Z1, Z2. cbn [orb].
  rewrite cross_map by congruence. cbn [bind].
  fold (powers (s_flux s1)) (powers (s_flux s2)). rewrite !powers_map, L1, L2.
  assert (Ef : (match st_cross (cs_at us) with None => positive_fft_bins n false | Some _ => st_fgt0 (cs_at us) end)
                = positive_fft_bins n false) by (destruct us; reflexivity).
  assert (Eq : (match st_cross (cs_at us) with None => fftfreq n dt | Some _ => st_freq (cs_at us) end)
                = fftfreq n dt) by (destruct us; reflexivity).
  rewrite Ef, Eq. rewrite !pick_ks.
  change (map (cross_at (s_flux s1) (s_flux s2)) ks) with (map (cpower p) ks).
  change (map (power_at (s_flux s1)) ks) with (map (pow1 p) ks).
  change (map (power_at (s_flux s2)) ks) with (map (pow2 p) ks).
  assert (Evs : (match seg_var s1, seg_var s2 with Some v1, Some v2 => Some (v1, v2) | _, _ => None end) = err2_pair p).
  { rewrite !seg_var_err2. reflexivity. }
  rewrite Evs.
  assert (E2 : (if common then Ok (map (cpower p) ks) else with_ptype creal cabsl pt
                (normalize cmulr (map (cpower p) ks) dt n (Some (sqrt (rlsum (s_flux s1) * rlsum (s_flux s2)) / INR n))
                   (Some (sqrt (rlsum (s_flux s1) * rlsum (s_flux s2))))
                   (option_map (fun v => sqrt (fst v * snd v)) (err2_pair p)) 0 norm)) = Ok (map (con_c p) ks)).
  { unfold con_c. destruct common; [reflexivity|]. destruct (Hk eq_refl) as [K T].
    rewrite norm_c by assumption. rewrite map_map. reflexivity. }
  rewrite E2. cbn [bind].
  assert (E3 : (if common || negb auxil then Ok (map (pow1 p) ks) else with_ptype (fun l => l) rabsl pt
                (normalize rmul (map (pow1 p) ks) dt n (Some (rlsum (s_flux s1) / INR n))
                   (Some (rlsum (s_flux s1))) (option_map fst (err2_pair p)) 0 norm)) = Ok (map (con_1 p) ks)).
  { unfold con_1. destruct common; [reflexivity|]. destruct auxil; [|reflexivity]. destruct (Hk eq_refl) as [K T].
    apply pvar_parts in K. cbn [orb negb]. rewrite norm_r by tauto. rewrite map_map. reflexivity. }
  assert (E4 : (if common || negb auxil then Ok (map (pow2 p) ks) else with_ptype (fun l => l) rabsl pt
                (normalize rmul (map (pow2 p) ks) dt n (Some (rlsum (s_flux s2) / INR n))
                   (Some (rlsum (s_flux s2))) (option_map snd (err2_pair p)) 0 norm)) = Ok (map (con_2 p) ks)).
  { unfold con_2. destruct common; [reflexivity|]. destruct auxil; [|reflexivity]. destruct (Hk eq_refl) as [K T].
    apply pvar_parts in K. cbn [orb negb]. rewrite norm_r by tauto. rewrite map_map. reflexivity. }
  rewrite E3. cbn [bind]. rewrite E4. cbn [bind].
  assert (A1 : forall f, (forall us, st_cross (cs_after us) = Some (csumk f us)) ->
     add_or_init cadd (st_cross (cs_at us)) (map (f p) ks) = Ok (csumk f (us ++ [p]))).
  { intros f Hf. destruct us as [|a l]; [cbn [cs_at cs_init st_cross add_or_init app]; now rewrite csumk_one|].
    cbn [cs_at]. rewrite Hf. cbn [add_or_init]. apply csumk_snoc. }
  rewrite (A1 con_c) by reflexivity. cbn [bind].
  assert (A2 : add_or_init cadd (st_unnorm (cs_at us)) (map (cpower p) ks) = Ok (csumk cpower (us ++ [p]))).
  { destruct us as [|a l]; [cbn [cs_at cs_init st_unnorm add_or_init app]; now rewrite csumk_one|].
    cbn [cs_at cs_after st_unnorm add_or_init]. apply csumk_snoc. }
  rewrite A2. cbn [bind].
  assert (A3 : forall f o, (us = [] -> o = None) -> (us <> [] -> o = Some (rsumk f us)) ->
     add_or_init Rplus o (map (f p) ks) = Ok (rsumk f (us ++ [p]))).
  { intros f o H1 H2. destruct us as [|a l]; [rewrite H1 by reflexivity; cbn [add_or_init app]; now rewrite rsumk_one|].
    rewrite H2 by congruence. cbn [add_or_init]. apply rsumk_snoc. }
  assert (A4 : (if auxil then
                   let! u1 := add_or_init Rplus (st_upds1 (cs_at us)) (map (pow1 p) ks) in
                   let! u2 := add_or_init Rplus (st_upds2 (cs_at us)) (map (pow2 p) ks) in
                   let! p1 := add_or_init Rplus (st_pds1 (cs_at us)) (map (con_1 p) ks) in
                   let! p2 := add_or_init Rplus (st_pds2 (cs_at us)) (map (con_2 p) ks) in
                   Ok (Some u1, Some u2, (Some p1, Some p2))
                 else Ok (None, None, (None, None))) =
     Ok (if auxil then Some (rsumk pow1 (us ++ [p])) else None, if auxil then Some (rsumk pow2 (us ++ [p])) else None,
         (if auxil then Some (rsumk con_1 (us ++ [p])) else None, if auxil then Some (rsumk con_2 (us ++ [p])) else None))).
  { destruct auxil eqn:EA; [|reflexivity].
    rewrite (A3 pow1), (A3 pow2), (A3 con_1), (A3 con_2); [reflexivity|..];
      intros HU; destruct us; try congruence; cbn [cs_at cs_init cs_after st_upds1 st_upds2 st_pds1 st_pds2]; rewrite ?EA; reflexivity. }
  rewrite A4. cbn [bind fst snd].
  assert (E5 : cs_at (us ++ [p]) = cs_after (us ++ [p])) by (destruct us; reflexivity).
  rewrite E5. unfold cs_after. f_equal. rewrite app_length. cbn [length].
  f_equal.
  - destruct us; cbn [cs_at cs_init cs_after st_n_ave length]; lia.
  - rewrite sum_snoc. destruct us; cbn [cs_at cs_init cs_after st_ph1]; reflexivity.
  - rewrite sum_snoc. destruct us; cbn [cs_at cs_init cs_after st_ph2]; reflexivity.
  - rewrite <- osum_snoc. unfold pvar1 at 1. destruct us; destruct (err2_pair p); reflexivity.
  - rewrite <- osum_snoc. unfold pvar2 at 1. destruct us; destruct (err2_pair p); reflexivity.
  - destruct us; [reflexivity|]. cbn [cs_at cs_after st_subcs]. rewrite map_app. reflexivity.
  - destruct us; [reflexivity|]. cbn [cs_at cs_after st_usubcs]. rewrite map_app. reflexivity.
Qed.

Lemma cs_step_bad us s1 s2 : length (s_flux s1) = n -> length (s_flux s2) = n ->
  all_zero s1 = false -> all_zero s2 = false -> common = false ->
  kind norm (pvar (s1, s2)) = None \/ bad_type pt = true ->
  cs_step dt norm common fullspec pt auxil (cs_at us) (Some s1, Some s2) = Err ValueError.
Proof.
  intros L1 L2 Z1 Z2 Hc Hk. unfold cs_step. rewrite Z1, Z2. cbn [orb].
  rewrite cross_map by congruence. cbn [bind]. rewrite Hc, L1.
  assert (Evs : (match seg_var s1, seg_var s2 with Some v1, Some v2 => Some (v1, v2) | _, _ => None end) = err2_pair (s1, s2)).
  { rewrite !seg_var_err2. reflexivity. }
  rewrite Evs. rewrite norm_c_bad; [reflexivity|]. tauto.
Qed.

Definition tuples_ok (l : list (option seg * option seg)) : Prop :=
  forall s1 s2, In (Some s1, Some s2) l ->
    (s_err s1 <> None -> nonzero s1 = true) /\ (s_err s2 <> None -> nonzero s2 = true).
Definition use_pairs (l : list (option seg * option seg)) : list (seg * seg) :=
  flat_map (fun o => match o with
                     | (Some s1, Some s2) => if nonzero s1 && nonzero s2 then [(s1, s2)] else []
                     | _ => []
                     end) l.
Definition good_pair (p : seg * seg) : Prop := kind norm (pvar p) <> None /\ bad_type pt = false.

Lemma cs_loop l us :
  tuples_ok l -> (forall p, In p (use_pairs l) -> length (s_flux (fst p)) = n /\ length (s_flux (snd p)) = n) ->
  (common = false -> forall p, In p (use_pairs l) -> good_pair p) ->
  loop (cs_step dt norm common fullspec pt auxil) (cs_at us) l = Ok (cs_at (us ++ use_pairs l)).
Proof.
  revert us. induction l as [|o l IH]; intros us H1 H2 H3.
  - cbn. now rewrite app_nil_r.
  - cbn [loop].
    assert (H1' : tuples_ok l) by (intros s1 s2 Hs; apply H1; now right).
    assert (H2' : forall p, In p (use_pairs l) -> length (s_flux (fst p)) = n /\ length (s_flux (snd p)) = n)
      by (intros; apply H2; unfold use_pairs; cbn [flat_map]; apply in_or_app; now right).
    assert (H3' : common = false -> forall p, In p (use_pairs l) -> good_pair p)
      by (intros; apply H3; [assumption|]; unfold use_pairs; cbn [flat_map]; apply in_or_app; now right).
    destruct o as [[s1|] [s2|]]; try (cbn [cs_step bind]; unfold use_pairs; cbn [flat_map app]; fold (use_pairs l); now apply IH).
    destruct (H1 s1 s2 ltac:(now left)) as [T1 T2].
    pose proof (all_zero_spec s1 T1) as Z1. pose proof (all_zero_spec s2 T2) as Z2.
    unfold use_pairs. cbn [flat_map]. fold (use_pairs l).
    destruct (nonzero s1 && nonzero s2)%bool eqn:E.
    + apply andb_true_iff in E. destruct E as [E1 E2]. rewrite E1 in Z1. rewrite E2 in Z2. cbn [negb] in *.
      assert (I : In (s1, s2) (use_pairs ((Some s1, Some s2) :: l))).
      { unfold use_pairs. cbn [flat_map]. rewrite E1, E2. now left. }
      rewrite cs_step_use; cbn [bind]; try assumption.
      * rewrite IH by assumption. rewrite <- app_assoc. reflexivity.
      * now apply (H2 _ I).
      * now apply (H2 _ I).
      * intros C. now apply (H3 C).
    + unfold cs_step. rewrite Z1, Z2, <- negb_andb, E. cbn [negb bind app]. now apply IH.
Qed.

Lemma cs_loop_bad l us :
  tuples_ok l -> (forall p, In p (use_pairs l) -> length (s_flux (fst p)) = n /\ length (s_flux (snd p)) = n) ->
  common = false -> (exists p, In p (use_pairs l) /\ (kind norm (pvar p) = None \/ bad_type pt = true)) ->
  loop (cs_step dt norm common fullspec pt auxil) (cs_at us) l = Err ValueError.
Proof.
  revert us. induction l as [|o l IH]; intros us H1 H2 HC H3.
  - destruct H3 as (p & [] & _).
  - cbn [loop].
    assert (H1' : tuples_ok l) by (intros s1 s2 Hs; apply H1; now right).
    assert (H2' : forall p, In p (use_pairs l) -> length (s_flux (fst p)) = n /\ length (s_flux (snd p)) = n)
      by (intros; apply H2; unfold use_pairs; cbn [flat_map]; apply in_or_app; now right).
    destruct o as [[s1|] [s2|]]; try (cbn [cs_step bind]; now apply IH).
    destruct (H1 s1 s2 ltac:(now left)) as [T1 T2].
    pose proof (all_zero_spec s1 T1) as Z1. pose proof (all_zero_spec s2 T2) as Z2.
    unfold use_pairs in H3. cbn [flat_map] in H3. fold (use_pairs l) in H3.
    destruct (nonzero s1 && nonzero s2)%bool eqn:E.
    + apply andb_true_iff in E. destruct E as [E1 E2]. rewrite E1 in Z1. rewrite E2 in Z2. cbn [negb] in *.
      assert (I : In (s1, s2) (use_pairs ((Some s1, Some s2) :: l))).
      { unfold use_pairs. cbn [flat_map]. rewrite E1, E2. now left. }
      destruct (H2 _ I) as [L1 L2]. cbn [fst snd] in L1, L2.
      assert (D : (kind norm (pvar (s1, s2)) = None \/ bad_type pt = true) \/ good_pair (s1, s2)).
      { unfold good_pair. destruct (kind norm (pvar (s1, s2))); [|left; now left].
        destruct (bad_type pt); [left; now right|]. right. split; congruence. }
      destruct D as [D|D].
      * now rewrite cs_step_bad.
      * rewrite cs_step_use; cbn [bind]; try assumption; [|intros _; exact D]. apply IH; try assumption.
        destruct H3 as (p & Hp & Kp). destruct Hp as [ <- |Hp]; [destruct D; destruct Kp; congruence|]. now exists p.
    + unfold cs_step. rewrite Z1, Z2, <- negb_andb, E. cbn [negb bind]. apply IH; assumption.
Qed.
End Cs.

Lemma osum_mean {A} (f : A -> option R) us : option_map (fun v => v / INR (length us)) (osum (map f us)) = mean_present (map f us).
Proof. unfold osum, mean_present. rewrite map_length. now destruct (present (map f us)). Qed.
Lemma present_map_some {A B} (f : A -> B) (l : list (option A)) : present (map (option_map f) l) = map f (present l).
Proof. induction l as [|[a|] l IH]; cbn; [reflexivity| |exact IH]. f_equal. exact IH. Qed.
Lemma mean_present_pair us :
  (exists a b, mean_present (map pvar1 us) = Some a /\ mean_present (map pvar2 us) = Some b /\ 0 <= a /\ 0 <= b) \/
  (mean_present (map pvar1 us) = None /\ mean_present (map pvar2 us) = None).
Proof.
  assert (E1 : map pvar1 us = map (option_map fst) (map err2_pair us)) by (rewrite map_map; reflexivity).
  assert (E2 : map pvar2 us = map (option_map snd) (map err2_pair us)) by (rewrite map_map; reflexivity).
  assert (NN : forall v, In v (present (map err2_pair us)) -> 0 <= fst v /\ 0 <= snd v).
  { intros v Hv. unfold present in Hv. apply in_flat_map in Hv. destruct Hv as (o & Ho & Hv).
    destruct o as [w|]; [|destruct Hv]. destruct Hv as [ <- |[]]. apply in_map_iff in Ho. destruct Ho as (p & Hp & _).
    unfold err2_pair in Hp. destruct (err2 (fst p)) eqn:A, (err2 (snd p)) eqn:B; try discriminate.
    apply err2_nonneg in A. apply err2_nonneg in B. assert (w = (r, r0)) by congruence. subst w. now split. }
  assert (P : forall l, (forall x, In x l -> 0 <= x) -> 0 <= rlsum l).
  { unfold rlsum. induction l as [|x l IH]; intros H; cbn; [lra|]. pose proof (H x ltac:(now left)).
    assert (0 <= fold_right Rplus 0 l) by (apply IH; intros; apply H; now right). lra. }
  assert (Q : forall l (k : nat), (forall x, In x l -> 0 <= x) -> 0 <= rlsum l / INR k).
  { intros l k H. unfold Rdiv. destruct k as [|k]; [cbn; rewrite Rinv_0; lra|].
    apply Rmult_le_pos; [now apply P|]. apply Rlt_le, Rinv_0_lt_compat, lt_0_INR. lia. }
  unfold mean_present. rewrite E1, E2, !present_map_some, !map_length.
  destruct (present (map err2_pair us)) as [|v l]; [now right|]. left.
  eexists. eexists. split; [reflexivity|]. split; [reflexivity|].
  split; apply Q; intros x Hx; [change (In x (map fst (v :: l))) in Hx|change (In x (map snd (v :: l))) in Hx];
    apply in_map_iff in Hx; destruct Hx as (w & <- & Hw); apply NN; exact Hw.
Qed.
Lemma kind_gmean norm us : kind norm (gmean_opt (mean_present (map pvar1 us)) (mean_present (map pvar2 us))) <> None ->
  kind norm (mean_present (map pvar1 us)) <> None /\ kind norm (mean_present (map pvar2 us)) <> None.
Proof.
  destruct (mean_present_pair us) as [(a & b & -> & -> & Ha & Hb)|(-> & ->)]; cbn [gmean_opt]; [|tauto].
  now apply kind_parts.
Qed.
Lemma use_pairs_eq segs1 segs2 : use_pairs (combine segs1 segs2) = usable2 segs1 segs2.
Proof. reflexivity. Qed.
Lemma tuples_combine segs1 segs2 : tuples_nonzero segs1 -> tuples_nonzero segs2 -> tuples_ok (combine segs1 segs2).
Proof. intros H1 H2 s1 s2 H. split; [apply H1; eapply in_combine_l; eassumption|apply H2; eapply in_combine_r; eassumption]. Qed.
Lemma mapr_ok {A B} (f : A -> result B) (g : A -> B) l : (forall a, f a = Ok (g a)) -> mapr f l = Ok (map g l).
Proof. intros H. induction l as [|a l IH]; [reflexivity|]. cbn. rewrite H, IH. reflexivity. Qed.
Lemma cut_freq (fullspec : bool) n dt : (0 < n)%nat ->
  (if fullspec then fftfreq n dt else cut (fftfreq n dt) (positive_fft_bins n false)) = map (bin_freq n dt) (bins fullspec n).
Proof. intros H. rewrite fftfreq_map by exact H. unfold bins. destruct fullspec; [reflexivity|]. now rewrite cut_pos. Qed.
Lemma cmulr_csumk (fullspec : bool) n f (us : list (seg * seg)) :
  cmulr (csumk fullspec n f us) (/ INR (length us)) = map (fun k => cavg (fun p => f p k) us) (bins fullspec n).
Proof. unfold cmulr, csumk. rewrite map_map. apply map_ext. intros k. apply cavg_clsum. Qed.
Lemma rmul_rsumk (fullspec : bool) n f (us : list (seg * seg)) :
  rmul (rsumk fullspec n f us) (/ INR (length us)) = map (fun k => avg (fun p => f p k) us) (bins fullspec n).
Proof. unfold rmul, rsumk. rewrite map_map. reflexivity. Qed.

(* the averaged cross spectrum, normalized with the common mean *)
Lemma avg_cs_common segs1 segs2 dt norm (fullspec : bool) pt (auxil subcs : bool) n : (0 < n)%nat ->
  tuples_nonzero segs1 -> tuples_nonzero segs2 ->
  let us := usable2 segs1 segs2 in
  (forall p, In p us -> length (s_flux (fst p)) = n /\ length (s_flux (snd p)) = n) ->
  let ks := bins fullspec n in
  let nph1 := avg (fun p => photons (fst p)) us in
  let nph2 := avg (fun p => photons (snd p)) us in
  let nph := gmean nph1 nph2 in
  let var1 := mean_present (map pvar1 us) in
  let var2 := mean_present (map pvar2 us) in
  let var := gmean_opt var1 var2 in
  let unnorm k := cavg (fun p => cpower p k) us in
  let upds1 k := avg (fun p => pow1 p k) us in
  let upds2 k := avg (fun p => pow2 p k) us in
  let scale z := as_type pt (cscal z (fac norm var dt n (nph / INR n) nph)) in
  avg_cs segs1 segs2 dt norm true fullspec pt auxil subcs =
  match us with
  | [] => Ok None
  | _ =>
    if (refused norm var || bad_type pt)%bool then Err ValueError
    else Ok (Some {|
      c_freq := map (bin_freq n dt) ks;
      c_power := map (fun k => scale (unnorm k)) ks; c_unnorm := map unnorm ks;
      c_n := n; c_m := length us; c_dt := dt; c_norm := norm; c_df := 1 / (dt * INR n);
      c_segment_size := dt * INR n; c_nphots := nph; c_nphots1 := nph1; c_nphots2 := nph2;
      c_mean := nph / INR n; c_mean1 := nph1 / INR n; c_mean2 := nph2 / INR n;
      c_variance := var; c_variance1 := var1; c_variance2 := var2;
      c_auxil := if auxil then
         Some (map (fun k => as_type_r pt (upds1 k * fac norm var1 dt n (nph1 / INR n) nph1)) ks,
               map (fun k => as_type_r pt (upds2 k * fac norm var2 dt n (nph2 / INR n) nph2)) ks,
               (map upds1 ks, map upds2 ks)) else None;
      c_subcs := if subcs then
         Some (map (fun p => map (fun k => scale (cpower p k)) ks) us, map (fun p => map (cpower p) ks) us)
         else None |})
  end.
Proof.
  intros Hn T1 T2 us H2 ks nph1 nph2 nph var1 var2 var unnorm upds1 upds2 scale. unfold avg_cs.
  change cs_init with (cs_at dt norm true fullspec pt auxil n []).
  rewrite (cs_loop dt norm true fullspec pt auxil n Hn (combine segs1 segs2) [])
    by (try exact H2; try (now apply tuples_combine); congruence).
  rewrite use_pairs_eq. cbn [app bind]. fold us.
  assert (E0 : us = [] \/ us <> []) by (destruct us; [now left|right; congruence]).
  destruct E0 as [E0|E0]; [rewrite E0; reflexivity|].
  assert (Eat : cs_at dt norm true fullspec pt auxil n us = cs_after dt norm true fullspec pt auxil n us) by (destruct us; [congruence|reflexivity]).
  assert (Em : forall {B} (x y : B), match us with [] => x | _ => y end = y) by (intros; destruct us; [congruence|reflexivity]).
  rewrite Eat, Em. cbn [cs_after st_cross st_unnorm st_n_ave st_n_bin st_ph1 st_ph2 st_var1 st_var2 st_upds1 st_upds2 st_pds1 st_pds2 st_usubcs st_subcs st_freq st_fgt0].
  rewrite !osum_mean. fold var1 var2. fold (avg (fun p : seg * seg => photons (fst p)) us) (avg (fun p : seg * seg => photons (snd p)) us).
  fold nph1 nph2. change (sqrt (nph1 * nph2)) with nph.
  change (match var1, var2 with Some v1, Some v2 => Some (sqrt (v1 * v2)) | _, _ => None end) with var.
  rewrite !cmulr_csumk, cut_freq by exact Hn. fold ks.
  assert (D : (refused norm var || bad_type pt)%bool = true /\ (bad_type pt = true \/ kind norm var = None) \/
              (refused norm var || bad_type pt)%bool = false /\ bad_type pt = false /\ kind norm var <> None).
  { unfold refused. destruct (kind norm var), (bad_type pt); cbn; intuition congruence. }
  destruct D as [[-> D]|[-> [D1 D2]]].
  - (* refused *)
    assert (X : forall (a : result (option (list R * list R * (list R * list R)))), (forall e, a = Err e -> e = ValueError) ->
      bind a (fun aux => bind (with_ptype creal cabsl pt (normalize cmulr (map unnorm ks) dt n (Some (nph / INR n)) (Some nph) var 0 norm))
        (fun power => bind
           (if subcs then bind (mapr (fun p => with_ptype creal cabsl pt (normalize cmulr p dt n (Some (nph / INR n)) (Some nph) var 0 norm))
                 (map (fun p => map (cpower p) ks) us)) (fun l => Ok (Some (l, map (fun p => map (cpower p) ks) us)))
            else Ok None)
           (fun subs => Ok (Some {| c_freq := map (bin_freq n dt) ks; c_power := power; c_unnorm := map unnorm ks; c_n := n;
                  c_m := length us; c_dt := dt; c_norm := norm; c_df := 1 / (dt * INR n);
                  c_segment_size := dt * INR n; c_nphots := nph; c_nphots1 := nph1;
                  c_nphots2 := nph2; c_mean := nph / INR n; c_mean1 := nph1 / INR n; c_mean2 := nph2 / INR n;
                  c_variance := var; c_variance1 := var1; c_variance2 := var2;
                  c_auxil := aux; c_subcs := subs |})))) = Err ValueError).
    { intros a Ha. destruct a as [a|e]; cbn [bind]; [|now rewrite (Ha e eq_refl)].
      rewrite norm_c_bad by exact D. reflexivity. }
    apply X. intros e He. destruct auxil; [|discriminate].
    assert (NR : forall l m p v x, with_ptype (fun l => l) rabsl pt (normalize rmul l dt n (Some m) (Some p) v 0 norm) = Err x -> x = ValueError).
    { intros l m p v x. rewrite (norm_factor rmul rmul_mul rmul_1). destruct (kind norm v); cbn; [|congruence]. destruct pt; congruence. }
    match type of He with bind ?A _ = _ => destruct A as [x1|e1] eqn:A1 end; cbn [bind] in He.
    2:{ apply NR in A1. congruence. }
    match type of He with bind ?A _ = _ => destruct A as [x2|e2] eqn:A2 end; cbn [bind] in He; [discriminate|].
    apply NR in A2. congruence.
  - destruct (kind_gmean norm us D2) as [K1 K2]. fold var1 in K1. fold var2 in K2.
    rewrite norm_c by assumption.
    rewrite (mapr_ok _ (map scale)) by (intros a; rewrite norm_c by assumption; reflexivity).
    assert (Ea : (match (if auxil then Some (rsumk fullspec n pow1 us) else None), (if auxil then Some (rsumk fullspec n pow2 us) else None),
                        (if auxil then Some (rsumk fullspec n (con_1 dt norm true pt auxil n) us) else None),
                        (if auxil then Some (rsumk fullspec n (con_2 dt norm true pt auxil n) us) else None) with
        | Some u1, Some u2, Some p1, Some p2 =>
            let! p1 := with_ptype (fun l => l) rabsl pt
                           (normalize rmul (rmul u1 (/ INR (length us))) dt n (Some (nph1 / INR n)) (Some nph1) var1 0 norm) in
            let! p2 := with_ptype (fun l => l) rabsl pt
                           (normalize rmul (rmul u2 (/ INR (length us))) dt n (Some (nph2 / INR n)) (Some nph2) var2 0 norm) in
            Ok (Some (p1, p2, (rmul u1 (/ INR (length us)), rmul u2 (/ INR (length us)))))
        | _, _, _, _ => Ok None
        end) = Ok (if auxil then
         Some (map (fun k => as_type_r pt (upds1 k * fac norm var1 dt n (nph1 / INR n) nph1)) ks,
               map (fun k => as_type_r pt (upds2 k * fac norm var2 dt n (nph2 / INR n) nph2)) ks,
               (map upds1 ks, map upds2 ks)) else None)).
    { destruct auxil; [|reflexivity]. rewrite !rmul_rsumk. fold ks.
      rewrite !norm_r by assumption. cbn [bind]. rewrite !map_map. reflexivity. }
    rewrite Ea. cbn [bind]. destruct subcs; cbn [bind]; do 2 f_equal; f_equal; rewrite ?map_map; try reflexivity.
    f_equal. f_equal. apply map_ext. intros p. rewrite map_map. reflexivity.
Qed.

(* the averaged cross spectrum, normalized pair by pair *)
Lemma avg_cs_own segs1 segs2 dt norm (fullspec : bool) pt (auxil subcs : bool) n : (0 < n)%nat ->
  tuples_nonzero segs1 -> tuples_nonzero segs2 ->
  let us := usable2 segs1 segs2 in
  (forall p, In p us -> length (s_flux (fst p)) = n /\ length (s_flux (snd p)) = n) ->
  let ks := bins fullspec n in
  let nph1 := avg (fun p => photons (fst p)) us in
  let nph2 := avg (fun p => photons (snd p)) us in
  let nph := gmean nph1 nph2 in
  let var1 := mean_present (map pvar1 us) in
  let var2 := mean_present (map pvar2 us) in
  let own p k := as_type pt (cscal (cpower p k) (fac norm (pvar p) dt n (pph p / INR n) (pph p))) in
  let own1 p k := as_type_r pt (pow1 p k * fac norm (pvar1 p) dt n (photons (fst p) / INR n) (photons (fst p))) in
  let own2 p k := as_type_r pt (pow2 p k * fac norm (pvar2 p) dt n (photons (snd p) / INR n) (photons (snd p))) in
  avg_cs segs1 segs2 dt norm false fullspec pt auxil subcs =
  match us with
  | [] => Ok None
  | _ =>
    if existsb (fun p => refused norm (pvar p) || bad_type pt)%bool us then Err ValueError
    else Ok (Some {|
      c_freq := map (bin_freq n dt) ks;
      c_power := map (fun k => cavg (fun p => own p k) us) ks;
      c_unnorm := map (fun k => cavg (fun p => cpower p k) us) ks;
      c_n := n; c_m := length us; c_dt := dt; c_norm := norm; c_df := 1 / (dt * INR n);
      c_segment_size := dt * INR n; c_nphots := nph; c_nphots1 := nph1; c_nphots2 := nph2;
      c_mean := nph / INR n; c_mean1 := nph1 / INR n; c_mean2 := nph2 / INR n;
      c_variance := gmean_opt var1 var2; c_variance1 := var1; c_variance2 := var2;
      c_auxil := if auxil then
         Some (map (fun k => rlsum (map (fun p => own1 p k) us)) ks,
               map (fun k => rlsum (map (fun p => own2 p k) us)) ks,
               (map (fun k => avg (fun p => pow1 p k) us) ks, map (fun k => avg (fun p => pow2 p k) us) ks)) else None;
      c_subcs := if subcs then
         Some (map (fun p => map (own p) ks) us, map (fun p => map (cpower p) ks) us)
         else None |})
  end.
Proof.
  intros Hn T1 T2 us H2 ks nph1 nph2 nph var1 var2 own own1 own2. unfold avg_cs.
  change cs_init with (cs_at dt norm false fullspec pt auxil n []).
  assert (E0 : us = [] \/ us <> []) by (destruct us; [now left|right; congruence]).
  destruct (existsb (fun p => refused norm (pvar p) || bad_type pt)%bool us) eqn:X.
  - apply existsb_exists in X. destruct X as (u & Hu & Ku).
    rewrite (cs_loop_bad dt norm false fullspec pt auxil n Hn (combine segs1 segs2) []);
      try exact H2; try (now apply tuples_combine); try reflexivity.
    + cbn [bind]. destruct us; [destruct Hu|reflexivity].
    + exists u. split; [exact Hu|]. unfold refused in Ku. destruct (kind norm (pvar u)); [|now left].
      right. destruct (bad_type pt); [reflexivity|discriminate].
  - assert (K : forall u, In u us -> good_pair norm pt u).
    { intros u Hu. unfold good_pair.
      destruct (refused norm (pvar u) || bad_type pt)%bool eqn:Y.
      - assert (Z : existsb (fun p => refused norm (pvar p) || bad_type pt)%bool us = true)
          by (apply existsb_exists; exists u; auto). rewrite Z in X. discriminate X.
      - apply orb_false_iff in Y. destruct Y as [Y1 Y2]. split; [|exact Y2].
        unfold refused in Y1. destruct (kind norm (pvar u)); congruence. }
    rewrite (cs_loop dt norm false fullspec pt auxil n Hn (combine segs1 segs2) [])
      by (try exact H2; try (now apply tuples_combine); try (intros _; exact K)).
    rewrite use_pairs_eq. cbn [app bind]. fold us.
    destruct E0 as [E0|E0]; [rewrite E0; reflexivity|].
    assert (Eat : cs_at dt norm false fullspec pt auxil n us = cs_after dt norm false fullspec pt auxil n us) by (destruct us; [congruence|reflexivity]).
    assert (Em : forall {B} (x y : B), match us with [] => x | _ => y end = y) by (intros; destruct us; [congruence|reflexivity]).
    rewrite Eat, Em. cbn [cs_after st_cross st_unnorm st_n_ave st_n_bin st_ph1 st_ph2 st_var1 st_var2 st_upds1 st_upds2 st_pds1 st_pds2 st_usubcs st_subcs st_freq st_fgt0].
    rewrite !osum_mean. fold var1 var2. fold (avg (fun p : seg * seg => photons (fst p)) us) (avg (fun p : seg * seg => photons (snd p)) us).
    fold nph1 nph2. change (sqrt (nph1 * nph2)) with nph.
    change (match var1, var2 with Some v1, Some v2 => Some (sqrt (v1 * v2)) | _, _ => None end) with (gmean_opt var1 var2).
    rewrite !cmulr_csumk, cut_freq by exact Hn. fold ks.
    destruct auxil; [rewrite !rmul_rsumk; fold ks|]; cbn [bind]; destruct subcs; cbn [bind]; reflexivity.
Qed.
