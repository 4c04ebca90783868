(* P_avg2.v: the quick averaging function; where averaging goes wrong *)
From Verif Require Import Np Cplx M_fourier S_fourier P_dft P_norm P_avg P_avgcs P_spec P_self.
From Coq Require Import Lra.
Open Scope R_scope.

(* ---- avg_cs_from_iterables_quick = avg_cs_from_iterables ---- *)
Definition plain (segs : list (option seg)) : Prop := forall s, In (Some s) segs -> s_err s = None.
Definition qsim (q : quick_state) (st : cs_state) : Prop :=
  q_unnorm q = st_unnorm st /\ q_unnorm q = st_cross st /\ q_n_ave q = st_n_ave st /\ q_ph1 q = st_ph1 st /\
  q_ph2 q = st_ph2 st /\ q_fgt0 q = st_fgt0 st /\ q_freq q = st_freq st /\ q_n_bin q = st_n_bin st /\
  st_var1 st = None /\ st_var2 st = None /\ st_upds1 st = None /\ st_upds2 st = None /\ st_pds1 st = None /\ st_pds2 st = None.

Lemma qsim_step dt norm q st o1 o2 : qsim q st ->
  (forall s, o1 = Some s -> s_err s = None) -> (forall s, o2 = Some s -> s_err s = None) ->
  match quick_step dt q (o1, o2), cs_step dt norm true false PAll false st (o1, o2) with
  | Ok q', Ok st' => qsim q' st'
  | Err a, Err b => a = b
  | _, _ => False
  end.
Proof.
  intros S P1 P2. unfold quick_step, cs_step. destruct o1 as [s1|]; [|exact S]. destruct o2 as [s2|]; [|exact S].
  destruct (all_zero s1 || all_zero s2)%bool; [exact S|].
  rewrite (P1 s1 eq_refl), (P2 s2 eq_refl).
  destruct S as (S1 & S2 & S3 & S4 & S5 & S6 & S7 & S8 & S9 & S10 & S11 & S12 & S13 & S14).
  unfold seg_var. rewrite (P1 s1 eq_refl), (P2 s2 eq_refl). cbn [option_map orb negb].
  destruct (vmap2 cmul _ _) as [u|e]; [|reflexivity]. cbn [bind]. rewrite <- S2, <- S1, <- S6, <- S7.
  destruct (add_or_init cadd (q_unnorm q) _) as [v|e]; [|reflexivity]. cbn [bind fst snd].
  unfold qsim. cbn. rewrite S3, S4, S5, S9, S10. repeat split.
Qed.

Lemma qsim_loop dt norm l : forall q st, qsim q st ->
  (forall p, In p l -> (forall s, fst p = Some s -> s_err s = None) /\ (forall s, snd p = Some s -> s_err s = None)) ->
  match loop (quick_step dt) q l, loop (cs_step dt norm true false PAll false) st l with
  | Ok q', Ok st' => qsim q' st'
  | Err a, Err b => a = b
  | _, _ => False
  end.
Proof.
  induction l as [|[o1 o2] l IH]; intros q st S H; [exact S|].
  cbn [loop]. destruct (H (o1, o2) (or_introl eq_refl)) as [A B].
  pose proof (qsim_step dt norm q st o1 o2 S A B) as T.
  destruct (quick_step dt q (o1, o2)) as [q'|e], (cs_step dt norm true false PAll false st (o1, o2)) as [st'|e'];
    cbn [bind]; try contradiction; [|exact T].
  apply IH; [exact T|]. intros p Hp. apply H. now right.
Qed.

Lemma quick_main segs1 segs2 dt norm : plain segs1 -> plain segs2 ->
  avg_cs_quick segs1 segs2 dt norm = avg_cs segs1 segs2 dt norm true false PAll false false.
Proof.
  intros P1 P2. unfold avg_cs_quick, avg_cs.
  match goal with |- context [loop (quick_step dt) ?q _] =>
    pose proof (qsim_loop dt norm (combine segs1 segs2) q cs_init) as L end.
  match type of L with ?A -> ?B -> _ => assert (HA : A) by (repeat split); assert (HB : B) end.
  { intros [o1 o2] Hp. pose proof (in_combine_l _ _ _ _ Hp). pose proof (in_combine_r _ _ _ _ Hp). cbn [fst snd].
    split; intros s ->; [now apply P1|now apply P2]. }
  specialize (L HA HB). clear HA HB.
  destruct (loop (quick_step dt) _ _) as [q|e], (loop (cs_step dt norm true false PAll false) _ _) as [st|e'];
    try contradiction; [|cbn; now rewrite L].
  cbn [bind].
  destruct L as (S1 & S2 & S3 & S4 & S5 & S6 & S7 & S8 & S9 & S10 & S11 & S12 & S13 & S14).
  rewrite <- S2, <- S1, <- S3, <- S4, <- S5, <- S6, <- S7, <- S8, S9, S10, S11.
  destruct (q_unnorm q) as [u|]; [|reflexivity]. cbn [option_map bind with_ptype].
  unfold with_ptype. destruct (normalize cmulr _ _ _ _ _ _ _ _) as [p|e]; reflexivity.
Qed.

(* ---- mean of the stored single-segment powers ---- *)
Lemma nth_map_ks {A} (f : nat -> A) ks j k d : nth_error ks j = Some k -> nth j (map f ks) d = f k.
Proof. intros H. apply nth_error_nth. rewrite nth_error_map, H. reflexivity. Qed.
Lemma subcs_mean segs dt norm (common : bool) n t : (0 < n)%nat ->
  tuples_nonzero segs -> (forall u, In u (usable segs) -> length (s_flux u) = n) ->
  avg_pds segs dt norm common true = Ok (Some t) ->
  exists subs usubs, p_subcs t = Some subs /\ p_unnorm_subcs t = Some usubs /\
    length subs = p_m t /\ length usubs = p_m t /\ p_m t = length (usable segs) /\
    length (p_freq t) = n_pos n /\ length (p_power t) = n_pos n /\ length (p_unnorm t) = n_pos n /\
    forall j, (j < n_pos n)%nat ->
      nth j (p_power t) 0 = avg (fun s => nth j s 0) subs /\ nth j (p_unnorm t) 0 = avg (fun s => nth j s 0) usubs.
Proof.
  intros Hn H1 H2 E.
  assert (J : forall j, (j < n_pos n)%nat -> nth_error (seq 1 (n_pos n)) j = Some (S j)).
  { intros j Hj. rewrite (nth_error_nth' _ 0%nat) by (rewrite seq_length; lia). f_equal. rewrite seq_nth; lia. }
  destruct common.
  - rewrite (avg_pds_common segs dt norm true n Hn H1 H2) in E.
    destruct (usable segs) as [|u0 us0] eqn:Eu; [discriminate|]. rewrite <- Eu in *.
    destruct (kind _ _) as [kn|]; [|discriminate]. cbv zeta in E.
    match type of E with Ok (Some ?T) = _ => assert (Et : t = T) by congruence end. subst t.
    eexists _, _. cbn [p_subcs p_unnorm_subcs p_m p_freq p_power p_unnorm]. split; [reflexivity|]. split; [reflexivity|].
    rewrite !map_length, seq_length. repeat split.
    + rewrite (nth_map_ks _ _ _ (S j)) by now apply J. rewrite avg_map, <- avg_lin. apply avg_ext. intros u _.
      now rewrite (nth_map_ks _ _ _ (S j)) by now apply J.
    + rewrite (nth_map_ks _ _ _ (S j)) by now apply J. rewrite avg_map. apply avg_ext. intros u _.
      now rewrite (nth_map_ks _ _ _ (S j)) by now apply J.
  - rewrite (avg_pds_own segs dt norm true n Hn H1 H2) in E.
    destruct (usable segs) as [|u0 us0] eqn:Eu; [discriminate|]. rewrite <- Eu in *.
    destruct (existsb _ _); [discriminate|].
    match type of E with Ok (Some ?T) = _ => assert (Et : t = T) by congruence end. subst t.
    eexists _, _. cbn [p_subcs p_unnorm_subcs p_m p_freq p_power p_unnorm]. split; [reflexivity|]. split; [reflexivity|].
    rewrite !map_length, seq_length. repeat split.
    + rewrite (nth_map_ks _ _ _ (S j)) by now apply J. rewrite avg_map. apply avg_ext. intros u _.
      now rewrite (nth_map_ks _ _ _ (S j)) by now apply J.
    + rewrite (nth_map_ks _ _ _ (S j)) by now apply J. rewrite avg_map. apply avg_ext. intros u _.
      now rewrite (nth_map_ks _ _ _ (S j)) by now apply J.
Qed.

(* ---- refutations ---- *)
Lemma zero_tuple_refuted :
  exists segs t, (forall u, In (Some u) segs -> length (s_flux u) = 3%nat) /\
    avg_pds segs 1 NoNorm true false = Ok (Some t) /\ p_m t <> length (usable segs).
Proof.
  set (u1 := {| s_flux := [1; 2; 3]; s_err := Some [1; 1; 1] |}).
  set (u2 := {| s_flux := [0; 0; 0]; s_err := Some [1; 1; 1] |}).
  assert (N1 : nonzero u1 = true) by (unfold nonzero; cbn; destruct (Req_EM_T 1 0); [lra|reflexivity]).
  assert (N2 : nonzero u2 = false) by (unfold nonzero; cbn; destruct (Req_EM_T 0 0); [reflexivity|lra]).
  eexists [Some u1; Some u2], _. split; [|split].
  - intros u [E|[E|[]]]; injection E as <-; reflexivity.
  - unfold avg_pds. cbn [loop].
    change pds_init with (pds_at 1 NoNorm true 3 []).
    rewrite (pds_step_use 1 NoNorm true 3) by (try lia; try reflexivity; discriminate). cbn [bind].
    rewrite (pds_step_use 1 NoNorm true 3) by (try lia; try reflexivity; discriminate). cbn [bind].
    reflexivity.
  - unfold usable. cbn [flat_map p_m]. rewrite N1, N2. cbn. lia.
Qed.

Lemma dft_unit k : dft [1; 0; 0] k = (1, 0).
Proof.
  unfold dft. cbn [length]. f_equal.
  - unfold rs, rlsum, val. cbn. rewrite Rmult_0_r, Rdiv_0_l || idtac.
    replace (2 * PI * 0 / (1 + 1 + 1)) with 0 by field. rewrite cos_0. ring.
  - unfold rs, rlsum, val. cbn. replace (2 * PI * 0 / (1 + 1 + 1)) with 0 by field. rewrite sin_0. ring.
Qed.

Lemma auxil_sum_refuted :
  exists segs c p1 p2 u, tuples_nonzero segs /\ (forall s, In (Some s) segs -> length (s_flux s) = 3%nat) /\
    avg_cs segs segs 1 NoNorm false false PAll true false = Ok (Some c) /\ c_auxil c = Some (p1, p2, u) /\
    nth 0 p1 0 <> nth 0 (fst u) 0 /\ nth 0 p1 0 = INR (c_m c) * nth 0 (fst u) 0.
Proof.
  set (s := {| s_flux := [1; 0; 0]; s_err := None |}).
  assert (N : nonzero s = true) by (unfold nonzero; cbn; destruct (Req_EM_T 1 0); [lra|reflexivity]).
  assert (U : usable2 [Some s; Some s] [Some s; Some s] = [(s, s); (s, s)]) by (unfold usable2; cbn [combine flat_map]; rewrite N; reflexivity).
  assert (T : tuples_nonzero [Some s; Some s]) by (intros x [E|[E|[]]]; injection E as <-; auto).
  eexists [Some s; Some s], _, _, _, _. split; [exact T|]. split.
  { intros x [E|[E|[]]]; injection E as <-; reflexivity. }
  split; [|split].
  - rewrite (avg_cs_own _ _ 1 NoNorm false PAll true false 3); [rewrite U; cbn [existsb refused bad_type kind orb pvar err2_pair]; reflexivity|lia|exact T|exact T|].
    rewrite U. intros p [ <- |[ <- |[]]]; split; reflexivity.
  - cbn [c_auxil]. reflexivity.
  - cbn [fst snd bins c_m]. change (n_pos 3) with 1%nat. cbn [seq map nth length].
    assert (P : pow1 (s, s) 1 = 1) by (unfold pow1, power_at; cbn [fst s_flux s]; rewrite dft_unit; cbn; ring).
    unfold avg, fac, as_type_r. cbn [map kind factor]. rewrite !P. cbn. split; lra.
Qed.

Lemma mixed_lengths_refuted :
  exists segs t, avg_pds segs 1 NoNorm true false = Ok (Some t) /\
    p_freq t = [1 / 3] /\ p_df t = 1 / 4 /\ p_n t = 4%nat /\ p_m t = 2%nat.
Proof.
  set (u1 := {| s_flux := [1; 2; 3]; s_err := Some [1; 1; 1] |}).
  set (u2 := {| s_flux := [1; 2; 3; 4]; s_err := Some [1; 1; 1; 1] |}).
  eexists [Some u1; Some u2], _. split.
  - unfold avg_pds. cbn [loop].
    change pds_init with (pds_at 1 NoNorm true 3 []).
    rewrite (pds_step_use 1 NoNorm true 3) by (try lia; try reflexivity; discriminate). cbn [bind app].
    unfold pds_step. cbn [all_zero u2 s_err].
    fold (powers (s_flux u2)). rewrite powers_map. cbn [pds_at pds_after ps_cross ps_fgt0 s_flux u2 length].
    rewrite pos_bins_indep by lia. change (n_pos 3) with 1%nat. change (cut (map ?f (seq 0 4)) (1%nat, 2%nat)) with [f 1%nat].
    cbn [bind]. change (seq 1 1) with [1%nat]. cbn [map]. unfold add_or_init, vmap2. cbn [ps_unnorm length Nat.eqb combine map fst snd bind].
    reflexivity.
  - cbn [p_freq p_df p_n p_m ps_n_bin ps_n_ave ps_freq length]. change (n_pos 3) with 1%nat. cbn. repeat split; [f_equal|]; field.
Qed.
