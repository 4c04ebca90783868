(* P_tonorm.v: changes of normalization. *)
From Verif Require Import Np Lib Cplx M_fourier M_norm S_fourier S_norm P_norm P_avg P_avgcs.
From Coq Require Import Lra Lia.
Open Scope R_scope.

Lemma one_ok pt u dt n mean nph var norm :
  with_ptype creal cabsl pt (normalize cmulr u dt n (Some mean) (Some nph) var 0 norm) =
  if (refused norm var || bad_type pt)%bool then Err ValueError
  else Ok (map (fun z => as_type pt (cscal z (fac norm var dt n mean nph))) u).
Proof.
  rewrite (norm_factor cmulr cmulr_mul cmulr_1). unfold refused, fac. destruct (kind norm var) as [k|]; [|reflexivity].
  cbn [with_ptype bind orb]. destruct pt; cbn [bad_type as_type]; try reflexivity; unfold creal, cabsl, cmulr; rewrite map_map; reflexivity.
Qed.
Lemma normt_eqb_t a b : normt_eqb a b = true -> a = b.
Proof. destruct a, b; cbn; congruence. Qed.
Lemma normt_eqb_f a b : a <> OtherNorm -> normt_eqb a b = false -> a <> b.
Proof. destruct a, b; cbn; congruence. Qed.
Lemma normt_neq a b : a <> b -> normt_eqb a b = false.
Proof. intros H. destruct (normt_eqb a b) eqn:E; [|reflexivity]. destruct H. now apply normt_eqb_t. Qed.
Lemma normt_refl a : a <> OtherNorm -> normt_eqb a a = true.
Proof. destruct a; cbn; congruence. Qed.

Ltac open_spec s := destruct s as [ty no pw er un ue dt n p1 p2 ga v1 v2 pt hs].

Lemma tonorm_values s b : sp_unnorm s <> None -> complete s -> computable s b -> b <> sp_norm s ->
  exists s', to_norm b s = Ok s' /\ consistent s' /\ sp_norm s' = b /\ same_raw s s' /\ same_errors s s'.
Proof.
  open_spec s. unfold complete, computable. cbn [sp_unnorm sp_norm sp_ptype sp_gauss sp_power_type sp_var1 sp_var2 sp_halves sp_unnorm_err].
  intros Hu Hc (C1 & C2 & C3 & C4) Hn. unfold to_norm. cbn [sp_norm]. rewrite (normt_neq _ _ Hn).
  cbn [sp_unnorm sp_norm sp_ptype sp_gauss sp_power_type sp_var1 sp_var2 sp_halves sp_unnorm_err sp_dt sp_n sp_nph1 sp_nph2].
  unfold variance_of, channel_variance, counts_of in *. cbn [sp_gauss sp_power_type sp_var1 sp_var2 sp_nph1 sp_nph2] in *.
  destruct un as [u|]; [|congruence].
  assert (V : exists var va1 va2, (if ga then if ty then Ok (v1, None, None) else match v1, v2 with
      | Some w1, Some w2 => Ok (Some (sqrt (w1 * w2)), Some w1, Some w2) | _, _ => Err TypeError end else Ok (None, None, None)) = Ok (var, va1, va2) /\
    var = (if ga then if ty then v1 else gmean_opt v1 v2 else None) /\ va1 = (if (ga && negb ty)%bool then v1 else None) /\
    va2 = (if (ga && negb ty)%bool then v2 else None)).
  { destruct ga, ty; cbn [andb negb]; try (do 3 eexists; repeat split; reflexivity).
    destruct (C3 eq_refl eq_refl) as [N1 N2]. destruct v1 as [w1|]; [|congruence]. destruct v2 as [w2|]; [|congruence].
    do 3 eexists. repeat split; reflexivity. }
  destruct V as (var & va1 & va2 & -> & Ev & E1 & E2). cbn [bind]. rewrite !one_ok, <- !Ev in *. rewrite C1, C2. cbn [orb bind].
  destruct hs as [[h1 h2]|].
  - destruct (Hc h1 h2 eq_refl) as [-> Hue]. cbn [negb] in *. rewrite <- E1, <- E2 in *. destruct C4 as [D1 D2]; [congruence|]. rewrite !one_ok, D1, D2, C2. cbn [orb bind].
    cbn [sp_unnorm_err with_power sp_halves half_power h_unnorm_err].
    destruct ue as [ue|].
    + destruct Hue as [U1 U2]; [congruence|]. rewrite one_ok, C1, C2. cbn [orb bind].
      destruct (h_unnorm_err h1) as [w1|] eqn:W1; [|congruence]. destruct (h_unnorm_err h2) as [w2|] eqn:W2; [|congruence].
      cbn [bind]. rewrite !one_ok, D1, D2, C2. cbn [orb bind]. eexists. split; [reflexivity|].
      unfold consistent, same_raw, scaled, variance_of, channel_variance, counts_of, half_ok.
      cbn. rewrite <- ?Ev, <- ?E1, <- ?E2. split; [|split; [reflexivity|]].
      * split; [now intros w [= <-]|]. split; [now intros w [= <-]|]. intros a c [= <- <-]. cbn. rewrite <- ?E1, <- ?E2.
        unfold gmean. repeat split; intros; rewrite ?W1, ?W2, <- ?E1, <- ?E2; try reflexivity.
        all: cbn [option_map]; unfold scaled; cbn; reflexivity.
      * split; [repeat split; cbn; congruence|]. unfold same_errors. cbn. congruence.
    + eexists. split; [reflexivity|]. unfold consistent, same_raw, scaled, variance_of, channel_variance, counts_of, half_ok.
      cbn. rewrite <- ?Ev, <- ?E1, <- ?E2. split; [|split; [reflexivity|split; [repeat split; reflexivity|unfold same_errors; cbn; repeat split; congruence]]].
      split; [now intros w [= <-]|]. split; [discriminate|]. intros a c [= <- <-]. cbn. repeat split; congruence.
  - cbn [bind sp_unnorm_err with_power sp_halves].
    destruct ue as [ue|].
    + rewrite one_ok, C1, C2. cbn [orb bind]. eexists. split; [reflexivity|].
      unfold consistent, same_raw, scaled, variance_of, channel_variance, counts_of. cbn. rewrite <- ?Ev.
      split; [|split; [reflexivity|split; [repeat split; reflexivity|unfold same_errors; cbn; repeat split; congruence]]].
      split; [now intros w [= <-]|]. split; [now intros w [= <-]|discriminate].
    + eexists. split; [reflexivity|]. unfold consistent, same_raw, scaled, variance_of, channel_variance, counts_of. cbn. rewrite <- ?Ev.
      split; [|split; [reflexivity|split; [repeat split; reflexivity|unfold same_errors; cbn; repeat split; congruence]]].
      split; [now intros w [= <-]|]. split; discriminate.
Qed.

Lemma with_ptype_inv pt (r : result (list cx)) q : with_ptype creal cabsl pt r = Ok q -> exists x, r = Ok x.
Proof. destruct r; [eexists; reflexivity|discriminate]. Qed.

Lemma path_independent s a b s1 : to_norm a s = Ok s1 -> b <> sp_norm s -> to_norm b s1 = to_norm b s.
Proof.
  intros E Hb. unfold to_norm in E.
  destruct (normt_eqb a (sp_norm s)) eqn:Na; [now injection E as <-|].
  open_spec s. cbn [sp_unnorm sp_norm sp_ptype sp_gauss sp_power_type sp_var1 sp_var2 sp_halves sp_unnorm_err sp_dt sp_n sp_nph1 sp_nph2] in *.
  set (vars := if ga then _ else _) in E. destruct vars as [[[var va1] va2]|] eqn:Ev; [|discriminate]. cbn [bind] in E.
  assert (Same : normt_eqb b a = true -> sp_norm s1 = a -> to_norm a (mkSpec ty no pw er un ue dt n p1 p2 ga v1 v2 pt hs) = Ok s1 ->
                 to_norm b s1 = to_norm b (mkSpec ty no pw er un ue dt n p1 p2 ga v1 v2 pt hs)).
  { intros Hab Hs1 Hto. apply normt_eqb_t in Hab as Eq. subst b. rewrite Hto. unfold to_norm. now rewrite Hs1, Hab. }
  assert (Hto : to_norm a (mkSpec ty no pw er un ue dt n p1 p2 ga v1 v2 pt hs) = Ok s1).
  { unfold to_norm. cbn [sp_unnorm sp_norm sp_ptype sp_gauss sp_power_type sp_var1 sp_var2 sp_halves sp_unnorm_err sp_dt sp_n sp_nph1 sp_nph2].
    rewrite Na. fold vars. rewrite Ev. exact E. }
  destruct un as [u|]; [|destruct ue as [ue|]; [|now injection E as <-]].
  - rewrite !one_ok in E. destruct (refused a var || bad_type pt)%bool; [discriminate|]. cbn [bind] in E.
    set (hs' := match hs with None => Ok None | Some (h1, h2) => _ end) in E. destruct hs' as [hs1|] eqn:Eh; [|cbn [bind] in E; discriminate]. cbn [bind with_power sp_unnorm_err sp_halves] in E.
    assert (Hh : match hs, hs1 with None, None => True
                 | Some (h1, h2), Some (k1, k2) => same_raw_half h1 k1 /\ same_raw_half h2 k2 /\ h_err h1 = h_err k1 /\ h_err h2 = h_err k2 | _, _ => False end).
    { subst hs'. destruct hs as [[h1 h2]|]; [|now injection Eh as <-]. rewrite !one_ok in Eh.
      destruct (refused a va1 || bad_type pt)%bool; [discriminate|]. cbn [bind] in Eh. destruct (refused a va2 || bad_type pt)%bool; [discriminate|].
      cbn [bind] in Eh. injection Eh as <-. repeat split; reflexivity. }
    assert (Hue : exists er' hs2, s1 = mkSpec ty a (Some (map (fun z => as_type pt (cscal z (fac a var dt n ((if ty then p1 else sqrt (p1 * p2)) / INR n) (if ty then p1 else sqrt (p1 * p2))))) u)) er' (Some u) ue dt n p1 p2 ga v1 v2 pt hs2 /\
              (ue = None -> er' = er) /\
              match hs, hs2 with None, None => True
                 | Some (h1, h2), Some (k1, k2) => same_raw_half h1 k1 /\ same_raw_half h2 k2 /\ (ue = None -> h_err h1 = h_err k1 /\ h_err h2 = h_err k2) | _, _ => False end).
    { destruct ue as [ue|].
      - rewrite one_ok in E. destruct (refused a var || bad_type pt)%bool; [discriminate|]. cbn [bind] in E.
        destruct hs1 as [[k1 k2]|].
        + destruct (h_unnorm_err k1) as [w1|] eqn:W1; [|discriminate]. cbn [bind] in E. rewrite one_ok in E.
          destruct (refused a va1 || bad_type pt)%bool; [discriminate|]. cbn [bind] in E.
          destruct (h_unnorm_err k2) as [w2|] eqn:W2; [|discriminate]. cbn [bind] in E. rewrite one_ok in E.
          destruct (refused a va2 || bad_type pt)%bool; [discriminate|]. cbn [bind] in E. injection E as <-.
          do 2 eexists. split; [reflexivity|]. split; [congruence|]. destruct hs as [[h1 h2]|]; [|contradiction].
          unfold half_err, same_raw_half in *. cbn [h_unnorm h_unnorm_err h_err]. destruct Hh as ((? & ?) & (? & ?) & ? & ?).
          repeat split; congruence.
        + cbn [bind] in E. injection E as <-. do 2 eexists. split; [reflexivity|]. split; [congruence|]. destruct hs as [[h1 h2]|]; [contradiction|exact I].
      - injection E as <-. do 2 eexists. split; [reflexivity|]. split; [reflexivity|]. destruct hs as [[h1 h2]|], hs1 as [[k1 k2]|]; try contradiction; [|exact I].
        destruct Hh as ((? & ?) & (? & ?) & ? & ?). repeat split; assumption. }
    destruct Hue as (er' & hs2 & -> & He & Hh2).
    destruct (normt_eqb b a) eqn:Hba; [now apply Same|]. unfold to_norm.
    cbn [sp_unnorm sp_norm sp_ptype sp_gauss sp_power_type sp_var1 sp_var2 sp_halves sp_unnorm_err sp_dt sp_n sp_nph1 sp_nph2].
    rewrite Hba, (normt_neq _ _ Hb). fold vars. rewrite Ev. cbn [bind].
    rewrite !one_ok. destruct (refused b var || bad_type pt)%bool; [reflexivity|]. cbn [bind].
    destruct hs as [[h1 h2]|], hs2 as [[k1 k2]|]; try contradiction.
    + destruct h1 as [na1 pa1 ea1 ua1 xa1], h2 as [na2 pa2 ea2 ua2 xa2], k1 as [nb1 pb1 eb1 ub1 xb1], k2 as [nb2 pb2 eb2 ub2 xb2]. unfold same_raw_half in Hh2.
      cbn [h_unnorm h_unnorm_err h_err] in *. destruct Hh2 as ((-> & ->) & (-> & ->) & Hh2). rewrite !one_ok.
      destruct (refused b va1 || bad_type pt)%bool; [reflexivity|]. cbn [bind]. destruct (refused b va2 || bad_type pt)%bool; [reflexivity|].
      cbn [bind with_power with_err half_power half_err sp_unnorm_err sp_halves sp_power sp_err h_unnorm_err h_unnorm h_power h_err].
      destruct ue as [ue|].
      * rewrite one_ok. destruct (refused b var || bad_type pt)%bool; [reflexivity|]. reflexivity.
      * destruct (Hh2 eq_refl) as [-> ->]. now rewrite (He eq_refl).
    + cbn [bind with_power with_err sp_unnorm_err sp_halves sp_power sp_err]. destruct ue as [ue|]; [reflexivity|]. now rewrite (He eq_refl).
  - cbn [bind with_power sp_unnorm_err sp_halves] in E.
    rewrite one_ok in E. destruct (refused a var || bad_type pt)%bool; [discriminate|]. cbn [bind] in E.
    assert (Hh : exists hs2, s1 = mkSpec ty a pw (Some (map (fun z => as_type pt (cscal z (fac a var dt n ((if ty then p1 else sqrt (p1 * p2)) / INR n) (if ty then p1 else sqrt (p1 * p2))))) ue)) None (Some ue) dt n p1 p2 ga v1 v2 pt hs2 /\
              match hs, hs2 with None, None => True
                 | Some (h1, h2), Some (k1, k2) => same_raw_half h1 k1 /\ same_raw_half h2 k2 /\ h_power h1 = h_power k1 /\ h_power h2 = h_power k2 | _, _ => False end).
    { destruct hs as [[k1 k2]|].
      - destruct (h_unnorm_err k1) as [w1|] eqn:W1; [|discriminate]. cbn [bind] in E. rewrite one_ok in E.
        destruct (refused a va1 || bad_type pt)%bool; [discriminate|]. cbn [bind] in E.
        destruct (h_unnorm_err k2) as [w2|] eqn:W2; [|discriminate]. cbn [bind] in E. rewrite one_ok in E.
        destruct (refused a va2 || bad_type pt)%bool; [discriminate|]. cbn [bind] in E. injection E as <-.
        eexists. split; [reflexivity|]. unfold half_err, same_raw_half. cbn [h_unnorm h_unnorm_err h_power]. repeat split; congruence.
      - cbn [bind] in E. injection E as <-. eexists. split; [reflexivity|exact I]. }
    destruct Hh as (hs2 & -> & Hh2).
    destruct (normt_eqb b a) eqn:Hba; [now apply Same|]. unfold to_norm.
    cbn [sp_unnorm sp_norm sp_ptype sp_gauss sp_power_type sp_var1 sp_var2 sp_halves sp_unnorm_err sp_dt sp_n sp_nph1 sp_nph2].
    rewrite Hba, (normt_neq _ _ Hb). fold vars. rewrite Ev. cbn [bind sp_unnorm_err sp_halves].
    rewrite !one_ok. destruct (refused b var || bad_type pt)%bool; [reflexivity|]. cbn [bind].
    destruct hs as [[h1 h2]|], hs2 as [[k1 k2]|]; try contradiction; [|reflexivity].
    destruct h1 as [na1 pa1 ea1 ua1 xa1], h2 as [na2 pa2 ea2 ua2 xa2], k1 as [nb1 pb1 eb1 ub1 xb1], k2 as [nb2 pb2 eb2 ub2 xb2]. unfold same_raw_half in Hh2.
    cbn [h_unnorm h_unnorm_err h_power] in *. destruct Hh2 as ((-> & ->) & (-> & ->) & -> & ->). reflexivity.
Qed.

Definition relabel (s : spectrum) : spectrum :=
  mkSpec (sp_power_type s) OtherNorm (sp_power s) (sp_err s) (sp_unnorm s) (sp_unnorm_err s) (sp_dt s) (sp_n s) (sp_nph1 s) (sp_nph2 s)
    (sp_gauss s) (sp_var1 s) (sp_var2 s) (sp_ptype s) (sp_halves s).
Lemma relabel_to_norm a s : sp_unnorm s <> None -> normt_eqb a (sp_norm s) = false -> to_norm a (relabel s) = to_norm a s.
Proof.
  open_spec s. intros Hu Hn. unfold to_norm, relabel.
  cbn [sp_unnorm sp_norm sp_ptype sp_gauss sp_power_type sp_var1 sp_var2 sp_halves sp_unnorm_err sp_dt sp_n sp_nph1 sp_nph2 sp_power sp_err] in *.
  rewrite Hn. replace (normt_eqb a OtherNorm) with false by (now destruct a).
  destruct un as [u|]; [|congruence]. reflexivity.
Qed.
Lemma consistent_unique s t : consistent s -> consistent t -> same_raw s t -> same_errors s t -> sp_norm s = sp_norm t -> sp_unnorm s <> None -> complete s -> s = t.
Proof.
  unfold consistent, same_raw, same_errors, complete, half_ok, scaled, counts_of, variance_of, channel_variance. open_spec s.
  destruct t as [ty' no' pw' er' un' ue' dt' n' p1' p2' ga' v1' v2' pt' hs'].
  cbn [sp_unnorm sp_norm sp_ptype sp_gauss sp_power_type sp_var1 sp_var2 sp_halves sp_unnorm_err sp_dt sp_n sp_nph1 sp_nph2 sp_power sp_err].
  intros (A1 & A2 & A3) (B1 & B2 & B3) (-> & -> & -> & -> & -> & -> & -> & -> & -> & -> & -> & Hh) He -> Hu Hc.
  destruct un' as [u|]; [|congruence]. rewrite (A1 u eq_refl), (B1 u eq_refl).
  assert (E : er = er'). { destruct ue' as [w|]; [now rewrite (A2 w eq_refl), (B2 w eq_refl)|]. now destruct (He eq_refl). }
  subst er'. destruct hs as [[h1 h2]|], hs' as [[k1 k2]|]; try contradiction; [|reflexivity].
  destruct (A3 h1 h2 eq_refl) as ((X1 & X2 & X3) & (Y1 & Y2 & Y3)). destruct (B3 k1 k2 eq_refl) as ((Z1 & Z2 & Z3) & (W1 & W2 & W3)).
  destruct Hh as ((R1 & R2) & (R3 & R4)). destruct (Hc h1 h2 eq_refl) as [-> Hc'].
  destruct h1 as [na1 pa1 ea1 ua1 xa1], h2 as [na2 pa2 ea2 ua2 xa2], k1 as [nb1 pb1 eb1 ub1 xb1], k2 as [nb2 pb2 eb2 ub2 xb2].
  cbn [h_norm h_power h_err h_unnorm h_unnorm_err] in *. subst.
  assert (Hs : Some u <> None) by congruence. rewrite (X2 Hs), (Y2 Hs), (Z2 Hs), (W2 Hs).
  assert (Ee : ea1 = eb1 /\ ea2 = eb2).
  { destruct ue' as [w|]; [|now destruct (He eq_refl) as (_ & ? & ?)]. assert (Hw : Some w <> None) by congruence.
    rewrite (X3 Hw), (Y3 Hw), (Z3 Hw), (W3 Hw). now split. }
  destruct Ee as [-> ->]. reflexivity.
Qed.
Lemma tonorm_back s a s1 : consistent s -> complete s -> computable s (sp_norm s) -> sp_unnorm s <> None ->
  to_norm a s = Ok s1 -> to_norm (sp_norm s) s1 = Ok s.
Proof.
  intros C K P U E. destruct (normt_eqb a (sp_norm s)) eqn:Na.
  - unfold to_norm in E. rewrite Na in E. injection E as <-. unfold to_norm. rewrite normt_refl; [reflexivity|].
    intros F. destruct P as (P & _). rewrite F in P. discriminate.
  - assert (O : sp_norm s <> OtherNorm) by (intros F; destruct P as (P & _); rewrite F in P; discriminate).
    rewrite <- (relabel_to_norm a s U Na) in E. rewrite (path_independent (relabel s) a (sp_norm s) s1 E O).
    destruct (tonorm_values (relabel s) (sp_norm s) U K P O) as (s' & -> & C' & N' & R' & E').
    f_equal. symmetry. apply consistent_unique; auto.
Qed.
Lemma unknown_norm s : sp_unnorm s <> None -> (sp_gauss s = true -> sp_power_type s = false -> sp_var1 s <> None /\ sp_var2 s <> None) ->
  to_norm OtherNorm s = Err ValueError.
Proof.
  intros U V. unfold to_norm. cbn [normt_eqb]. destruct (sp_unnorm s) as [u|]; [|congruence].
  assert (G : forall var, kind OtherNorm var = None) by reflexivity.
  destruct (sp_gauss s); [destruct (sp_power_type s)|]; cbn [bind]; rewrite ?one_ok; try reflexivity.
  destruct (V eq_refl eq_refl). destruct (sp_var1 s) as [w1|]; [|congruence]. destruct (sp_var2 s) as [w2|]; [|congruence].
  cbn [bind]. rewrite one_ok. reflexivity.
Qed.
