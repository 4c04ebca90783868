(* P_rms3.v: logarithmic rebinning keeps the integrated rms; spectra that are rebinned twice. *)
From Verif Require Import Np Lib S_gti S_seg S_utils S_spec M_gti M_seg M_utils M_spec P_seg_regions P_seg_cut P_seg_split P_rebin P_rebin2 P_logbin P_base S_base P_filters P_rms P_rms2.
From Coq Require Import Lqa Sorted.
Open Scope Q_scope.

Lemma content_ext {A} (p : A -> bool) (h h' : A * Q -> Q) (l : list (A * Q)) :
  (forall a, In a l -> p (fst a) = true -> h a == h' a) ->
  content p (map (fun a => (fst a, h a)) l) == content p (map (fun a => (fst a, h' a)) l).
Proof.
  induction l as [|[a w] l IH]; intros H; cbn [map content fst]; [reflexivity|]. rewrite IH by (intros; apply H; [right|]; assumption).
  destruct (p a) eqn:E; [|reflexivity]. rewrite (H (a, w)); [reflexivity|left; reflexivity|assumption].
Qed.
Lemma content_affine {A} (p : A -> bool) c noise (l : list (A * Q)) :
  content p (map (fun a => (fst a, c * (snd a - noise))) l) == c * (content p l - noise * inject_Z (Z.of_nat (count p (map fst l)))).
Proof.
  induction l as [|[a w] l IH]; cbn [map content count fst snd]; [change (inject_Z (Z.of_nat 0)) with 0; ring|]. rewrite IH.
  destruct (p a); [|cbn [Nat.add]; ring]. change (1 + count p (map fst l))%nat with (S (count p (map fst l))). rewrite zof_S. ring.
Qed.
Lemma content_bounds {A} (p : A -> bool) (l : list (A * Q)) lo hi : (forall a, In a l -> lo <= snd a /\ snd a <= hi) ->
  lo * inject_Z (Z.of_nat (count p (map fst l))) <= content p l /\ content p l <= hi * inject_Z (Z.of_nat (count p (map fst l))).
Proof.
  induction l as [|[a w] l IH]; intros H; cbn [map content count fst snd]; [change (inject_Z (Z.of_nat 0)) with 0; split; lra|].
  destruct (IH (fun b Hb => H b (or_intror Hb))) as [I1 I2]. destruct (H (a, w) (or_introl eq_refl)) as [W1 W2]. cbn [snd] in *.
  destruct (p a); [|cbn [Nat.add]; split; lra]. change (1 + count p (map fst l))%nat with (S (count p (map fst l))). rewrite zof_S. split; lra.
Qed.
Lemma combine_fst {A B} (a : list A) : forall b : list B, length b = length a -> map fst (combine a b) = a.
Proof. induction a as [|x a IH]; intros [|y b] L; simpl in *; try discriminate; [reflexivity|]. rewrite IH by lia. reflexivity. Qed.
Lemma combine_snd {A B} (a : list A) : forall b : list B, length b = length a -> map snd (combine a b) = b.
Proof. induction a as [|x a IH]; intros [|y b] L; simpl in *; try discriminate; [reflexivity|]. rewrite IH by lia. reflexivity. Qed.

Lemma qsum_nth_total {A} (f : A -> Q) (g : nat -> Q) (l : list A) st : (forall i a, nth_error l i = Some a -> f a == g (st + i)%nat) ->
  total (map f l) == total (map g (seq st (length l))).
Proof. intros H. rewrite <- (qsum_nth_ext f g l st H), total_qsum. reflexivity. Qed.
Lemma count_zero {A} (p : A -> bool) l v : count p l = 0%nat -> In v l -> p v = false.
Proof.
  induction l as [|a l IH]; intros Z Hin; [destruct Hin|]. cbn [count] in Z. destruct (p a) eqn:E; [discriminate|].
  destruct Hin as [<-|Hin]; [assumption|]. apply IH; assumption.
Qed.
Lemma rebin_log_keeps s x0 xl fr pw un m f level noise :
  plain_spectrum s x0 fr pw un m -> 0 <= f -> 0 <= x0 -> nth_error fr (length fr - 1) = Some xl ->
  0 < ps_nphots s -> 0 < ps_segment s ->
  match level with None => noise = ps_nphots s | Some v => unnorm_level v (ps_dt s) (ps_n s) (ps_nphots s) (ps_norm s) = Ok noise end ->
  exists fuel s' edges, ps_rebin_log fuel s f = Ok s' /\ increasing edges /\ growing f edges /\
    nth_error edges 0 = Some (x0 * (1 # 2)) /\ (exists e, nth_error edges 1 = Some e /\ e - x0 * (1 # 2) == ps_df s) /\
    (forall u, nth_error edges (length edges - 1) = Some u -> xl < u) /\
    length (ps_freq s') = (length edges - 1)%nat /\ length (ps_power s') = (length edges - 1)%nat /\
    (forall i o, nth_error (ps_power s') i = Some o -> let n := inject_Z (Z.of_nat (count (in_cell edges i) fr)) in
       match o with None => n == 0 | Some p => p * n == content (in_cell edges i) (combine fr pw) /\ 0 < n end) /\
    (exists ns, ps_k s' = Each ns /\ ps_m s' = Each (map (fun n => n * inject_Z m) ns) /\
       forall i n, nth_error ns i = Some n -> n = inject_Z (Z.of_nat (count (in_cell edges i) fr))) /\
    forall lo hi lo' hi',
      (forall i g v, nth_error (ps_freq s') i = Some (Some g) -> In v fr -> in_cell edges i v = true -> in_band lo hi (Some v) = in_band lo' hi' (Some g)) ->
      exists r2 e2 r2' e2', compute_rms s lo hi level = Ok (Some (r2, e2)) /\ compute_rms s' lo' hi' level = Ok (Some (r2', e2')) /\ r2' == r2.
Proof.
  intros HP Hf0 Hx0 Hxl Hn Hsg Hlev. pose proof (plain_is_bins s x0 fr pw un m HP) as B0.
  destruct HP as (Hf & Hp & Hu & Lp & Lu & He & H0 & Hk1 & Hm & Pm & Pd).
  destruct (rebin_log_total fr pw f (map (fun _ => 0) pw) (ps_df s) x0 xl Hf0 Pd H0 Hxl Lp) as (fuel & out & Eo); [rewrite map_length; assumption|].
  destruct out as (edges & (((bx & bp) & be) & ns)).
  assert (Hnd : nondecreasing fr).
  { intros i j u v Hij Hu' Hv'. rewrite (He _ _ Hu'), (He _ _ Hv'). assert (Hz := zof_lt i j Hij).
    assert ((inject_Z (Z.of_nat i) + 1) * ps_df s <= inject_Z (Z.of_nat j) * ps_df s) by (apply Qmult_le_compat_r; lra). lra. }
  pose proof (rebin_log_main fuel fr pw f _ (ps_df s) x0 xl edges bx bp be ns Hf0 Pd Hnd H0 Hxl Hx0 Eo) as (_ & _ & Hinc & Hgr & Hed0 & Hed1 & Hlast & Hlen & Lbx & Lbp & Lbe & Lns & Pns & Pbx & Pbp & _ & Hsum & _).
  assert (Eu : exists bu beu, rebin_data_log fuel fr un f (Some (map (fun _ => 0) un)) (Some (ps_df s)) = Ok (edges, (bx, bu, beu, ns))).
  { unfold rebin_data_log in Eo |- *. cbn [bind] in *. rewrite !map_length, !Nat.eqb_refl in *. rewrite Lp in Eo. rewrite Lu. rewrite !Nat.eqb_refl in *. cbn [negb] in *.
    destruct (get fr 0) as [y0|er]; cbn [bind] in *; [|discriminate]. destruct (get_last fr) as [yl|er]; cbn [bind] in *; [|discriminate].
    destruct (log_edges fuel f yl (y0 * (1 # 2) + ps_df s) (ps_df s)) as [more|er]; cbn [bind] in *; [|discriminate].
    assert (IO : forall A (x y : A), Ok x = Ok y -> x = y) by (intros; congruence). apply IO in Eo.
    assert (PE : forall A B (a a' : A) (b b' : B), (a, b) = (a', b') -> a = a' /\ b = b') by (intros; split; congruence).
    apply PE in Eo. destruct Eo as [Q1 Eo]. apply PE in Eo. destruct Eo as [Eo Q4]. apply PE in Eo. destruct Eo as [Eo Q3]. apply PE in Eo. destruct Eo as [Q2 Q5].
    eexists _, _. rewrite Q1. rewrite Q1 in Q2, Q4. rewrite Q2, Q4. reflexivity. }
  destruct Eu as (bu & beu & Eu).
  pose proof (rebin_log_main fuel fr un f _ (ps_df s) x0 xl edges bx bu beu ns Hf0 Pd Hnd H0 Hxl Hx0 Eu) as (_ & _ & _ & _ & _ & _ & _ & _ & _ & Lbu & _ & _ & _ & _ & Pbu & _ & _ & Htot).
  set (nsq := map (fun n => inject_Z (Z.of_nat n)) ns).
  set (s' := {| ps_freq := bx; ps_power := bp; ps_unnorm := bu; ps_df := ps_df s; ps_m := Each (map (fun x => x * inject_Z m) nsq); ps_k := Each nsq;
          ps_nphots := ps_nphots s; ps_nphots1 := ps_nphots1 s; ps_segment := ps_segment s; ps_dt := ps_dt s; ps_n := ps_n s; ps_norm := ps_norm s |}).
  exists fuel, s', edges. split.
  { unfold ps_rebin_log. rewrite Hf, Hp, Hu, !all_some_map.
    change (rebin_data_log fuel fr pw f None (Some (ps_df s))) with (rebin_data_log fuel fr pw f (Some (map (fun _ => 0) pw)) (Some (ps_df s))). rewrite Eo. cbn [bind].
    rewrite Hm. cbn [mul_perbin bind].
    change (rebin_data_log fuel fr un f None (Some (ps_df s))) with (rebin_data_log fuel fr un f (Some (map (fun _ => 0) un)) (Some (ps_df s))). rewrite Eu. reflexivity. }
  split; [assumption|]. split; [assumption|]. split; [assumption|]. split; [assumption|]. split; [assumption|].
  set (nb := (length edges - 1)%nat) in *.
  split; [exact Lbx|]. split; [exact Lbp|]. split; [exact Pbp|]. split.
  { exists nsq. split; [reflexivity|]. split; [reflexivity|]. intros i n Hin. unfold nsq in Hin. rewrite nth_error_map in Hin.
    destruct (nth_error ns i) as [n'|] eqn:En; [|discriminate]. injection Hin as <-. rewrite (Pns i n' En). reflexivity. }
  intros lo hi lo' hi' Hag.
  set (mk := fun p : option Q * (option Q * Q) => {| b_freq := fst p; b_unnorm := match fst (snd p) with Some v => v | None => 0 end; b_k := snd (snd p); b_m := snd (snd p) * inject_Z m |}).
  set (l' := map mk (combine bx (combine bu nsq))).
  assert (Lq : length nsq = nb) by (unfold nsq; rewrite map_length; assumption).
  assert (Ll : length l' = nb) by (unfold l'; rewrite map_length, !combine_length; lia).
  assert (NL : forall i, (i < nb)%nat -> exists x u, nth_error bx i = Some x /\ nth_error bu i = Some u /\
             nth_error l' i = Some (mk (x, (u, inject_Z (Z.of_nat (count (in_cell edges i) fr)))))).
  { intros i Hi. destruct (nth_error_ex bx i ltac:(lia)) as [x Ex]. destruct (nth_error_ex bu i ltac:(lia)) as [u Eux]. destruct (nth_error_ex ns i ltac:(lia)) as [n En].
    exists x, u. split; [assumption|]. split; [assumption|]. unfold l'. rewrite nth_error_map, nth_error_combine by (rewrite combine_length; lia).
    rewrite Ex, nth_error_combine by lia. rewrite Eux. unfold nsq. rewrite nth_error_map, En. cbn [option_map]. rewrite (Pns i n En). reflexivity. }
  assert (Bl : bins_of s' l').
  { unfold bins_of. cbn [s' ps_freq ps_unnorm ps_k ps_m]. split; [|split; [|split; [|split; [|exact Logic.I] ] ] ].
    - unfold l'. rewrite map_map. cbn [mk b_freq]. symmetry. apply (combine_fst bx). rewrite combine_length. lia.
    - assert (NF : forall (R : bin -> option Q -> Prop) (a : list bin) b, length a = length b -> (forall n u v, nth_error a n = Some u -> nth_error b n = Some v -> R u v) -> Forall2 R a b).
      { clear. intros R. induction a as [|x a IH]; intros [|y b] L H; simpl in *; try discriminate; constructor.
        - apply (H 0%nat); reflexivity.
        - apply IH; [lia|]. intros n u v Hu Hv. apply (H (S n)); assumption. }
      apply NF; [congruence|]. intros i b u Hb Hub. assert (Hi : (i < nb)%nat) by (rewrite <- Ll; apply nth_error_Some; congruence).
      destruct (NL i Hi) as (x & u' & Ex & Eu' & El). rewrite Hb in El. injection El as ->. rewrite Hub in Eu'. injection Eu' as <-.
      cbn [mk b_freq b_unnorm fst snd]. intros Hx. destruct x as [x|]; [|congruence]. specialize (Pbx i _ Ex). cbv zeta in Pbx. cbn beta iota in Pbx.
      specialize (Pbu i _ Hub). cbv zeta in Pbu. destruct u as [u|]; [reflexivity|]. exfalso. cbn beta iota in Pbu. destruct Pbx as [_ Pbx]. rewrite Pbu in Pbx. apply (Qlt_irrefl _ Pbx).
    - unfold l'. cbn [per_ok]. rewrite map_map. cbn [mk b_k]. assert (X := combine_snd bu nsq ltac:(lia)).
      rewrite <- (map_map snd snd). rewrite combine_snd by (rewrite combine_length; lia). symmetry. assumption.
    - unfold l'. cbn [per_ok]. rewrite map_map. cbn [mk b_m]. assert (X := combine_snd bu nsq ltac:(lia)).
      rewrite <- (map_map (fun p : option Q * (option Q * Q) => snd (snd p)) (fun x => x * inject_Z m)). f_equal.
      rewrite <- (map_map snd snd). rewrite combine_snd by (rewrite combine_length; lia). symmetry. assumption. }
  assert (MP : 0 < inject_Z m) by (change 0 with (inject_Z 0); rewrite <- Zlt_Qlt; assumption).
  assert (Pr : proper_bins l').
  { exists (inject_Z m). intros b Hb Hfb. apply In_nth_error in Hb. destruct Hb as [i Hb]. assert (Hi : (i < nb)%nat) by (rewrite <- Ll; apply nth_error_Some; congruence).
    destruct (NL i Hi) as (x & u' & Ex & Eu' & El). rewrite Hb in El. injection El as ->. cbn [mk b_freq b_k b_m fst snd] in *.
    destruct x as [x|]; [|congruence]. specialize (Pbx i _ Ex). cbv zeta in Pbx. cbn beta iota in Pbx. destruct Pbx as [_ Pbx].
    split; [assumption|]. split; [|ring]. setoid_replace 0 with (0 * inject_Z m) by ring. apply Qmult_lt_r; assumption. }
  destruct (rms_main s lo hi level noise (plain_bins fr un m) B0 (plain_proper fr un m Pm) Pd Hn Hsg Hlev) as (r2 & e2 & V & C & F & _).
  destruct (rms_main s' lo' hi' level noise l' Bl Pr Pd Hn Hsg Hlev) as (r2' & e2' & V' & C' & F' & _).
  exists r2, e2, r2', e2'. split; [assumption|]. split; [assumption|].
  apply (fun h => finished_same _ _ _ _ _ _ _ _ h F' F). cbn [s' ps_df ps_nphots ps_segment].
  set (cn := frac_norm (ps_nphots s) (ps_segment s)).
  rewrite !integral_all. fold cn.
  set (h := fun a : Q * Q => if in_band lo hi (Some (fst a)) then cn * ps_df s * (snd a - noise) else 0).
  assert (EO : total (map (fun b => if in_band lo hi (b_freq b) then cn * (b_unnorm b - noise) * (ps_df s * b_k b) else 0) (plain_bins fr un m)) ==
               total (map snd (map (fun a => (fst a, h a)) (combine fr un)))).
  { unfold plain_bins. rewrite !map_map. apply total_map_ext. intros a _. cbn [b_freq b_unnorm b_k snd]. unfold h. destruct (in_band lo hi (Some (fst a))); ring. }
  rewrite EO. clear EO. rewrite <- (content_sum_cells edges nb).
  2:{ intros v Hv. rewrite map_map in Hv. cbn [fst] in Hv. rewrite combine_fst in Hv by assumption.
      assert (Hse : StronglySorted Qlt edges) by (apply ss_nth; exact Hinc).
      destruct (cell_unique edges v Hse) as (j & Hj & _ & Pj).
      - intros a' Ha'. rewrite Hed0 in Ha'. injection Ha' as <-.
        apply In_nth_error in Hv. destruct Hv as [i Hv]. rewrite (He _ _ Hv).
        assert (Z0 := zof_le 0 i ltac:(lia)). change (inject_Z (Z.of_nat 0)) with 0 in Z0.
        assert (0 * ps_df s <= inject_Z (Z.of_nat i) * ps_df s) by (apply Qmult_le_compat_r; lra). lra.
      - intros u Hu'. specialize (Hlast u Hu'). apply In_nth_error in Hv. destruct Hv as [i Hv].
        assert (Hi : (i < length fr)%nat) by (apply nth_error_Some; congruence).
        destruct (Nat.eq_dec i (length fr - 1)) as [->|Ni]; [assert (v = xl) by congruence; subst; assumption|].
        specialize (Hnd i (length fr - 1)%nat v xl ltac:(lia) Hv Hxl). lra.
      - assumption.
      - exists j. split; assumption. }
  rewrite (qsum_nth_total _ (fun i => content (in_cell edges i) (map (fun a => (fst a, h a)) (combine fr un))) l' 0%nat); [rewrite Ll; reflexivity|].
  intros i b Hb. rewrite Nat.add_0_l. assert (Hi : (i < nb)%nat) by (rewrite <- Ll; apply nth_error_Some; congruence).
  destruct (NL i Hi) as (x & u & Ex & Eux & El). rewrite Hb in El. injection El as ->. cbn [mk b_freq b_unnorm b_k fst snd].
  set (n := inject_Z (Z.of_nat (count (in_cell edges i) fr))) in *.
  pose proof (Pbx i _ Ex) as Px. pose proof (Pbu i _ Eux) as Pu. cbv zeta in Px, Pu. fold n in Px, Pu.
  set (c := if in_band lo' hi' x then cn * ps_df s else 0).
  assert (EC : content (in_cell edges i) (map (fun a => (fst a, h a)) (combine fr un)) == c * (content (in_cell edges i) (combine fr un) - noise * n)).
  { assert (En : n = inject_Z (Z.of_nat (count (in_cell edges i) (map fst (combine fr un))))) by (rewrite combine_fst by assumption; reflexivity).
    rewrite En, <- content_affine. apply content_ext. intros a Ha Hc.
    assert (Hin : In (fst a) fr) by (rewrite <- (combine_fst fr un Lu); apply in_map; assumption).
    destruct x as [g|].
    - unfold h, c. rewrite (Hag i g (fst a) Ex Hin Hc). destruct (in_band lo' hi' (Some g)); ring.
    - exfalso. assert (Z0 : count (in_cell edges i) fr = 0%nat).
      { unfold n in Px. change 0 with (inject_Z (Z.of_nat 0)) in Px. rewrite inject_Z_injective in Px. lia. }
      rewrite (count_zero _ _ _ Z0 Hin) in Hc. discriminate. }
  rewrite EC. unfold c. destruct x as [g|].
  - destruct (in_band lo' hi' (Some g)); [|ring]. destruct u as [u|].
    + rewrite <- (proj1 Pu). ring.
    + exfalso. rewrite Pu in Px. destruct Px as [_ Px]. apply (Qlt_irrefl _ Px).
  - cbn [in_band]. ring.
Qed.

(* whole frequency range *)
Lemma rebin_log_whole s x0 xl fr pw un m f level noise lo hi :
  plain_spectrum s x0 fr pw un m -> 0 <= f -> 0 <= x0 -> nth_error fr (length fr - 1) = Some xl ->
  0 < ps_nphots s -> 0 < ps_segment s ->
  match level with None => noise = ps_nphots s | Some v => unnorm_level v (ps_dt s) (ps_n s) (ps_nphots s) (ps_norm s) = Ok noise end ->
  lo <= x0 -> xl <= hi ->
  exists fuel s' r2 e2 r2' e2', ps_rebin_log fuel s f = Ok s' /\ compute_rms s lo hi level = Ok (Some (r2, e2)) /\
    compute_rms s' lo hi level = Ok (Some (r2', e2')) /\ r2' == r2.
Proof.
  intros HP Hf0 Hx0 Hxl Hn Hsg Hlev Hlo Hhi.
  assert (HP' := HP). destruct HP' as (Hf & Hp & Hu & Lp & Lu & He & H0 & Hk1 & Hm & Pm & Pd).
  destruct (rebin_log_total fr pw f (map (fun _ => 0) pw) (ps_df s) x0 xl Hf0 Pd H0 Hxl Lp) as (fuel0 & out & Eo); [rewrite map_length; assumption|].
  destruct out as (edges0 & (((bx & bp) & be) & ns)).
  assert (Hnd : nondecreasing fr).
  { intros i j u v Hij Hu' Hv'. rewrite (He _ _ Hu'), (He _ _ Hv'). assert (Hz := zof_lt i j Hij).
    assert ((inject_Z (Z.of_nat i) + 1) * ps_df s <= inject_Z (Z.of_nat j) * ps_df s) by (apply Qmult_le_compat_r; lra). lra. }
  assert (HIN : forall v, In v fr -> lo <= v /\ v <= hi).
  { intros v Hv. apply In_nth_error in Hv. destruct Hv as [i Hv]. assert (Hi : (i < length fr)%nat) by (apply nth_error_Some; congruence). split.
    - destruct (Nat.eq_dec i 0) as [->|N]; [assert (v = x0) by congruence; subst; assumption|]. specialize (Hnd 0%nat i x0 v ltac:(lia) H0 Hv). lra.
    - destruct (Nat.eq_dec i (length fr - 1)) as [->|N]; [assert (v = xl) by congruence; subst; assumption|]. specialize (Hnd i (length fr - 1)%nat v xl ltac:(lia) Hv Hxl). lra. }
  destruct (rebin_log_keeps s x0 xl fr pw un m f level noise HP Hf0 Hx0 Hxl Hn Hsg Hlev) as (fuel & s' & edges & E & _ & _ & _ & _ & _ & _ & _ & _ & _ & K).
  exists fuel, s'. destruct (K lo hi lo hi) as (r2 & e2 & r2' & e2' & A & B & C).
  - intros i g v Hg Hv _. transitivity true; [simpl; apply andb_true_iff; rewrite !qle_t; apply HIN; assumption|]. symmetry.
    clear Eo bx bp be ns edges0 fuel0.
    unfold ps_rebin_log in E. rewrite Hf, Hp, Hu, !all_some_map in E.
    change (rebin_data_log fuel fr pw f None (Some (ps_df s))) with (rebin_data_log fuel fr pw f (Some (map (fun _ => 0) pw)) (Some (ps_df s))) in E.
    destruct (rebin_data_log fuel fr pw f (Some (map (fun _ => 0) pw)) (Some (ps_df s))) as [ (ed & (((bx & bp) & be) & ns)) |er] eqn:Eo; [|discriminate]. cbn [bind] in E.
    rewrite Hm in E. cbn [mul_perbin bind] in E. destruct (rebin_data_log fuel fr un f None (Some (ps_df s))) as [ (edu & (((bxu & bu) & beu) & nsu)) |er]; [|discriminate]. cbn [bind] in E.
    assert (IO : forall A (x y : A), Ok x = Ok y -> x = y) by (intros; congruence). apply IO in E. rewrite <- E in Hg. cbn [ps_freq] in Hg.
    pose proof (rebin_log_main fuel fr pw f _ (ps_df s) x0 xl ed bx bp be ns Hf0 Pd Hnd H0 Hxl Hx0 Eo) as (_ & _ & _ & _ & _ & _ & _ & _ & _ & _ & _ & _ & _ & Pbx & _).
    specialize (Pbx i _ Hg). cbv zeta in Pbx. cbn beta iota in Pbx. destruct Pbx as [P1 P2].
    destruct (content_bounds (in_cell ed i) (combine fr fr) lo hi) as [C1 C2].
    { intros [a b] Hab. cbn [snd]. apply HIN. apply in_combine_r in Hab. assumption. }
    rewrite combine_fst in C1, C2 by reflexivity. set (n := inject_Z (Z.of_nat (count (in_cell ed i) fr))) in *. simpl. apply andb_true_iff. rewrite !qle_t. split.
    + apply (Qmult_le_r _ _ n P2). lra.
    + apply (Qmult_le_r _ _ n P2). lra.
  - exists r2, e2, r2', e2'. auto.
Qed.

(* ---------- rejected and broken cases ---------- *)
Definition ex_spec : pspec :=
  {| ps_freq := map Some [1; 2; 3; 4; 5; 6; 7; 8]; ps_power := map Some [5; 3; 4; 2; 3; 2; 2; 1]; ps_unnorm := map Some [500; 300; 400; 200; 300; 200; 200; 100];
     ps_df := 1; ps_m := One 1; ps_k := One 1; ps_nphots := 100; ps_nphots1 := 100; ps_segment := 1; ps_dt := 1 # 16; ps_n := 16; ps_norm := NLeahy |}.
Lemma ex_plain : plain_spectrum ex_spec 1 [1; 2; 3; 4; 5; 6; 7; 8] [5; 3; 4; 2; 3; 2; 2; 1] [500; 300; 400; 200; 300; 200; 200; 100] 1.
Proof.
  unfold plain_spectrum. split; [reflexivity|]. split; [reflexivity|]. split; [reflexivity|]. split; [reflexivity|]. split; [reflexivity|].
  split; [|split; [reflexivity|split; [reflexivity|split; [reflexivity|split; reflexivity] ] ] ].
  intros i a Ha. do 8 (destruct i as [|i]; [injection Ha as <-; reflexivity|]). destruct i; discriminate.
Qed.
Lemma rebin_nothing s method : ps_rebin s None None method = Err ValueError.
Proof. reflexivity. Qed.
Lemma rebin_log_twice : exists s s1 s2 r, plain_spectrum s 1 [1; 2; 3; 4; 5; 6; 7; 8] [5; 3; 4; 2; 3; 2; 2; 1] [500; 300; 400; 200; 300; 200; 200; 100] 1 /\
  ps_rebin_log 20 s 1 = Ok s1 /\ ps_rebin_log 20 s1 1 = Ok s2 /\ ps_freq s2 = ps_freq s1 /\ ps_unnorm s2 = ps_unnorm s1 /\
  compute_rms s1 0 100 None = Ok (Some r) /\ compute_rms s2 0 100 None = Err ValueError.
Proof.
  exists ex_spec. do 3 eexists. split; [exact ex_plain|]. split; [vm_compute; reflexivity|]. split; [vm_compute; reflexivity|].
  split; [reflexivity|]. split; [reflexivity|]. split; [vm_compute; reflexivity|vm_compute; reflexivity].
Qed.
Lemma rebin_log_twice_error : exists s s1, plain_spectrum s 1 [1; 2; 3; 4; 5; 6; 7; 8] [5; 3; 4; 2; 3; 2; 2; 1] [500; 300; 400; 200; 300; 200; 200; 100] 1 /\
  ps_rebin_log 20 s (1 # 4) = Ok s1 /\ ps_rebin_log 20 s1 2 = Err ValueError.
Proof. exists ex_spec. eexists. split; [exact ex_plain|]. split; [vm_compute; reflexivity|vm_compute; reflexivity]. Qed.
Lemma rebin_after_log : exists s f s1 s2 m1 m2, plain_spectrum s 1 [1; 2; 3; 4; 5; 6; 7; 8] [5; 3; 4; 2; 3; 2; 2; 1] [500; 300; 400; 200; 300; 200; 200; 100] 1 /\
  ps_rebin_log 20 s f = Ok s1 /\ ps_rebin s1 (Some 5) None MMean = Ok s2 /\ compute_rms s2 0 100 None = Err IndexError /\
  ps_m s1 = Each m1 /\ ps_m s2 = Each m2 /\ length m2 <> length (ps_freq s2) /\ Forall2 (fun a b => b == 3 * a) m1 m2.
Proof.
  exists ex_spec, (1 # 4). do 4 eexists. split; [exact ex_plain|]. split; [vm_compute; reflexivity|]. split; [vm_compute; reflexivity|]. split; [vm_compute; reflexivity|].
  split; [reflexivity|]. split; [reflexivity|]. split; [vm_compute; discriminate|]. repeat (apply Forall2_cons; [reflexivity|]). apply Forall2_nil.
Qed.
(* The noise level, given in the norm of the spectrum, is the unnormalised power that this norm maps to it: N photons in n bins of dt. *)
Lemma level_ok v dt n N : 0 < dt -> (0 < n)%nat -> 0 < N ->
  let T := inject_Z (Z.of_nat n) * dt in
  (exists u, unnorm_level v dt n N NLeahy = Ok u /\ 2 * u / N == v) /\
  (exists u, unnorm_level v dt n N NFrac = Ok u /\ 2 * T * u / (N * N) == v) /\
  (exists u, unnorm_level v dt n N NAbs = Ok u /\ 2 * u / T == v) /\
  unnorm_level v dt n N NNone = Ok v /\ unnorm_level v dt n N NOther = Err ValueError.
Proof.
  intros Hd Hn HN T. assert (Z : 0 < inject_Z (Z.of_nat n)) by (change 0 with (inject_Z 0); rewrite <- Zlt_Qlt; lia).
  assert (HT : 0 < T) by (unfold T; apply Qmult_lt_0_compat; assumption). unfold unnorm_level.
  split; [eexists; split; [reflexivity|]; field; lra|]. split; [eexists; split; [reflexivity|]; unfold T; field; repeat split; lra|].
  split; [eexists; split; [reflexivity|]; unfold T; field; split; lra|]. split; reflexivity.
Qed.
(* Leahy powers normalised with the variance of the measurements (fourier.py normalize_leahy_from_variance): pure noise at the level 2 that the user passes. *)
Lemma rms_variance_noise : exists s var r e, ps_norm s = NLeahy /\ 0 < var /\
  (forall i u p, nth_error (ps_unnorm s) i = Some (Some u) -> nth_error (ps_power s) i = Some (Some p) -> p == u * 2 / (var * inject_Z (Z.of_nat (ps_n s))) /\ p == 2) /\
  (length (ps_unnorm s) > 0)%nat /\ ps_freq s = map Some [1; 2; 3] /\
  compute_rms s 0 10 (Some 2) = Ok (Some (r, e)) /\ 0 < r.
Proof.
  exists {| ps_freq := map Some [1; 2; 3]; ps_power := map Some [2; 2; 2]; ps_unnorm := map Some [80; 80; 80]; ps_df := 1; ps_m := One 1; ps_k := One 1;
            ps_nphots := 40; ps_nphots1 := 40; ps_segment := 1; ps_dt := 1 # 8; ps_n := 8; ps_norm := NLeahy |}, 10.
  do 2 eexists. split; [reflexivity|]. split; [reflexivity|]. split.
  - intros i u p Hu Hp. do 3 (destruct i as [|i]; [injection Hu as <-; injection Hp as <-; split; reflexivity|]). destruct i; discriminate.
  - split; [simpl; lia|]. split; [reflexivity|]. split; [vm_compute; reflexivity|reflexivity].
Qed.
