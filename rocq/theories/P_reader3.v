(* P_reader3.v: splitting an event file by number of events, and at time intervals. *)
From Verif Require Import Np Lib S_gti S_seg S_utils M_gti M_seg M_utils M_reader S_reader P_gti_ops P_gti_cross P_gti_final P_seg_regions P_seg_cut P_helpers P_flux P_seg_split P_reader P_reader2.
From Coq Require Import Lqa.
Open Scope Q_scope.

Lemma cut_pos chunk iv x y : 0 < chunk -> fst iv < snd iv -> In (x, y) (cut_gti chunk iv) -> x < y.
Proof.
  intros Hc Hab. destruct iv as [a b]. cbn [fst snd] in *. unfold cut_gti. cbn [fst snd].
  destruct (qlt chunk (b - a)) eqn:E; qb; [|intros [Eq|[]]; inversion Eq; subst; assumption].
  set (n := arange_len a b chunk).
  assert (Hn : (1 < n)%nat) by (apply arange_len_spec; [assumption|]; simpl; change (inject_Z 1) with 1; lra).
  assert (Hlast : last (arange a b chunk) a < b).
  { assert (Hin : In (last (arange a b chunk) a) (arange a b chunk)).
    { apply last_In. unfold arange. fold n. destruct n; [lia|]. discriminate. }
    apply in_arange in Hin; [|assumption]. destruct Hin as (i & Ei & Hi). rewrite Ei. assumption. }
  replace (qlt (last (arange a b chunk) a) b) with true by (symmetry; qb; assumption).
  rewrite combine_pairs. intros Hin. apply pairs_in in Hin. destruct Hin as (i & Hx & Hy).
  assert (Hlen : length (arange a b chunk) = n) by (unfold arange; rewrite map_length, seq_length; reflexivity).
  assert (C : (S i < length (arange a b chunk ++ [b]))%nat) by (apply nth_error_Some; congruence).
  rewrite app_length in C. simpl in C.
  rewrite nth_error_app1 in Hx by lia. apply nth_arange in Hx; [|assumption]. destruct Hx as [-> Hx].
  destruct (Nat.lt_ge_cases (S i) n) as [Hi2|Hi2].
  - rewrite nth_error_app1 in Hy by lia. apply nth_arange in Hy; [|assumption]. destruct Hy as [-> _].
    rewrite zof_S. assert (Er : (inject_Z (Z.of_nat i) + 1) * chunk == inject_Z (Z.of_nat i) * chunk + chunk) by ring. lra.
  - rewrite nth_error_app2 in Hy by lia. replace (S i - length (arange a b chunk))%nat with 0%nat in Hy by lia.
    inversion Hy; subst. apply (arange_len_spec a y chunk i Hc) in Hx. lra.
Qed.
Lemma firstn_in {A} (l : list A) n x : In x (firstn n l) -> In x l.
Proof. intros H. rewrite <- (firstn_skipn n l). apply in_app_iff. now left. Qed.
Lemma skipn_in {A} (l : list A) n x : In x (skipn n l) -> In x l.
Proof. intros H. rewrite <- (firstn_skipn n l). apply in_app_iff. now right. Qed.
Lemma loop_in g : forall idx prev p iv, In p (fst (split_loop g prev idx)) -> In iv p -> In iv g.
Proof.
  induction idx as [|i idx IH]; intros prev p iv Hp Hi; [destruct Hp|]. cbn [split_loop fst] in Hp. destruct Hp as [<-|Hp]; [|eapply IH; eassumption].
  unfold zslice, slice in Hi. apply firstn_in, skipn_in in Hi. assumption.
Qed.
Lemma at_in g idx parts : split_gtis_at_indices g idx = Ok parts -> forall p iv, In p parts -> In iv p -> In iv g.
Proof.
  unfold split_gtis_at_indices. destruct idx as [|i0 tl0]; [discriminate|].
  set (ix := if (i0 =? 0)%Z then tl0 else i0 :: tl0). destruct (get_last ix) as [l|]; [|discriminate]. cbn [bind].
  destruct (_ && _)%bool; intros E; inversion E; subst; intros p iv Hp Hi.
  - apply in_app_iff in Hp. destruct Hp as [Hp|[<-|[]]]; [eapply loop_in; eassumption|]. eapply skipn_in; eassumption.
  - eapply loop_in; eassumption.
Qed.
Lemma split_pos g chunk parts : 0 < chunk -> positive_lengths g -> split_gtis_by_exposure g chunk None = Ok parts ->
  positive_lengths (concat parts).
Proof.
  intros Hc Hp. unfold split_gtis_by_exposure, split_gtis_by_exposure_nogap. destruct (_ <=? 1)%Z.
  - intros E. inversion E; subst. cbn [concat]. rewrite app_nil_r. assumption.
  - intros E a b Hin. apply in_concat in Hin. destruct Hin as (p & Hp1 & Hin).
    assert (H := at_in _ _ _ E p (a, b) Hp1 Hin). destruct (Z.of_nat (length g) <=? _)%Z; [|now apply Hp].
    apply in_flat_map in H. destruct H as ([c d] & Hcd & H). apply (cut_pos chunk (c, d)); [assumption|apply Hp; assumption|assumption].
Qed.

Lemma span_bounds g a b : wf2 g -> spans g a b -> forall x y, In (x, y) g -> a <= x /\ y <= b.
Proof.
  intros [Hp Hs] [(x0 & g1 & E1) (g2 & y0 & E2)] x y Hin. rewrite Forall_forall in Hp. split.
  - rewrite E1 in *. destruct Hin as [E|Hin]; [inversion E; subst; lra|]. apply StronglySorted_inv in Hs. destruct Hs as [_ Hf].
    rewrite Forall_forall in Hf. specialize (Hf _ Hin). cbn [fst snd] in *.
    specialize (Hp (a, x0) (or_introl eq_refl)). cbn [fst snd] in Hp. lra.
  - rewrite E2 in *. apply ss_app in Hs. destruct Hs as (_ & _ & Hx). apply in_app_iff in Hin.
    assert (Hl : In (y0, b) (g2 ++ [(y0, b)])) by (apply in_app_iff; right; now left). apply Hp in Hl. cbn [fst snd] in Hl.
    destruct Hin as [Hin|[E|[]]]; [|inversion E; subst; lra].
    specialize (Hx _ _ Hin (or_introl eq_refl)). cbn [fst snd] in Hx. lra.
Qed.
Lemma spans_in g a b : spans g a b -> (exists y, In (a, y) g) /\ (exists x, In (x, b) g).
Proof.
  intros [(x0 & g1 & E1) (g2 & y0 & E2)]. split; [exists x0; rewrite E1; now left|]. exists y0. rewrite E2. apply in_app_iff. right. now left.
Qed.
Lemma wf2_app g h : wf2 (g ++ h) -> wf2 g /\ wf2 h /\ forall x y, In x g -> In y h -> snd x <= fst y.
Proof.
  intros [Hp Hs]. apply ss_app in Hs. destruct Hs as (S1 & S2 & S3). apply Forall_app in Hp. destruct Hp as [P1 P2].
  split; [split; assumption|]. split; [split; assumption|assumption].
Qed.
Lemma parts_spans parts : wf2 (concat parts) -> positive_lengths (concat parts) ->
  exists sp, Forall2 (fun g s => spans g (fst s) (snd s)) (filter nonempty parts) sp /\
    StronglySorted (fun x y : Q * Q => snd x <= fst y) sp /\
    (forall s, In s sp -> fst s < snd s /\ (exists y, In (fst s, y) (concat parts)) /\ (exists x, In (x, snd s) (concat parts))) /\
    (forall t, covered (concat parts) t -> in_good sp t = true).
Proof.
  induction parts as [|g parts IH]; intros Hwf Hpos.
  - exists []. split; [constructor|]. split; [constructor|]. split; [intros s []|]. intros t (a & b & [] & _).
  - cbn [concat] in *. destruct (wf2_app _ _ Hwf) as (W1 & W2 & W3).
    destruct IH as (sp & F & SS & Hsp & Hcov); [assumption|intros a b H; apply Hpos; apply in_app_iff; now right|].
    destruct g as [|iv g].
    + exists sp. cbn [filter nonempty app]. split; [assumption|]. split; [assumption|]. split; assumption.
    + destruct (span_ex (iv :: g) ltac:(discriminate)) as (a & b & Sp & _).
      assert (B := span_bounds _ _ _ W1 Sp). destruct (spans_in _ _ _ Sp) as [(y & Hy) (x & Hx)].
      exists ((a, b) :: sp). cbn [filter nonempty]. split; [constructor; assumption|]. split; [|split].
      * constructor; [assumption|]. apply Forall_forall. intros s Hs. destruct (Hsp s Hs) as (_ & (y' & Hy') & _).
        specialize (W3 _ _ Hx Hy'). exact W3.
      * intros s [<-|Hs]; cbn [fst snd].
        -- split; [|split; [exists y|exists x]; apply in_app_iff; now left].
           assert (a < y) by (apply Hpos; apply in_app_iff; now left). apply B in Hy. lra.
        -- destruct (Hsp s Hs) as (H1 & (y' & Hy') & (x' & Hx')). split; [assumption|].
           split; [exists y'|exists x']; apply in_app_iff; now right.
      * intros t (u & v & Hin & H1 & H2). apply in_app_iff in Hin. unfold in_good. cbn [existsb fst snd]. destruct Hin as [Hin|Hin].
        -- apply B in Hin. replace (qle a t) with true by (symmetry; qb; lra). replace (qlt t b) with true by (symmetry; qb; lra). reflexivity.
        -- assert (C : in_good sp t = true) by (apply Hcov; exists u, v; auto). unfold in_good in C. rewrite C. apply orb_true_r.
Qed.
(* good time stays between the ends of the intervals *)
Lemma inside_reach {A} (rows : list (Q * A)) g h : positive_lengths h -> (forall t, covered h t -> covered g t) ->
  forall a y x b, In (a, y) h -> In (x, b) h -> reaches rows g a b.
Proof.
  intros Hpos Hcov a y x b Ha Hb. split.
  - destruct (Hcov a) as (c & d & Hin & H1 & H2); [exists a, y; split; [assumption|]; specialize (Hpos _ _ Ha); lra|].
    exists c. split; [right; left; apply in_map_iff; exists (c, d); auto|assumption].
  - assert (Hfin : forall l : gtis, (forall c d, In (c, d) l -> d < b) -> exists m, x <= m /\ m < b /\ forall c d, In (c, d) l -> d <= m).
    { specialize (Hpos _ _ Hb). induction l as [|[c d] l IH]; intros Hd; [exists x; split; [lra|]; split; [lra|]; intros c d []|].
      destruct IH as (m & M1 & M2 & M3); [intros; eapply Hd; right; eassumption|].
      specialize (Hd c d (or_introl eq_refl)) as Hd'. destruct (Qlt_le_dec m d) as [D|D].
      - exists d. split; [lra|]. split; [assumption|]. intros c' d' [E|Hin]; [inversion E; subst; lra|]. apply M3 in Hin. lra.
      - exists m. split; [assumption|]. split; [assumption|]. intros c' d' [E|Hin]; [inversion E; subst; assumption|]. now apply M3 in Hin. }
    destruct (existsb (fun iv => qle b (snd iv)) g) eqn:E.
    + apply existsb_exists in E. destruct E as ([c d] & Hin & E). cbn [snd] in E. qb. exists d. split; [|assumption].
      right; right. apply in_map_iff. exists (c, d). auto.
    + exfalso. destruct (Hfin g) as (m & M1 & M2 & M3).
      { intros c d Hin. apply Qnot_le_lt. intros C. assert (existsb (fun iv : Q * Q => qle b (snd iv)) g = true); [|congruence].
        apply existsb_exists. exists (c, d). split; [assumption|]. cbn [snd]. qb. assumption. }
      destruct (Hcov m) as (c & d & Hin & H1 & H2); [exists x, b; auto|]. apply M3 in Hin. lra.
Qed.
Lemma pieces_concat {A} (rows : list (Q * A)) z lists : forall sp pieces,
  Forall2 (fun g s => spans g (fst s) (snd s)) lists sp -> Forall2 (piece_of rows z) lists pieces ->
  concat (map fst pieces) = moved z (concat (map (fun s => rows_in rows (fst s) (snd s)) sp)) /\ map snd pieces = lists.
Proof.
  induction lists as [|g lists IH]; intros sp pieces F1 F2; inversion F1; inversion F2; subst; [split; reflexivity|].
  match goal with H : piece_of _ _ _ _ |- _ => destruct H as (E & a & b & Sp & E2) end.
  match goal with H : spans g (fst ?y) _ |- _ => destruct (spans_unique _ _ _ _ _ H Sp) as [Ea Eb] end.
  match goal with H1 : Forall2 _ lists ?l1, H2 : Forall2 _ lists ?l2 |- _ => destruct (IH _ _ H1 H2) as [C1 C2] end.
  cbn [map concat]. rewrite E2, E, C1, C2, Ea, Eb. unfold moved. rewrite map_app. split; reflexivity.
Qed.
Lemma concat_nonempty {A} (l : list (list A)) : concat (filter nonempty l) = concat l.
Proof. induction l as [|[|x g] l IH]; cbn [filter nonempty concat]; rewrite ?IH; reflexivity. Qed.
Lemma good_rows_sub {A} (rows : list (Q * A)) g sp : (forall t, covered g t -> in_good sp t = true) ->
  good_rows g (filter (fun r => in_good sp (fst r)) rows) = good_rows g rows.
Proof.
  intros H. unfold good_rows. induction rows as [|r rows IH]; [reflexivity|]. cbn [filter].
  destruct (in_good g (fst r)) eqn:E.
  - apply in_good_iff in E. assert (E' := E). apply H in E'. rewrite E'. cbn [filter]. apply in_good_iff in E. rewrite E. now rewrite IH.
  - destruct (in_good sp (fst r)); [cbn [filter]; rewrite E|]; assumption.
Qed.
Lemma total_exposure g : positive_lengths g -> get_total_gti_length g 0 == exposure g.
Proof.
  unfold get_total_gti_length. induction g as [|[a b] g IH]; intros Hp; [reflexivity|].
  cbn [get_gti_lengths map filter fst snd exposure]. assert (a < b) by (apply Hp; now left).
  replace (qle 0 (b - a)) with true by (symmetry; qb; lra). unfold qsum in *. cbn [fold_right].
  change (map (fun iv : Q * Q => snd iv - fst iv) g) with (get_gti_lengths g). rewrite IH; [reflexivity|].
  intros c d H'. apply Hp. now right.
Qed.
Lemma exposure_pos g : good g -> 0 < exposure g.
Proof.
  intros (Hn & Hwf & Hp). destruct g as [|[a b] g]; [congruence|]. cbn [exposure].
  assert (a < b) by (apply Hp; now left). assert (0 <= exposure g); [|lra]. apply exposure_nonneg. apply Forall_forall.
  intros [c d] H'. cbn [fst snd]. assert (c < d) by (apply Hp; now right). lra.
Qed.
Lemma moved_exposure z g : exposure (moved_gti z g) == exposure g.
Proof. induction g as [|[a b] g IH]; [reflexivity|]. cbn [moved_gti map exposure fst snd] in *. unfold moved_gti in IH. rewrite IH. ring. Qed.
Lemma close_exposure g h : close_lists g h -> exposure h <= exposure g + (2 # 1000) * inject_Z (Z.of_nat (length h)).
Proof.
  unfold close_lists. induction 1 as [|[a b] [c d] g h [H1 H2] F IH]; [cbn [exposure length]; change (inject_Z (Z.of_nat 0)) with 0; lra|]. cbn [exposure fst snd length] in *.
  rewrite zof_S. apply Qabs_Qlt_condition in H1. apply Qabs_Qlt_condition in H2. lra.
Qed.
Lemma moved_covered z g t : z == 0 -> (covered (moved_gti z g) t <-> covered g t).
Proof.
  intros Hz. split; intros (a & b & Hin & H1 & H2).
  - unfold moved_gti in Hin. apply in_map_iff in Hin. destruct Hin as ([c d] & E & Hin). inversion E; subst. cbn [fst snd] in *.
    exists c, d. split; [assumption|]. lra.
  - exists (a + z), (b + z). split; [apply in_map_iff; exists (a, b); auto|]. lra.
Qed.

Lemma split_main {A} (rd : reader A) ns M : in_order (rd_rows rd) -> rd_rows rd <> [] -> good (rd_gti rd) -> (0 < ns)%Z ->
  (forall a b, In (a, b) (rd_gti rd) -> b - a <= M) ->
  let n := rint (inject_Z (Z.of_nat (length (rd_rows rd))) / inject_Z ns) in
  exists pieces ev, split_by_number rd None ns = Ok pieces /\
    concat (map fst pieces) = moved (rd_zero rd) ev /\ good_rows (rd_gti rd) ev = good_rows (rd_gti rd) (rd_rows rd) /\
    (rd_zero rd == 0 -> forall t, covered (concat (map snd pieces)) t <-> covered (rd_gti rd) t) /\
    ((1 <= n)%Z -> forall p, In p pieces ->
       exposure (snd p) <= (3 # 2) * (exposure (rd_gti rd) / inject_Z n) + M + (2 # 1000) * inject_Z (Z.of_nat (length (rd_gti rd)))).
Proof.
  intros Hs Hr Hg Hns HM n. assert (Hg0 := Hg). destruct Hg as (Hne & Hwf & Hpos). unfold split_by_number.
  replace (ns =? 0)%Z with false by (symmetry; apply Z.eqb_neq; lia). fold n.
  assert (HM0 : 0 <= M).
  { destruct (rd_gti rd) as [|[a b] g]; [congruence|]. specialize (HM a b (or_introl eq_refl)). specialize (Hpos a b (or_introl eq_refl)). lra. }
  assert (Hn0 : (0 <= n)%Z).
  { assert (0 <= inject_Z (Z.of_nat (length (rd_rows rd))) / inject_Z ns).
    { apply Qle_shift_div_l; [change 0 with (inject_Z 0); rewrite <- Zlt_Qlt; assumption|]. rewrite Qmult_0_l.
      change 0 with (inject_Z 0). rewrite <- Zle_Qle. lia. }
    assert (R := rint_half (inject_Z (Z.of_nat (length (rd_rows rd))) / inject_Z ns)). fold n in R.
    destruct (Z.le_gt_cases 0 n) as [L|L]; [assumption|]. assert (n <= -1)%Z by lia. rewrite Zle_Qle in H0. change (inject_Z (-1)) with (-1) in H0. lra. }
  assert (Hlen : 0 <= (2 # 1000) * inject_Z (Z.of_nat (length (rd_gti rd)))).
  { assert (0 <= inject_Z (Z.of_nat (length (rd_gti rd)))) by (change 0 with (inject_Z 0); rewrite <- Zle_Qle; lia). lra. }
  assert (Hself : close_lists (rd_gti rd) (rd_gti rd)).
  { unfold close_lists. clear. induction (rd_gti rd) as [|iv g IH]; constructor; [|assumption].
    assert (E : forall x : Q, Qabs (x - x) < 1 # 1000) by (intros x; apply Qabs_Qlt_condition; lra). split; apply E. }
  assert (Whole : forall lists, get lists 0 = Ok (rd_gti rd) \/ (exists g l, lists = g :: l /\ close_lists g (rd_gti rd)) ->
    apply_gti_lists rd None lists = Ok [(moved (rd_zero rd) (rd_rows rd), moved_gti (rd_zero rd) (rd_gti rd))]).
  { intros lists [H|(g & l & -> & H)]; [|now apply same_case]. destruct lists as [|g l]; [discriminate|].
    cbn [get nth_error] in H. inversion H; subst. now apply same_case. }
  destruct (n =? 0)%Z eqn:En.
  { apply Z.eqb_eq in En. cbn [bind]. rewrite Whole by (left; reflexivity). eexists _, (rd_rows rd). split; [reflexivity|].
    cbn [map concat fst snd]. rewrite !app_nil_r. split; [reflexivity|]. split; [reflexivity|]. split; [intros Hz t; now apply moved_covered|]. lia. }
  apply Z.eqb_neq in En. assert (Hn1 : (1 <= n)%Z) by lia.
  assert (Hnq : 1 <= inject_Z n) by (change 1 with (inject_Z 1); rewrite <- Zle_Qle; assumption).
  assert (Hx := exposure_pos _ Hg0). assert (Tx := total_exposure _ Hpos).
  set (chunk := get_total_gti_length (rd_gti rd) 0 / inject_Z n).
  assert (Hck : chunk == exposure (rd_gti rd) / inject_Z n) by (unfold chunk; rewrite Tx; reflexivity).
  assert (Hc : 0 < chunk) by (rewrite Hck; apply Qlt_shift_div_l; lra).
  destruct (split_by_exposure_main (rd_gti rd) chunk M Hc Hwf HM HM0) as (parts & Ep & Wp & Xp & Cp & Bp). rewrite Ep. cbn [bind].
  assert (Pp := split_pos _ _ _ Hc Hpos Ep). apply wf2_iff in Wp. destruct parts as [|g0 parts].
  { exfalso. cbn [concat exposure] in Xp. lra. }
  destruct (same_gti g0 (rd_gti rd)) eqn:Es.
  - apply same_gti_iff in Es. rewrite Whole by (right; exists g0, parts; auto). eexists _, (rd_rows rd). split; [reflexivity|].
    cbn [map concat fst snd]. rewrite !app_nil_r. split; [reflexivity|]. split; [reflexivity|]. split; [intros Hz t; now apply moved_covered|].
    intros _ p [<-|[]]. cbn [snd]. rewrite moved_exposure. specialize (Bp g0 (or_introl eq_refl)). apply close_exposure in Es. rewrite <- Hck. lra.
  - assert (Hno : ~ close_lists g0 (rd_gti rd)) by (intros C; apply same_gti_iff in C; congruence).
    destruct (parts_spans (g0 :: parts) Wp Pp) as (sp & F & SS & Hsp & Hcov).
    destruct (pieces_main rd g0 parts Hs Hr Hne) as (pieces & E & F2); [|assumption|].
    { intros g' a b Hin Sp. destruct (spans_in _ _ _ Sp) as [(y & Hy) (x & Hx')].
      assert (Hsub : forall iv, In iv g' -> In iv (concat (g0 :: parts))) by (intros iv Hiv; apply in_concat; exists g'; auto).
      split; [|eapply inside_reach; [exact Pp|intros t; apply Cp|apply Hsub; exact Hy|apply Hsub; exact Hx']].
      assert (Wg : wf2 g').
      { clear - Wp Hin. revert Wp. generalize dependent (g0 :: parts). intros l Hin. induction l as [|h l IH]; [destruct Hin|].
        cbn [concat]. intros W. apply wf2_app in W. destruct Hin as [<-|Hin]; [tauto|]. apply IH; tauto. }
      assert (B := span_bounds _ _ _ Wg Sp _ _ Hy). assert (a < y) by (apply Pp, Hsub; assumption). lra. }
    destruct (pieces_concat _ _ _ _ _ F F2) as [C1 C2].
    exists pieces, (filter (fun r => in_good sp (fst r)) (rd_rows rd)). split; [assumption|].
    rewrite C1, C2, concat_nonempty. rewrite spans_concat by assumption. split; [reflexivity|].
    split; [apply good_rows_sub; intros t Ht; apply Hcov, Cp; assumption|]. split; [intros _; assumption|].
    intros _ p Hp. assert (Hin : In (snd p) (map snd pieces)) by (apply in_map; assumption). rewrite C2 in Hin.
    apply filter_In in Hin. destruct Hin as [Hin _]. specialize (Bp _ Hin). rewrite <- Hck. lra.
Qed.
