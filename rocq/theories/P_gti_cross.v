(* P_gti_cross.v: proofs about check_gtis, join_equal_gti_boundaries, cross_two_gtis, cross_gtis. *)
From Verif Require Import Lib S_gti M_gti.
Open Scope Q_scope.

Notation wfR := (fun x y : ivl => snd x <= fst y).
Notation sepR := (fun x y : ivl => snd x < fst y).

Lemma well_formed_ss g :
  well_formed g <-> Forall (fun iv => fst iv <= snd iv) g /\ StronglySorted wfR g.
Proof.
  unfold well_formed. rewrite Forall_forall, ss_nth. split; intros [H1 H2]; split.
  - intros [a b] Hin. apply (H1 a b Hin).
  - intros i j [a b] [c d] Hij Hi Hj. apply (H2 i j a b c d Hij Hi Hj).
  - intros a b Hin. apply (H1 (a, b) Hin).
  - intros i j a b c d Hij Hi Hj. apply (H2 i j (a, b) (c, d) Hij Hi Hj).
Qed.
Lemma gaps_between_ss g : gaps_between g <-> StronglySorted sepR g.
Proof.
  unfold gaps_between. rewrite ss_nth. split; intros H.
  - intros i j [a b] [c d] Hij Hi Hj. apply (H i j a b c d Hij Hi Hj).
  - intros i j a b c d Hij Hi Hj. apply (H i j (a, b) (c, d) Hij Hi Hj).
Qed.
Lemma positive_F g : positive_lengths g <-> Forall (fun iv => fst iv < snd iv) g.
Proof.
  unfold positive_lengths. rewrite Forall_forall. split; intros H.
  - intros [a b] Hin. apply (H a b Hin).
  - intros a b Hin. apply (H (a, b) Hin).
Qed.

(* ---- check_gtis ---- *)
Lemma neighbours_ss g :
  Forall (fun iv => fst iv <= snd iv) g ->
  (forallb (fun p : ivl * ivl => qle (snd (fst p)) (fst (snd p))) (combine g (tl g)) = true
   <-> StronglySorted wfR g).
Proof.
  induction g as [|x g IH]; intros Hp.
  - simpl. split; [constructor|reflexivity].
  - inversion Hp as [|? ? Hx Hg]; subst. destruct g as [|y g].
    + simpl. split; [repeat constructor|reflexivity].
    + specialize (IH Hg). cbn [tl combine forallb fst snd] in *. rewrite andb_true_iff. split.
      * intros [H1 H2]. qb. cbn [tl] in IH.
        assert (Hs : StronglySorted wfR (y :: g)).
        { apply IH. assumption. }
        constructor; [assumption|]. constructor; [assumption|].
        apply StronglySorted_inv in Hs. destruct Hs as [_ Hf]. rewrite Forall_forall in *.
        intros z Hz. specialize (Hf z Hz). simpl in Hf. assert (fst y <= snd y) by (apply Hg; left; reflexivity). lra.
      * intros Hs. apply StronglySorted_inv in Hs. destruct Hs as [Hs Hf]. split.
        -- qb. inversion Hf; subst. assumption.
        -- apply IH. assumption.
Qed.

Lemma check_gtis_iff g : check_gtis g = Ok tt <-> g <> [] /\ well_formed g.
Proof.
  rewrite well_formed_ss. destruct g as [|x g].
  - split; [discriminate|intros [H _]; congruence].
  - remember (x :: g) as l eqn:El.
    assert (Hl : l <> []) by (rewrite El; discriminate).
    replace (check_gtis l) with
      (if negb (forallb (fun iv : ivl => qle (fst iv) (snd iv)) l) then Err ValueError
       else if negb (forallb (fun p : ivl * ivl => qle (snd (fst p)) (fst (snd p))) (combine l (tl l)))
            then Err ValueError else Ok tt) by (rewrite El; reflexivity).
    clear El.
    assert (Hf : forallb (fun iv : ivl => qle (fst iv) (snd iv)) l = true <-> Forall (fun iv => fst iv <= snd iv) l).
    { rewrite forallb_forall, Forall_forall. split; intros H y Hy; specialize (H y Hy); qb; assumption. }
    destruct (forallb (fun iv : ivl => qle (fst iv) (snd iv)) l) eqn:E1; simpl negb; cbv iota.
    + assert (HF : Forall (fun iv => fst iv <= snd iv) l) by (apply Hf; reflexivity).
      pose proof (neighbours_ss l HF) as Hn.
      destruct (forallb (fun p : ivl * ivl => qle (snd (fst p)) (fst (snd p))) (combine l (tl l))) eqn:E2; simpl negb; cbv iota.
      * split; [intros _; repeat split; [assumption|assumption|apply Hn; first [exact E2|reflexivity]]|reflexivity].
      * split; [discriminate|]. intros (_ & _ & Hs). apply Hn in Hs. discriminate.
    + split; [discriminate|]. intros (_ & HF & _). apply Hf in HF. congruence.
Qed.
Lemma check_gtis_cases g : check_gtis g = Ok tt \/ check_gtis g = Err ValueError.
Proof.
  unfold check_gtis. destruct g; [right; reflexivity|].
  destruct (negb _); [right; reflexivity|]. destruct (negb _); [right; reflexivity|left; reflexivity].
Qed.

(* ---- join_equal_gti_boundaries ---- *)
Lemma join_equal_spec rest : forall cur,
  Forall (fun iv => fst iv < snd iv) (cur :: rest) -> StronglySorted wfR (cur :: rest) ->
  let r := join_equal_loop 0 cur rest in
  Forall (fun iv => fst iv < snd iv) r /\ StronglySorted sepR r /\
  (forall t, covered r t <-> covered (cur :: rest) t) /\
  (forall iv, In iv r -> fst cur <= fst iv) /\
  (forall iv, In iv r -> In (fst iv) (map fst (cur :: rest)) /\ In (snd iv) (map snd (cur :: rest))).
Proof.
  induction rest as [|nxt rest IH]; intros cur HF HS r.
  - unfold r; simpl. repeat split; auto.
    + repeat constructor.
    + intros iv [<-|[]]. lra.
    + destruct H as [<-|[]]; left; reflexivity.
    + destruct H as [<-|[]]; left; reflexivity.
  - inversion HF as [|? ? Hc HF']; subst. inversion HF' as [|? ? Hn HF'']; subst.
    apply StronglySorted_inv in HS. destruct HS as [HS Hcf]. inversion Hcf as [|? ? Hcn Hcr]; subst.
    unfold r. cbn [join_equal_loop]. destruct (qle (Qabs (snd cur - fst nxt)) 0) eqn:E; qb.
    + assert (Heq : snd cur == fst nxt).
      { apply Qabs_Qle_condition in E. lra. }
      destruct (IH (fst cur, snd nxt)) as (A1 & A2 & A3 & A4 & A5).
      * constructor; [simpl; lra|assumption].
      * apply StronglySorted_inv in HS. destruct HS as [HS1 HS2]. constructor; [assumption|].
        rewrite Forall_forall in *. intros z Hz. simpl. apply HS2. assumption.
      * repeat split; auto.
        -- intros H. apply A3 in H. destruct H as (a & b & [Hab|Hab] & H1 & H2).
           ++ inversion Hab; subst. destruct (Qlt_le_dec t (fst nxt)).
              ** exists (fst cur), (snd cur). split; [left; destruct cur; reflexivity|]. lra.
              ** exists (fst nxt), (snd nxt). split; [right; left; destruct nxt; reflexivity|]. lra.
           ++ exists a, b. split; [right; right; assumption|]. lra.
        -- intros (a & b & [Hab|[Hab|Hab]] & H1 & H2); apply A3.
           ++ subst cur. simpl in *. exists a, (snd nxt). split; [left; reflexivity|]. simpl in *. lra.
           ++ subst nxt. simpl in *. exists (fst cur), b. split; [left; reflexivity|]. lra.
           ++ exists a, b. split; [right; assumption|]. lra.
        -- destruct (A5 iv H) as [B1 B2]. simpl in *. tauto.
        -- destruct (A5 iv H) as [B1 B2]. simpl in *. tauto.
    + assert (Hgap : snd cur < fst nxt).
      { destruct (Qlt_le_dec (snd cur) (fst nxt)) as [h|h]; [assumption|].
        exfalso. assert (snd cur - fst nxt == 0) by lra.
        rewrite H in E. simpl in E. lra. }
      destruct (IH nxt HF' HS) as (A1 & A2 & A3 & A4 & A5).
      repeat split.
      * constructor; assumption.
      * constructor; [assumption|]. rewrite Forall_forall. intros z Hz. apply A4 in Hz. lra.
      * intros (a & b & [Hab|Hab] & H1 & H2).
        -- exists a, b. split; [left; assumption|]. lra.
        -- assert (Hc' : covered (join_equal_loop 0 nxt rest) t) by (exists a, b; auto).
           apply A3 in Hc'. destruct Hc' as (a' & b' & Hin & H1' & H2'). exists a', b'. split; [right; assumption|]. auto.
      * intros (a & b & [Hab|Hab] & H1 & H2).
        -- exists a, b. split; [left; assumption|]. auto.
        -- assert (Hc' : covered (nxt :: rest) t) by (exists a, b; auto).
           apply A3 in Hc'. destruct Hc' as (a' & b' & Hin & H1' & H2'). exists a', b'. split; [right; assumption|]. auto.
      * intros iv [<-|Hin]; [lra|]. apply A4 in Hin. lra.
      * destruct H as [<-|Hin]; [left; reflexivity|]. right. apply A5. assumption.
      * destruct H as [<-|Hin]; [left; reflexivity|]. right. apply A5. assumption.
Qed.

(* Clean lists: non-empty, positive, strictly separated. *)
Definition clean (g : gtis) := g <> [] /\ Forall (fun iv => fst iv < snd iv) g /\ StronglySorted sepR g.

Lemma clean_check g : clean g -> check_gtis g = Ok tt.
Proof.
  intros (H1 & H2 & H3). apply check_gtis_iff. split; [assumption|]. apply well_formed_ss. split.
  - eapply Forall_impl; [|exact H2]. simpl. intros; lra.
  - eapply ss_weaken; [|exact H3]. simpl. intros; lra.
Qed.

(* In a clean list two intervals with comparable edges are ordered. *)
Lemma clean_order g a b c d : clean g -> In (a, b) g -> In (c, d) g ->
  (a = c /\ b = d) \/ b < c \/ d < a.
Proof.
  intros (_ & _ & HS) H1 H2. apply In_nth_error in H1. apply In_nth_error in H2.
  destruct H1 as [i Hi], H2 as [j Hj]. rewrite ss_nth in HS.
  destruct (lt_eq_lt_dec i j) as [[h|h]|h].
  - right; left. apply (HS i j _ _ h Hi Hj).
  - left. subst. rewrite Hi in Hj. inversion Hj; auto.
  - right; right. apply (HS j i _ _ h Hj Hi).
Qed.
Lemma clean_pos g a b : clean g -> In (a, b) g -> a < b.
Proof. intros (_ & H & _) Hin. rewrite Forall_forall in H. apply (H (a, b) Hin). Qed.

(* ---- the opening before e ---- *)
Lemma filter_lt_prefix g e : StronglySorted sepR g -> Forall (fun iv => fst iv < snd iv) g ->
  exists k, filter (fun s => qlt s e) (map fst g) = map fst (firstn k g) /\
            (forall iv, In iv (skipn k g) -> e <= fst iv).
Proof.
  induction g as [|x g IH]; intros HS HF.
  - exists 0%nat. split; [reflexivity|intros iv []].
  - apply StronglySorted_inv in HS. destruct HS as [HS Hf]. inversion HF; subst.
    simpl. destruct (qlt (fst x) e) eqn:E; qb.
    + destruct (IH HS H2) as (k & Hk1 & Hk2). exists (S k). simpl. rewrite Hk1. auto.
    + exists 0%nat. split.
      * simpl. rewrite Forall_forall in Hf.
        assert (Hall : forall y, In y (map fst g) -> e <= y).
        { intros y Hy. apply in_map_iff in Hy. destruct Hy as (z & <- & Hz). apply Hf in Hz. lra. }
        clear - Hall. induction (map fst g) as [|y l IHl]; [reflexivity|].
        simpl. replace (qlt y e) with false; [apply IHl; intros; apply Hall; right; assumption|].
        symmetry. qb. apply Hall. left; reflexivity.
      * simpl. intros iv [<-|Hin]; [assumption|]. rewrite Forall_forall in Hf. apply Hf in Hin. lra.
Qed.

Lemma nth_error_firstn_some {A} (l : list A) k p x : nth_error (firstn k l) p = Some x -> nth_error l p = Some x.
Proof.
  revert k l; induction p as [|p IH]; intros k l H; destruct k, l; simpl in *; try discriminate; auto.
  eapply IH; eauto.
Qed.

Lemma opening_ok g e p : clean g -> opening_pos (map fst g) e = Ok p ->
  exists a b, nth_error g p = Some (a, b) /\ a < e /\
              (forall a' b', In (a', b') g -> a' < e -> a' <= a).
Proof.
  intros (_ & HF & HS) H. unfold opening_pos in H.
  destruct (filter_lt_prefix g e HS HF) as (k & Hk1 & Hk2).
  pose proof H as H0. apply argmax_spec in H. destruct H as (m & Hm & Hmax).
  assert (Hlt : m < e).
  { apply nth_error_In in Hm. apply filter_In in Hm. destruct Hm as [_ Hm]. qb. assumption. }
  rewrite Hk1 in Hm. rewrite nth_error_map in Hm.
  destruct (nth_error (firstn k g) p) as [[a b]|] eqn:Ep; simpl in Hm; [|discriminate].
  injection Hm as <-. exists a, b. repeat split.
  - eapply nth_error_firstn_some; eauto.
  - assumption.
  - intros a' b' Hin Ha'. apply Hmax. apply filter_In. split; [apply in_map_iff; exists (a', b'); auto|qb; assumption].
Qed.
Lemma opening_err (g : gtis) e err : opening_pos (map fst g) e = Err err -> forall a b, In (a, b) g -> e <= a.
Proof.
  intros H a b Hin. apply argmax_err in H.
  destruct (Qlt_le_dec a e) as [h|h]; [|assumption]. exfalso.
  assert (Hx : In a (filter (fun s => qlt s e) (map fst g))).
  { apply filter_In. split; [apply in_map_iff; exists (a, b); auto|qb; assumption]. }
  rewrite H in Hx. destruct Hx.
Qed.

Section Cross.
Variables g0 g1 : gtis.
Hypothesis C0 : clean g0.
Hypothesis C1 : clean g1.
Let G (b : bool) := if b then g1 else g0.
Let gs := fun b : bool => map fst (if b then g1 else g0).
Let ge := fun b : bool => map snd (if b then g1 else g0).

Lemma G_clean b : clean (G b).
Proof. destruct b; assumption. Qed.

(* what an appended interval satisfies *)
Definition kept (max_end : Q) (s e : Q) : Prop :=
  exists tag a c d,
    In (a, e) (G tag) /\ In (c, d) (G (negb tag)) /\ c < e /\
    (forall c' d', In (c', d') (G (negb tag)) -> c' < e -> c' <= c) /\
    s = qmax a c /\ s <= d /\ (forall c' d', In (c', d') (G (negb tag)) -> ~ (s < d' /\ d' < e)) /\ e <= max_end.

Lemma cross_step_cases max_end st tag a e : In (a, e) (G tag) ->
  let x := (a, e, tag) in
  (cross_step gs ge max_end st x = st /\ (forall c d, In (c, d) (G (negb tag)) -> e <= c)) \/
  (exists c d, In (c, d) (G (negb tag)) /\ c < e /\
     (forall c' d', In (c', d') (G (negb tag)) -> c' < e -> c' <= c) /\
     let s := qmax a c in
     (cross_step gs ge max_end st x = st /\
      (s <= fst st \/ (exists c' d', In (c', d') (G (negb tag)) /\ s < d' /\ d' < e) \/ d < s \/ max_end < e)) \/
     (cross_step gs ge max_end st x = (e, (s, e) :: snd st) /\ fst st < s /\ kept max_end s e)).
Proof.
  intros Hin x. unfold cross_step. change (t_end x) with e. change (t_tag x) with tag.
  change (gs tag) with (map fst (G tag)). change (gs (negb tag)) with (map fst (G (negb tag))).
  change (ge (negb tag)) with (map snd (G (negb tag))).
  pose proof (G_clean tag) as Ct. pose proof (G_clean (negb tag)) as Co.
  pose proof (clean_pos _ _ _ Ct Hin) as Hpos.
  destruct (opening_pos (map fst (G tag)) e) as [p|err] eqn:Ep.
  2:{ exfalso. pose proof (opening_err _ _ _ Ep _ _ Hin). lra. }
  destruct (opening_pos (map fst (G (negb tag))) e) as [q|err] eqn:Eq.
  2:{ left. split; [reflexivity|]. intros c d Hcd. eapply opening_err; eauto. }
  right.
  destruct (opening_ok _ _ _ Ct Ep) as (a' & b' & Hp & Ha' & Hmax).
  assert (Haa : (a', b') = (a, e)).
  { assert (Hin' : In (a', b') (G tag)) by (eapply nth_error_In; eauto).
    pose proof (Hmax a e Hin Hpos). pose proof (clean_pos _ _ _ Ct Hin').
    destruct (clean_order _ _ _ _ _ Ct Hin Hin') as [[-> ->]|[h|h]]; [reflexivity|lra|lra]. }
  injection Haa as -> ->.
  destruct (opening_ok _ _ _ Co Eq) as (c & d & Hq & Hc & Hmaxc).
  rewrite !nth_error_map, Hp, Hq. simpl option_map. cbv iota. cbn [fst snd].
  exists c, d. split; [eapply nth_error_In; eauto|]. split; [assumption|]. split; [assumption|].
  set (s := qmax a c). cbv zeta.
  destruct (qle s (fst st)) eqn:E1; qb.
  - left. split; [reflexivity|]. left. assumption.
  - destruct (existsb (fun y => qlt s y && qlt y e) (map snd (G (negb tag)))) eqn:E2.
    + left. simpl. split; [reflexivity|]. right. left.
      apply existsb_exists in E2. destruct E2 as (y & Hy & Hy2). qb.
      apply in_map_iff in Hy. destruct Hy as ([c' d'] & <- & Hy). exists c', d'. auto.
    + destruct (qlt d s) eqn:E3; qb.
      * left. simpl. split; [reflexivity|]. right. right. left. assumption.
      * destruct (qlt max_end e) eqn:E4; qb.
        -- left. simpl. split; [reflexivity|]. right. right. right. assumption.
        -- right. simpl. split; [reflexivity|]. split; [assumption|].
           exists tag, a, c, d. repeat split; auto.
           ++ eapply nth_error_In; eauto.
           ++ intros c' d' Hcd [h1 h2].
              assert (Hx : existsb (fun y => qlt s y && qlt y e) (map snd (G (negb tag))) = true).
              { apply existsb_exists. exists d'. split; [apply in_map_iff; exists (c', d'); auto|].
                apply andb_true_iff. split; qb; assumption. }
              congruence.
Qed.

Variable conc : list tagged.
Hypothesis Hperm : Permutation conc (tag_list false g0 ++ tag_list true g1).
Hypothesis Hsorted : StronglySorted (fun x y => t_end x <= t_end y) conc.

Lemma conc_in a e tag : In (a, e, tag) conc <-> In (a, e) (G tag).
Proof.
  split; intros H.
  - apply (Permutation_in _ Hperm) in H. apply in_app_iff in H. unfold tag_list in H.
    destruct H as [H|H]; apply in_map_iff in H; destruct H as ([u v] & Huv & H); inversion Huv; subst; assumption.
  - apply (Permutation_in _ (Permutation_sym Hperm)). apply in_app_iff. unfold tag_list.
    destruct tag; [right|left]; apply in_map_iff; exists (a, e); auto.
Qed.

Variables (first last_ second_last : tagged) (rest1 rest2 : list tagged).
Hypothesis Hfirst : conc = first :: rest1.
Hypothesis Hlast : rev conc = last_ :: second_last :: rest2.
Let le0 := t_start first - 1.
Let max_end := t_end second_last.

Lemma le0_lt tag a c : In a (map fst (G tag)) -> In c (map fst (G (negb tag))) -> le0 < qmax a c.
Proof.
  intros Ha Hc.
  assert (Hb : forall tg x, first = x -> t_tag x = tg -> forall y, In y (map fst (G tg)) -> le0 < y).
  { intros tg x Hx Htg y Hy. subst x. destruct first as [[f fe] ft] eqn:Ef. simpl in Htg. subst ft.
    unfold le0; cbn [t_start fst snd].
    assert (Hin : In (f, fe) (G tg)) by (apply conc_in; rewrite Hfirst; left; reflexivity).
    apply in_map_iff in Hy. destruct Hy as ([u v] & <- & Huv). simpl.
    pose proof (clean_pos _ _ _ (G_clean tg) Hin). pose proof (clean_pos _ _ _ (G_clean tg) Huv).
    destruct (clean_order _ _ _ _ _ (G_clean tg) Hin Huv) as [[-> ->]|[h|h]]; [lra|lra|].
    exfalso. assert (Hx : In (u, v, tg) conc) by (apply conc_in; assumption).
    rewrite Hfirst in Hx. destruct Hx as [Hx|Hx].
    - inversion Hx; subst. lra.
    - rewrite Hfirst in Hsorted. apply StronglySorted_inv in Hsorted. destruct Hsorted as [_ Hf].
      rewrite Forall_forall in Hf. apply Hf in Hx. cbn in Hx. lra. }
  pose proof (qmax_l a c). pose proof (qmax_r a c).
  destruct (bool_dec (t_tag first) tag) as [Ht|Ht].
  - specialize (Hb tag first eq_refl Ht a Ha). lra.
  - assert (Ht' : t_tag first = negb tag) by (destruct (t_tag first), tag; simpl in *; congruence).
    specialize (Hb (negb tag) first eq_refl Ht' c Hc). lra.
Qed.

Lemma max_end_ok tag a b c d : In (a, b) (G tag) -> In (c, d) (G (negb tag)) -> b <= d -> b <= max_end.
Proof.
  intros H1 H2 Hbd.
  assert (Hc : conc = (rev rest2 ++ [second_last]) ++ [last_]).
  { rewrite <- (rev_involutive conc), Hlast. simpl. reflexivity. }
  assert (Hall : forall x, In x (rev rest2 ++ [second_last]) -> t_end x <= max_end).
  { intros x Hx. apply in_app_iff in Hx. destruct Hx as [Hx|[Hx|[]]].
    - rewrite Hc, <- app_assoc in Hsorted. apply ss_app in Hsorted. destruct Hsorted as (_ & _ & Hs).
      apply (Hs x second_last Hx). left; reflexivity.
    - subst. unfold max_end. lra. }
  apply (conc_in a b tag) in H1. apply (conc_in c d (negb tag)) in H2.
  rewrite Hc in H1, H2. apply in_app_iff in H1. apply in_app_iff in H2.
  destruct H1 as [H1|[H1|[]]].
  - apply Hall in H1. assumption.
  - destruct H2 as [H2|[H2|[]]].
    + apply Hall in H2. cbn in H2. lra.
    + subst last_. destruct tag; inversion H2.
Qed.

Definition Inv (pre : list tagged) (st : Q * gtis) : Prop :=
  (forall s e, In (s, e) (snd st) -> s < e /\ kept max_end s e /\ exists x, In x pre /\ t_end x = e) /\
  StronglySorted (fun x y => snd y < fst x) (snd st) /\
  match snd st with [] => fst st = le0 | (s, e) :: _ => fst st = e end /\
  (forall tag a b c d t, In (a, b, tag) pre -> In (c, d) (G (negb tag)) -> b <= d ->
      a <= t -> t < b -> c <= t -> t < d -> covered (snd st) t).

Lemma Inv_final : Inv conc (fold_left (cross_step gs ge max_end) conc (le0, [])).
Proof.
  apply fold_left_inv.
  - split; [intros s e []|]. split; [constructor|]. split; [reflexivity|]. intros tag a b c d t [].
  - intros pre x post st Hl (I1 & I2 & I3 & I4).
    destruct x as [[a e] tag].
    assert (Hin : In (a, e) (G tag)) by (apply conc_in; rewrite Hl; apply in_app_iff; right; left; reflexivity).
    pose proof (cross_step_cases max_end st tag a e Hin) as Hcase. cbv zeta in Hcase.
    assert (Hend : forall s' e', In (s', e') (snd st) -> e' <= e).
    { intros s' e' H. destruct (I1 s' e' H) as (_ & _ & y & Hy & <-).
      rewrite Hl in Hsorted. apply ss_app in Hsorted. destruct Hsorted as (_ & _ & Hs).
      apply (Hs y (a, e, tag) Hy). left; reflexivity. }
    assert (Hpos : a < e) by (eapply clean_pos; [apply (G_clean tag)|assumption]).
    assert (I1' : forall s' e', In (s', e') (snd st) ->
               s' < e' /\ kept max_end s' e' /\ exists x, In x (pre ++ [(a, e, tag)]) /\ t_end x = e').
    { intros s' e' H. destruct (I1 s' e' H) as (A & B & y & Hy & Hy'). repeat split; auto.
      exists y. split; [apply in_app_iff; left; assumption|assumption]. }
    (* completeness when the state is unchanged *)
    assert (Hskip : cross_step gs ge max_end st (a, e, tag) = st ->
       (forall c d t, In (c, d) (G (negb tag)) -> e <= d -> a <= t -> t < e -> c <= t -> t < d -> covered (snd st) t) ->
       Inv (pre ++ [(a, e, tag)]) (cross_step gs ge max_end st (a, e, tag))).
    { intros -> Hc. split; [assumption|]. split; [assumption|]. split; [assumption|].
      intros tag' a' b' c d t Hx. apply in_app_iff in Hx. destruct Hx as [Hx|[Hx|[]]].
      - apply I4 with (1 := Hx).
      - inversion Hx; subst. apply Hc. }
    destruct Hcase as [[Heq Hno]|(c & d & Hcd & Hce & Hmaxc & Hcase)].
    + apply Hskip; [assumption|]. intros c d t Hcd Hed Hat Hte Hct Htd. apply Hno in Hcd. lra.
    + assert (Huniq : forall c' d' t, In (c', d') (G (negb tag)) -> e <= d' -> t < e -> c' <= t -> c' = c /\ d' = d).
      { intros c' d' t Hcd' Hed' Hte Hct.
        pose proof (Hmaxc c' d' Hcd' ltac:(lra)). pose proof (clean_pos _ _ _ (G_clean _) Hcd).
        destruct (clean_order _ _ _ _ _ (G_clean (negb tag)) Hcd' Hcd) as [h|[h|h]]; [assumption|lra|lra]. }
      cbv zeta in Hcase.
      destruct Hcase as [[Heq Hwhy]|(Heq & Hlt & Hkept)].
      * apply Hskip; [assumption|]. intros c' d' t Hcd' Hed' Hat Hte Hct Htd.
        destruct (Huniq c' d' t Hcd' Hed' Hte Hct) as [-> ->].
        assert (Hst : qmax a c <= t) by (destruct (qmax_cases a c) as [[-> ?]|[-> ?]]; lra).
        destruct Hwhy as [Hwhy|[(c2 & d2 & Hcd2 & h1 & h2)|[Hwhy|Hwhy]]].
        -- (* inside the last interval *)
           destruct st as [lst fin]. cbn [fst snd] in *.
           destruct fin as [|[s' e'] fin].
           ++ exfalso. assert (le0 < qmax a c).
              { apply (le0_lt tag); apply in_map_iff; [exists (a, e); auto|exists (c, d); auto]. }
              subst lst. lra.
           ++ subst lst. assert (Hee : e' <= e) by (apply (Hend s' e'); left; reflexivity).
              destruct (I1 s' e' (or_introl eq_refl)) as (Hse & (tg & a2 & c2 & d2 & K1 & K2 & K3 & K4 & K5 & K6 & K7 & K8) & _).
              pose proof (qmax_l a c) as Hm1. pose proof (qmax_r a c) as Hm2.
              exists s', e'. split; [left; reflexivity|].
              (* e' is the end of an interval of one of the series, inside [s, e] *)
              destruct (bool_dec tg tag) as [Htg|Htg].
              ** subst tg. pose proof (clean_pos _ _ _ (G_clean tag) K1).
                 destruct (clean_order _ _ _ _ _ (G_clean tag) Hin K1) as [[<- Hee']|[h|h]]; [|lra|lra].
                 subst e'. 
                 assert (c2 = c /\ d2 = d) as [-> ->].
                 { pose proof (Hmaxc c2 d2 K2 K3). pose proof (K4 c d Hcd Hce).
                   pose proof (clean_pos _ _ _ (G_clean _) K2). pose proof (clean_pos _ _ _ (G_clean _) Hcd).
                   destruct (clean_order _ _ _ _ _ (G_clean (negb tag)) K2 Hcd) as [h|[h|h]]; [assumption|lra|lra]. }
                 subst s'. lra.
              ** assert (Hn : tg = negb tag) by (destruct tg, tag; simpl in *; congruence). subst tg.
                 pose proof (clean_pos _ _ _ (G_clean _) K1).
                 destruct (clean_order _ _ _ _ _ (G_clean (negb tag)) Hcd K1) as [[<- Hee']|[h|h]]; [|lra|lra].
                 subst e'. rewrite negb_involutive in K2, K4.
                 assert (c2 <= a).
                 { pose proof (clean_pos _ _ _ (G_clean _) K2).
                   destruct (clean_order _ _ _ _ _ (G_clean tag) K2 Hin) as [[h _]|[h|h]]; [subst; lra|lra|lra]. }
                 subst s'. destruct (qmax_cases c c2) as [[-> ?]|[-> ?]]; lra.
        -- exfalso. pose proof (clean_pos _ _ _ (G_clean _) Hcd2). pose proof (qmax_r a c).
           destruct (clean_order _ _ _ _ _ (G_clean (negb tag)) Hcd2 Hcd) as [[-> ->]|[h|h]]; lra.
        -- exfalso. lra.
        -- exfalso. pose proof (max_end_ok tag a e c d Hin Hcd Hed'). lra.
      * rewrite Heq. unfold Inv. cbn [fst snd]. repeat split.
        -- destruct H as [H|H]; [inversion H; subst|destruct (I1' _ _ H) as (?&?&?); assumption].
           destruct (qmax_cases a c) as [[-> ?]|[-> ?]]; lra.
        -- destruct H as [H|H]; [inversion H; subst; assumption|destruct (I1' _ _ H) as (?&?&?); assumption].
        -- destruct H as [H|H]; [inversion H; subst|destruct (I1' _ _ H) as (?&?&?); assumption].
           exists (a, e0, tag). split; [apply in_app_iff; right; left; reflexivity|reflexivity].
        -- constructor; [assumption|]. rewrite Forall_forall. intros [s' e'] Hx. cbn [fst snd].
           destruct st as [lst fin]. cbn [fst snd] in *. destruct fin as [|[s2 e2] fin]; [destruct Hx|].
           subst lst. destruct Hx as [Hx|Hx]; [inversion Hx; subst; lra|].
           apply StronglySorted_inv in I2. destruct I2 as [_ I2]. rewrite Forall_forall in I2.
           apply I2 in Hx. cbn [fst snd] in Hx.
           destruct (I1 s2 e2 (or_introl eq_refl)) as (h & _). lra.
        -- intros tag' a' b' c' d' t Hx Hcd' Hbd Hat Htb Hct Htd.
           apply in_app_iff in Hx. destruct Hx as [Hx|[Hx|[]]].
           ++ destruct (I4 tag' a' b' c' d' t Hx Hcd' Hbd Hat Htb Hct Htd) as (u & v & Huv & h1 & h2).
              exists u, v. split; [right; assumption|]. auto.
           ++ inversion Hx; subst.
              destruct (Huniq c' d' t Hcd' Hbd Htb Hct) as [-> ->].
              exists (qmax a' c), b'. split; [left; reflexivity|].
              destruct (qmax_cases a' c) as [[-> ?]|[-> ?]]; lra.
Qed.
End Cross.

Lemma ss_rev {A} (R : A -> A -> Prop) (l : list A) :
  StronglySorted (fun x y => R y x) l -> StronglySorted R (rev l).
Proof.
  induction 1 as [|a l Hs IH Hf]; simpl; [constructor|].
  apply ss_app. repeat split; [assumption|repeat constructor|].
  intros x y Hx [<-|[]]. apply in_rev in Hx. rewrite Forall_forall in Hf. auto.
Qed.

Lemma sorts_by_ss {A} (key : A -> Q) srt : sorts_by key srt ->
  forall l, Permutation (srt l) l /\ StronglySorted (fun x y => key x <= key y) (srt l).
Proof. intros H l. destruct (H l) as [H1 H2]. split; [assumption|]. apply ss_nth. assumption. Qed.

Lemma isort_sorts {A} (key : A -> Q) : sorts_by key (isort_by key).
Proof.
  intros l. split; [apply isort_by_perm|]. apply (proj1 (ss_nth _ _)). apply isort_by_sorted.
Qed.

(* Result for clean lists: kept intervals, no common time lost. *)
Lemma cross_clean srt g0 g1 : sorts_by t_end srt -> clean g0 -> clean g1 ->
  exists r max_end,
    (let gs := fun b : bool => map fst (if b then g1 else g0) in
     let ge := fun b : bool => map snd (if b then g1 else g0) in
     let conc := srt (tag_list false g0 ++ tag_list true g1) in
     match conc, rev conc with
     | first :: _, _ :: second_last :: _ =>
       Ok (rev (snd (fold_left (cross_step gs ge (t_end second_last)) conc (t_start first - 1, []))))
     | _, _ => Err IndexError
     end) = Ok r /\
    (forall s e, In (s, e) r -> s < e /\ kept g0 g1 max_end s e) /\
    StronglySorted sepR r /\
    (forall t, covered g0 t -> covered g1 t -> covered r t).
Proof.
  intros Hsrt C0 C1. cbv zeta.
  set (conc := srt (tag_list false g0 ++ tag_list true g1)).
  destruct (sorts_by_ss _ _ Hsrt (tag_list false g0 ++ tag_list true g1)) as [Hp Hs]. fold conc in Hp, Hs.
  assert (Hlen : (2 <= length conc)%nat).
  { rewrite (Permutation_length Hp), app_length. unfold tag_list. rewrite !map_length.
    destruct C0 as [N0 _], C1 as [N1 _]. destruct g0, g1; simpl; try congruence; lia. }
  destruct conc as [|first rest1] eqn:Ec; [simpl in Hlen; lia|].
  destruct (rev (first :: rest1)) as [|lst [|sl rest2]] eqn:Er.
  - apply (f_equal (@length _)) in Er. rewrite rev_length in Er. simpl in *. lia.
  - apply (f_equal (@length _)) in Er. rewrite rev_length in Er. simpl in *. lia.
  - pose proof (Inv_final g0 g1 C0 C1 (first :: rest1) Hp Hs first lst sl rest1 rest2 eq_refl Er) as HI.
    set (st := fold_left _ _ _) in HI.
    change (fold_left _ (first :: rest1) (t_start first - 1, [])) with st.
    destruct HI as (I1 & I2 & _ & I4).
    exists (rev (snd st)), (t_end sl). split; [reflexivity|]. repeat split.
    + apply in_rev in H. apply I1 in H. tauto.
    + apply in_rev in H. apply I1 in H. tauto.
    + apply ss_rev. assumption.
    + intros t (a & b & Hab & h1 & h2) (c & d & Hcd & h3 & h4).
      assert (Hcov : covered (snd st) t).
      { destruct (Qlt_le_dec d b) as [h|h].
        - apply (I4 true c d a b t); auto; [|lra].
          apply (conc_in g0 g1 (first :: rest1) Hp c d true). assumption.
        - apply (I4 false a b c d t); auto.
          apply (conc_in g0 g1 (first :: rest1) Hp a b false). assumption. }
      destruct Hcov as (u & v & Huv & h5 & h6). exists u, v. split; [apply -> in_rev; assumption|auto].
Qed.

Lemma join_equal_clean g : g <> [] -> well_formed g -> positive_lengths g ->
  exists j, join_equal_gti_boundaries g 0 = Ok j /\ clean j /\ (forall t, covered j t <-> covered g t) /\
            (forall iv, In iv j -> In (fst iv) (map fst g) /\ In (snd iv) (map snd g)).
Proof.
  intros Hne Hwf Hpos. destruct g as [|iv rest]; [congruence|].
  apply well_formed_ss in Hwf. destruct Hwf as [_ HS]. apply positive_F in Hpos.
  exists (join_equal_loop 0 iv rest). split; [reflexivity|].
  destruct (join_equal_spec rest iv Hpos HS) as (A1 & A2 & A3 & A4 & A5).
  repeat split; auto.
  - intros Hx.
    assert (Hc : covered (iv :: rest) (fst iv)).
    { inversion Hpos; subst. exists (fst iv), (snd iv). split; [left; destruct iv; reflexivity|]. lra. }
    apply A3 in Hc. rewrite Hx in Hc. destruct Hc as (? & ? & [] & _).
  - apply A3.
  - apply A3.
  - apply A5; assumption.
  - apply A5; assumption.
Qed.

(* starts (ends) of r are among the starts (ends) of the lists in l *)
Definition edges_from (l : list gtis) (r : gtis) : Prop :=
  forall s e, In (s, e) r ->
    (exists g x, In g l /\ In (s, x) g) /\ (exists g x, In g l /\ In (x, e) g).

Lemma cross_two_main srt g0 g1 :
  sorts_by t_end srt -> g0 <> [] -> g1 <> [] -> well_formed g0 -> well_formed g1 ->
  positive_lengths g0 -> positive_lengths g1 ->
  exists r, cross_two_gtis srt g0 g1 = Ok r /\ well_formed r /\ positive_lengths r /\ gaps_between r /\
    (forall t, covered g0 t -> covered g1 t -> covered r t) /\
    (forall t, covered r t -> covered g0 t \/ covered g1 t) /\
    (no_touching g0 g1 -> forall t, covered r t -> covered g0 t /\ covered g1 t) /\
    edges_from [g0; g1] r.
Proof.
  intros Hsrt N0 N1 W0 W1 P0 P1.
  destruct (join_equal_clean g0 N0 W0 P0) as (j0 & E0 & C0 & V0 & S0).
  destruct (join_equal_clean g1 N1 W1 P1) as (j1 & E1 & C1 & V1 & S1).
  unfold cross_two_gtis. rewrite E0, E1. cbn [bind]. rewrite (clean_check _ C0), (clean_check _ C1). cbn [bind].
  destruct (cross_clean srt j0 j1 Hsrt C0 C1) as (r & me & Er & K & HS & Hc). cbv zeta in Er.
  exists r. split; [exact Er|].
  assert (HF : Forall (fun iv : ivl => fst iv < snd iv) r).
  { apply Forall_forall. intros [s e] Hin. apply K in Hin. tauto. }
  assert (Hst : forall (tag : bool) a e, In (a, e) (if tag then j1 else j0) ->
                (exists g x, In g [g0; g1] /\ In (a, x) g) /\ (exists g x, In g [g0; g1] /\ In (x, e) g)).
  { intros [] a e Hin; [destruct (S1 _ Hin) as [A B]|destruct (S0 _ Hin) as [A B]]; simpl in A, B;
      apply in_map_iff in A; apply in_map_iff in B;
      destruct A as ([x1 x2] & <- & A), B as ([y1 y2] & <- & B); simpl; split;
      [exists g1, x2|exists g1, y1|exists g0, x2|exists g0, y1]; auto. }
  split; [apply well_formed_ss; split; [eapply Forall_impl; [|exact HF]; simpl; intros; lra|
          eapply ss_weaken; [|exact HS]; simpl; intros; lra]|].
  split; [apply positive_F; assumption|].
  split; [apply gaps_between_ss; assumption|].
  split; [intros t H0 H1; apply Hc; [apply V0|apply V1]; assumption|].
  split; [|split].
  - intros t (s & e & Hin & h1 & h2).
    apply K in Hin. destruct Hin as (Hse & tag & a & c & d & K1 & K2 & K3 & K4 & -> & K6 & K7 & K8).
    pose proof (qmax_l a c).
    destruct tag; simpl in K1; [right; apply V1|left; apply V0]; exists a, e; (split; [assumption|lra]).
  - intros H t Hr.
    enough (Ht : covered j0 t /\ covered j1 t) by (split; [apply V0|apply V1]; tauto).
    destruct Hr as (s & e & Hin & h1 & h2).
    apply K in Hin. destruct Hin as (Hse & tag & a & c & d & K1 & K2 & K3 & K4 & -> & K6 & K7 & K8).
    assert (Hd : e <= d).
    { destruct (Qlt_le_dec d e) as [h|h]; [|assumption]. exfalso.
      assert (qmax a c == d) by (destruct (Qlt_le_dec (qmax a c) d) as [h'|h']; [exfalso; apply (K7 c d K2); auto|lra]).
      assert (Hcd : c < d) by (destruct tag; simpl in K2; [apply (clean_pos _ _ _ C0 K2)|apply (clean_pos _ _ _ C1 K2)]).
      assert (a == d) by (destruct (qmax_cases a c) as [[Hq ?]|[Hq ?]]; rewrite Hq in *; lra).
      destruct tag; simpl in K1, K2.
      - destruct (S0 _ K2) as [_ B]. destruct (S1 _ K1) as [A _]. simpl in A, B.
        apply in_map_iff in A. apply in_map_iff in B. destruct A as ([x1 x2] & <- & A), B as ([y1 y2] & <- & B).
        destruct (H _ _ _ _ B A) as [F _]. apply F. simpl in *. lra.
      - destruct (S1 _ K2) as [_ B]. destruct (S0 _ K1) as [A _]. simpl in A, B.
        apply in_map_iff in A. apply in_map_iff in B. destruct A as ([x1 x2] & <- & A), B as ([y1 y2] & <- & B).
        destruct (H _ _ _ _ A B) as [_ F]. apply F. simpl in *. lra. }
    pose proof (qmax_l a c). pose proof (qmax_r a c).
    destruct tag; simpl in K1, K2; split.
    + exists c, d. split; [assumption|lra].
    + exists a, e. split; [assumption|lra].
    + exists a, e. split; [assumption|lra].
    + exists c, d. split; [assumption|lra].
  - intros s e Hin.
    apply K in Hin. destruct Hin as (Hse & tag & a & c & d & K1 & K2 & K3 & K4 & -> & K6 & K7 & K8).
    split; [|apply (Hst tag a e K1)].
    destruct (qmax_cases a c) as [[-> _]|[-> _]].
    + apply (Hst tag a e K1).
    + apply (Hst (negb tag) c d K2).
Qed.

(* ---- cross_gtis ---- *)

Lemma edges_from_no_touching l acc g :
  edges_from l acc -> (forall g', In g' l -> no_touching g' g) -> no_touching acc g.
Proof.
  intros He Hn a b c d H1 H2. apply He in H1. destruct H1 as [(g' & x & Hg' & Hx) (g2 & y & Hg2 & Hy)].
  split.
  - apply (Hn g2 Hg2 _ _ _ _ Hy H2).
  - apply (Hn g' Hg' _ _ _ _ Hx H2).
Qed.

Lemma cross_loop_main srt : sorts_by t_end srt ->
  forall rest seen acc, good acc -> Forall good rest -> edges_from seen acc ->
  exists r, cross_gtis_loop srt acc rest = Ok r /\
    (well_formed r /\ positive_lengths r) /\
    (forall t, covered acc t -> (forall g, In g rest -> covered g t) -> covered r t) /\
    ((forall g g', In g seen -> In g' rest -> no_touching g g') ->
     (forall i j g g', (i < j)%nat -> nth_error rest i = Some g -> nth_error rest j = Some g' -> no_touching g g') ->
     forall t, covered r t -> covered acc t /\ (forall g, In g rest -> covered g t)).
Proof.
  intros Hsrt. induction rest as [|g rest IH]; intros seen acc Hacc Hrest He.
  - exists acc. split; [reflexivity|]. split; [destruct Hacc; tauto|]. split; [auto|].
    intros _ _ t H. split; [assumption|intros g []].
  - inversion Hrest as [|? ? Hg Hrest']; subst.
    destruct Hacc as (N0 & W0 & P0). pose proof Hg as (N1 & W1 & P1).
    destruct (cross_two_main srt acc g Hsrt N0 N1 W0 W1 P0 P1) as (r & Er & W & P & _ & Hc & _ & Hs & Hed).
    cbn [cross_gtis_loop]. rewrite Er. cbn [bind].
    assert (Hed' : edges_from (g :: seen) r).
    { intros s e Hin. destruct (Hed s e Hin) as [(g' & x & Hg' & Hx) (g2 & y & Hg2 & Hy)]. split.
      - destruct Hg' as [<-|[<-|[]]].
        + apply He in Hx. destruct Hx as [(g3 & x3 & H3 & H3') _]. exists g3, x3. split; [right; assumption|assumption].
        + exists g, x. split; [left; reflexivity|assumption].
      - destruct Hg2 as [<-|[<-|[]]].
        + apply He in Hy. destruct Hy as [_ (g3 & x3 & H3 & H3')]. exists g3, x3. split; [right; assumption|assumption].
        + exists g, y. split; [left; reflexivity|assumption]. }
    destruct r as [|iv r0].
    + exists []. split; [reflexivity|]. split; [auto|]. split.
      * intros t H1 H2. apply Hc; [assumption|apply H2; left; reflexivity].
      * intros _ _ t (a & b & [] & _).
    + destruct (IH (g :: seen) (iv :: r0)) as (r' & Er' & WP & Hc' & Hs'); [|assumption|assumption|].
      * split; [discriminate|auto].
      * exists r'. split; [assumption|]. split; [assumption|]. split.
        -- intros t H1 H2. apply Hc'; [apply Hc; [assumption|apply H2; left; reflexivity]|].
           intros g' Hg'. apply H2. right; assumption.
        -- intros Hn1 Hn2 t Ht.
           destruct (Hs') with (t := t) as [Hcov Hall]; [| |assumption|].
           ++ intros g1 g2 [<-|H1] H2.
              ** apply In_nth_error in H2. destruct H2 as [n Hn]. apply (Hn2 0%nat (S n)); [lia|reflexivity|assumption].
              ** apply Hn1; [assumption|right; assumption].
           ++ intros i j g1 g2 Hij Hi Hj. apply (Hn2 (S i) (S j)); [lia|assumption|assumption].
           ++ destruct (Hs) with (t := t) as [H1 H2]; [|assumption|].
              ** apply (edges_from_no_touching seen); [assumption|]. intros g' Hg'. apply Hn1; [assumption|left; reflexivity].
              ** split; [assumption|]. intros g' [<-|Hg']; [assumption|apply Hall; assumption].
Qed.

Lemma check_all_ok l : Forall good l -> check_all l = Ok tt.
Proof.
  induction 1 as [|g l (H1 & H2 & _) Hl IH]; [reflexivity|]. cbn [check_all].
  replace (check_gtis g) with (Ok tt); [exact IH|]. symmetry. apply check_gtis_iff. auto.
Qed.

Lemma no_touching_sym g0 g1 : no_touching g0 g1 -> no_touching g1 g0.
Proof. intros H a b c d H1 H2. destruct (H c d a b H2 H1). auto. Qed.

Lemma cross_gtis_main srt l : sorts_by t_end srt -> l <> [] -> Forall good l ->
  exists r, cross_gtis srt l = Ok r /\ well_formed r /\ positive_lengths r /\
    (forall t, (forall g, In g l -> covered g t) -> covered r t) /\
    ((forall i j g g', i <> j -> nth_error l i = Some g -> nth_error l j = Some g' -> no_touching g g') ->
     forall t, covered r t -> forall g, In g l -> covered g t).
Proof.
  intros Hsrt Hne HF. unfold cross_gtis. rewrite (check_all_ok _ HF). cbn [bind].
  destruct l as [|g0 rest]; [congruence|]. inversion HF as [|? ? Hg Hrest]; subst.
  destruct (cross_loop_main srt Hsrt rest [g0] g0) as (r & Er & [W P] & Hc & Hs); try assumption.
  - intros s e Hin. split; [exists g0, e|exists g0, s]; (split; [left; reflexivity|assumption]).
  - exists r. split; [assumption|]. split; [assumption|]. split; [assumption|]. split.
    + intros t H. apply Hc; [apply H; left; reflexivity|intros g Hg'; apply H; right; assumption].
    + intros Hn t Ht.
      destruct Hs with (t := t) as [H1 H2]; [| |assumption|].
      * intros g g' [<-|[]] H2. apply In_nth_error in H2. destruct H2 as [n Hn'].
        apply (Hn 0%nat (S n)); [lia|reflexivity|assumption].
      * intros i j g g' Hij Hi Hj. apply (Hn (S i) (S j)); [lia|assumption|assumption].
      * intros g [<-|Hg']; [assumption|apply H2; assumption].
Qed.

Lemma cross_gtis_perm srt l l' : sorts_by t_end srt -> l <> [] -> Forall good l ->
  (forall i j g g', i <> j -> nth_error l i = Some g -> nth_error l j = Some g' -> no_touching g g') ->
  Permutation l l' ->
  exists r r', cross_gtis srt l = Ok r /\ cross_gtis srt l' = Ok r' /\ forall t, covered r t <-> covered r' t.
Proof.
  intros Hsrt Hne HF Hn Hp.
  assert (Hne' : l' <> []) by (intros ->; apply Permutation_sym, Permutation_nil in Hp; congruence).
  assert (HF' : Forall good l') by (eapply Permutation_Forall; eauto).
  assert (Hn' : forall i j g g', i <> j -> nth_error l' i = Some g -> nth_error l' j = Some g' -> no_touching g g').
  { apply Permutation_nth_error_bis in Hp.
    destruct Hp as (f & Hf & Hb & He). intros i j g g' Hij Hi Hj.
    rewrite He in Hi, Hj. apply (Hn (f i) (f j)); auto. }
  destruct (cross_gtis_main srt l Hsrt Hne HF) as (r & E & _ & _ & Hc & Hs).
  destruct (cross_gtis_main srt l' Hsrt Hne' HF') as (r' & E' & _ & _ & Hc' & Hs').
  exists r, r'. split; [assumption|]. split; [assumption|]. intros t. split; intros H.
  - apply Hc'. intros g Hg. apply (Hs Hn t H). eapply Permutation_in; [apply Permutation_sym, Hp|assumption].
  - apply Hc. intros g Hg. apply (Hs' Hn' t H). eapply Permutation_in; [apply Hp|assumption].
Qed.
