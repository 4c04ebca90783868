(* P_gti_ops.v: proofs about get_btis, check_separate, append_gtis, join_gtis. *)
From Verif Require Import Lib S_gti M_gti P_gti_cross.
Open Scope Q_scope.

(* ---- get_btis ---- *)
Lemma last_indep {A} (l : list A) a b : l <> [] -> last l a = last l b.
Proof.
  intros H. destruct (@exists_last _ l H) as (l' & x & ->). rewrite !last_last. reflexivity.
Qed.
Lemma gaps_spec g : forall x, Forall (fun iv => fst iv <= snd iv) (x :: g) -> StronglySorted wfR (x :: g) ->
  let l := last (x :: g) x in
  snd x <= snd l /\
  (forall t, covered (gaps (x :: g)) t <-> (fst x <= t /\ t < snd l /\ ~ covered (x :: g) t)) /\
  Forall (fun iv => fst iv <= snd iv) (gaps (x :: g)) /\ StronglySorted wfR (gaps (x :: g)) /\
  (forall iv, In iv (gaps (x :: g)) -> snd x <= fst iv /\ snd iv <= snd l) /\
  qsum (get_gti_lengths (gaps (x :: g))) + qsum (get_gti_lengths (x :: g)) == snd l - fst x.
Proof.
  induction g as [|y g IH]; intros x HF HS l.
  - unfold l; simpl. inversion HF; subst. repeat split.
    + lra.
    + destruct H as (a & b & [] & _).
    + destruct H as (a & b & [] & _).
    + destruct H as (a & b & [] & _).
    + intros (h1 & h2 & h3). exfalso. apply h3. exists (fst x), (snd x). split; [left; destruct x; reflexivity|lra].
    + constructor.
    + constructor.
    + destruct H.
    + destruct H.
    + simpl. ring.
  - inversion HF as [|? ? Hx HF']; subst. apply StronglySorted_inv in HS. destruct HS as [HS Hf].
    specialize (IH y HF' HS). inversion Hf as [|? ? Hxy Hf']; subst.
    inversion HF' as [|? ? Hy _]; subst.
    assert (Hl : l = last (y :: g) y).
    { unfold l. change (last (x :: y :: g) x) with (last (y :: g) x). apply last_indep. discriminate. }
    clearbody l. rewrite <- Hl in IH.
 destruct IH as (A0 & A1 & A2 & A3 & A4 & A5).
    assert (E : gaps (x :: y :: g) = (snd x, fst y) :: gaps (y :: g)) by reflexivity.
    assert (Hlow : forall iv, In iv (y :: g) -> snd x <= fst iv).
    { rewrite Forall_forall in Hf. intros iv Hin. apply (Hf iv Hin). }
    cbn beta in *. repeat split.
    + lra.
    + rewrite E in H. destruct H as (a & b & [Hin|Hin] & h1 & h2).
      * inversion Hin; subst. lra.
      * apply A4 in Hin. simpl in Hin. lra.
    + rewrite E in H. destruct H as (a & b & [Hin|Hin] & h1 & h2).
      * inversion Hin; subst. lra.
      * apply A4 in Hin. simpl in Hin. lra.
    + rewrite E in H. intros (c & d & Hcd & h3 & h4).
      assert (Hcov : covered (x :: y :: g) t) by (exists c, d; auto).
      destruct H as (a & b & [Hin|Hin] & h1 & h2).
      * inversion Hin; subst. destruct Hcd as [Hcd|Hcd]; [subst x; simpl in *; lra|].
        assert (fst y <= c).
        { destruct Hcd as [Hcd|Hcd]; [subst y; simpl; lra|].
          apply StronglySorted_inv in HS. destruct HS as [_ HS]. rewrite Forall_forall in HS. apply HS in Hcd. simpl in Hcd. lra. }
        lra.
      * assert (Hb : covered (gaps (y :: g)) t) by (exists a, b; auto). apply A1 in Hb.
        destruct Hcd as [Hcd|Hcd].
        -- subst x. simpl in *. apply A4 in Hin. simpl in Hin. lra.
        -- apply Hb. exists c, d. auto.
    + intros (h1 & h2 & h3). rewrite E.
      destruct (Qlt_le_dec t (fst y)) as [h|h].
      * exists (snd x), (fst y). split; [left; reflexivity|]. split; [|assumption].
        destruct (Qlt_le_dec t (snd x)) as [k|k]; [|assumption]. exfalso. apply h3. exists (fst x), (snd x).
        split; [left; destruct x; reflexivity|lra].
      * assert (Hb : covered (gaps (y :: g)) t).
        { apply A1. repeat split; auto. intros (c & d & Hcd & k). apply h3. exists c, d. split; [right; assumption|assumption]. }
        destruct Hb as (a & b & Hin & k). exists a, b. split; [right; assumption|assumption].
    + rewrite E. constructor; [simpl; assumption|assumption].
    + rewrite E. constructor; [assumption|]. apply Forall_forall. intros iv Hin. apply A4 in Hin. simpl. lra.
    + rewrite E in H. destruct H as [<-|Hin]; [simpl; lra|]. apply A4 in Hin. lra.
    + rewrite E in H. destruct H as [<-|Hin]; [simpl; lra|]. apply A4 in Hin. lra.
    + rewrite E. unfold get_gti_lengths in *. cbn [map qsum fold_right fst snd] in *.
      unfold qsum in *. cbn [map fold_right fst snd] in *. lra.
Qed.

Lemma qsum_app l1 l2 : qsum (l1 ++ l2) == qsum l1 + qsum l2.
Proof. unfold qsum. induction l1 as [|x l1 IH]; simpl; [ring|rewrite IH; ring]. Qed.

Lemma get_btis_main g start stop : g <> [] -> well_formed g ->
  (forall a b, In (a, b) g -> start <= a /\ b <= stop) ->
  exists r, get_btis g (Some start) (Some stop) = Ok r /\ well_formed r /\
    (forall t, covered r t <-> (start <= t /\ t < stop /\ ~ covered g t)) /\
    qsum (map (fun iv => snd iv - fst iv) g) + qsum (map (fun iv => snd iv - fst iv) r) == stop - start.
Proof.
  intros Hne Hwf Hin. destruct g as [|x g]; [congruence|].
  assert (Hchk : check_gtis (x :: g) = Ok tt) by (apply check_gtis_iff; auto).
  apply well_formed_ss in Hwf. destruct Hwf as [HF HS].
  destruct (gaps_spec g x HF HS) as (A0 & A1 & A2 & A3 & A4 & A5).
  unfold get_btis. rewrite Hchk. cbn [bind].
  assert (Hlast : In (last (x :: g) x) (x :: g)).
  { clear. destruct (@exists_last _ (x :: g)) as (l & a & ->); [discriminate|]. rewrite last_last. apply in_app_iff. right; left; reflexivity. }
  set (l := last (x :: g) x) in *.
  assert (Hx1 : start <= fst x) by (apply (Hin (fst x) (snd x)); left; destruct x; reflexivity).
  assert (Hl1 : snd l <= stop) by (apply (Hin (fst l) (snd l)); destruct l; assumption).
  inversion HF as [|? ? Hx _]; subst.
  assert (Hfirst : forall iv, In iv (x :: g) -> fst x <= fst iv).
  { intros iv [<-|Hiv]; [lra|]. apply StronglySorted_inv in HS. destruct HS as [_ HS]. rewrite Forall_forall in HS.
    apply HS in Hiv. lra. }
  assert (Hlst : forall iv, In iv (x :: g) -> snd iv <= snd l).
  { intros iv Hiv. unfold l. clear - HS HF Hiv.
    destruct (@exists_last _ (x :: g)) as (l & a & E); [discriminate|]. rewrite E in *. rewrite last_last.
    apply in_app_iff in Hiv. destruct Hiv as [Hiv|[<-|[]]]; [|lra].
    apply ss_app in HS. destruct HS as (_ & _ & HS). specialize (HS iv a Hiv (or_introl eq_refl)). simpl in HS.
    apply Forall_app in HF. destruct HF as [_ HF]. inversion HF; subst. lra. }
  eexists. split; [reflexivity|].
  set (pre := if qle (fst x) start then [] else [(start, fst x)]).
  set (post := if qlt (snd l) stop then [(snd l, stop)] else []).
  assert (Hpre : (pre = [] /\ fst x == start) \/ (pre = [(start, fst x)] /\ start < fst x)).
  { unfold pre. destruct (qle (fst x) start) eqn:E; qb; [left; split; [reflexivity|lra]|right; auto]. }
  assert (Hpost : (post = [] /\ snd l == stop) \/ (post = [(snd l, stop)] /\ snd l < stop)).
  { unfold post. destruct (qlt (snd l) stop) eqn:E; qb; [right; auto|left; split; [reflexivity|lra]]. }
  clearbody pre post. split; [|split].
  - apply well_formed_ss. split.
    + apply Forall_app. split; [|apply Forall_app; split; [assumption|]].
      * destruct Hpre as [[-> _]|[-> ?]]; constructor; simpl; [lra|constructor].
      * destruct Hpost as [[-> _]|[-> ?]]; constructor; simpl; [lra|constructor].
    + apply ss_app. split; [|split]; [|apply ss_app; split; [assumption|split]|].
      * destruct Hpre as [[-> _]|[-> ?]]; repeat constructor.
      * destruct Hpost as [[-> _]|[-> ?]]; repeat constructor.
      * intros u v Hu Hv. apply A4 in Hu. destruct Hpost as [[-> _]|[-> ?]]; [destruct Hv|destruct Hv as [<-|[]]]. simpl. lra.
      * intros u v Hu Hv. destruct Hpre as [[-> _]|[-> ?]]; [destruct Hu|destruct Hu as [<-|[]]]. simpl.
        apply in_app_iff in Hv. destruct Hv as [Hv|Hv]; [apply A4 in Hv; lra|].
        destruct Hpost as [[-> _]|[-> ?]]; [destruct Hv|destruct Hv as [<-|[]]]. simpl. lra.
  - intros t. split.
    + intros (a & b & Hab & h1 & h2). apply in_app_iff in Hab. destruct Hab as [Hab|Hab]; [|apply in_app_iff in Hab; destruct Hab as [Hab|Hab]].
      * destruct Hpre as [[-> _]|[-> ?]]; [destruct Hab|destruct Hab as [Hab|[]]]. inversion Hab; subst.
        repeat split; [lra|lra|]. intros (c & d & Hcd & h3 & h4). apply Hfirst in Hcd. simpl in Hcd. lra.
      * assert (Hb : covered (gaps (x :: g)) t) by (exists a, b; auto). apply A1 in Hb.
        repeat split; [lra|lra|tauto].
      * destruct Hpost as [[-> _]|[-> ?]]; [destruct Hab|destruct Hab as [Hab|[]]]. inversion Hab; subst.
        repeat split; [lra|lra|]. intros (c & d & Hcd & h3 & h4). apply Hlst in Hcd. simpl in Hcd. lra.
    + intros (h1 & h2 & h3). destruct (Qlt_le_dec t (fst x)) as [k|k].
      * destruct Hpre as [[_ ?]|[-> ?]]; [lra|]. exists start, (fst x). split; [left; reflexivity|auto].
      * destruct (Qlt_le_dec t (snd l)) as [k'|k'].
        -- assert (Hb : covered (gaps (x :: g)) t) by (apply A1; auto).
           destruct Hb as (a & b & Hab & ?). exists a, b. split; [apply in_app_iff; right; apply in_app_iff; left; assumption|assumption].
        -- destruct Hpost as [[_ ?]|[-> ?]]; [lra|]. exists (snd l), stop.
           split; [apply in_app_iff; right; apply in_app_iff; right; left; reflexivity|auto].
  - rewrite !map_app, !qsum_app. unfold get_gti_lengths in A5.
    assert (P1 : qsum (map (fun iv : ivl => snd iv - fst iv) pre) == fst x - start).
    { destruct Hpre as [[-> ?]|[-> ?]]; unfold qsum; simpl; lra. }
    assert (P2 : qsum (map (fun iv : ivl => snd iv - fst iv) post) == stop - snd l).
    { destruct Hpost as [[-> ?]|[-> ?]]; unfold qsum; simpl; lra. }
    rewrite P1, P2. lra.
Qed.

(* ---- check_separate ---- *)
Lemma existsb_false {A} (f : A -> bool) l : existsb f l = false <-> forall x, In x l -> f x = false.
Proof.
  induction l as [|y l IH]; simpl; [split; [intros _ x []|reflexivity]|].
  rewrite orb_false_iff, IH. split.
  - intros [H1 H2] x [<-|Hx]; auto.
  - intros H. split; [apply H; left; reflexivity|intros x Hx; apply H; right; assumption].
Qed.
Lemma touches_false g x : touches_any g x = false <-> forall a b, In (a, b) g -> x < a \/ b < x.
Proof.
  unfold touches_any. rewrite existsb_false. split.
  - intros H a b Hab. specialize (H (a, b) Hab). simpl in H. apply andb_false_iff in H. destruct H as [H|H]; qb; auto.
  - intros H [a b] Hab. simpl. apply andb_false_iff. destruct (H a b Hab); [right|left]; qb; assumption.
Qed.
Lemma in_flatten g x : In x (flatten g) <-> exists a b, In (a, b) g /\ (x = a \/ x = b).
Proof.
  unfold flatten. rewrite in_flat_map. split.
  - intros ([a b] & Hin & [H|[H|[]]]); exists a, b; simpl in H; auto.
  - intros (a & b & Hin & [-> | ->]); exists (a, b); split; [assumption|simpl; auto|assumption|simpl; auto].
Qed.

Lemma wf_last_max g x : well_formed g -> In x g -> snd x <= snd (last g x).
Proof.
  intros Hwf Hin. apply well_formed_ss in Hwf. destruct Hwf as [HF HS].
  destruct (@exists_last _ g) as (l & a & E); [intros ->; destruct Hin|]. rewrite E in *. rewrite last_last.
  apply in_app_iff in Hin. destruct Hin as [Hin|[<-|[]]]; [|lra].
  apply ss_app in HS. destruct HS as (_ & _ & HS). specialize (HS x a Hin (or_introl eq_refl)). simpl in HS.
  apply Forall_app in HF. destruct HF as [_ HF]. inversion HF; subst. lra.
Qed.
Lemma wf_first_min g x y : well_formed (x :: g) -> In y (x :: g) -> fst x <= fst y.
Proof.
  intros Hwf Hin. apply well_formed_ss in Hwf. destruct Hwf as [HF HS]. inversion HF; subst.
  destruct Hin as [<-|Hin]; [lra|]. apply StronglySorted_inv in HS. destruct HS as [_ HS].
  rewrite Forall_forall in HS. apply HS in Hin. lra.
Qed.
Lemma last_In {A} (l : list A) a : l <> [] -> In (last l a) l.
Proof. intros H. destruct (@exists_last _ l H) as (l' & x & ->). rewrite last_last. apply in_app_iff; right; left; reflexivity. Qed.

(* Exact meaning of the answer of check_separate on valid lists. *)

Lemma all_before_core g0 g1 f0 f1 : g0 <> [] -> well_formed g0 -> well_formed (f1 :: g1) ->
  (qle (snd (last g0 f0)) (fst f1) = true <-> all_before g0 (f1 :: g1)).
Proof.
  intros N0 W0 W1. split; intros H.
  - qb. intros a b c d H1 H2. pose proof (wf_last_max _ _ W0 H1) as K1. pose proof (wf_first_min _ _ _ W1 H2) as K2.
    rewrite (last_indep g0 _ f0 N0) in K1. simpl in K1, K2. lra.
  - qb. pose proof (last_In g0 f0 N0) as K. destruct (last g0 f0) as [a b], f1 as [c d].
    apply (H a b c d K). left; reflexivity.
Qed.

Lemma check_separate_exact g0 g1 : g0 <> [] -> g1 <> [] -> well_formed g0 -> well_formed g1 ->
  exists b, check_separate g0 g1 = Ok b /\
   (b = true <-> (all_before g0 g1 \/ all_before g1 g0 \/ closed_disjoint g0 g1)).
Proof.
  intros N0 N1 W0 W1. unfold check_separate.
  destruct g0 as [|f0 g0]; [congruence|]. destruct g1 as [|f1 g1]; [congruence|].
  rewrite (proj2 (check_gtis_iff _) (conj N0 W0)), (proj2 (check_gtis_iff _) (conj N1 W1)). cbn [bind].
  eexists. split; [reflexivity|]. unfold check_separate_core.
  pose proof (all_before_core (f0 :: g0) g1 f0 f1 N0 W0 W1) as B1.
  pose proof (all_before_core (f1 :: g1) g0 f1 f0 N1 W1 W0) as B2.
  destruct (qle (snd (last (f0 :: g0) f0)) (fst f1)) eqn:E1.
  { simpl. split; [intros _; left; apply B1; reflexivity|reflexivity]. }
  destruct (qle (snd (last (f1 :: g1) f1)) (fst f0)) eqn:E2.
  { simpl. split; [intros _; right; left; apply B2; reflexivity|reflexivity]. }
  set (G0 := f0 :: g0) in *. set (G1 := f1 :: g1) in *.
  assert (HB : ~ all_before G0 G1 /\ ~ all_before G1 G0).
  { split; intros H; [apply B1 in H|apply B2 in H]; discriminate. }
  clear B1 B2. simpl orb. cbv iota.
  assert (HC : closed_disjoint G0 G1 <->
     (existsb (touches_any G0) (flatten G1) = false /\ existsb (touches_any G1) (flatten G0) = false)).
  { rewrite !existsb_false. split.
    - intros H. split; intros x Hx; apply in_flatten in Hx; destruct Hx as (c & d & Hcd & Hx);
        apply touches_false; intros a b Hab.
      + pose proof (H a b c d Hab Hcd). pose proof (proj1 W1 c d Hcd). pose proof (proj1 W0 a b Hab).
        destruct Hx as [-> | ->], H0; (try (left; lra)); right; lra.
      + pose proof (H c d a b Hcd Hab). pose proof (proj1 W0 c d Hcd). pose proof (proj1 W1 a b Hab).
        destruct Hx as [-> | ->], H0; (try (left; lra)); right; lra.
    - intros [H1 H2] a b c d Hab Hcd.
      assert (K1 : In c (flatten G1)) by (apply in_flatten; eauto).
      assert (K2 : In a (flatten G0)) by (apply in_flatten; eauto).
      apply H1 in K1. apply H2 in K2. rewrite touches_false in K1, K2.
      specialize (K1 a b Hab). specialize (K2 c d Hcd). lra. }
  destruct (existsb (touches_any G0) (flatten G1)) eqn:E3.
  { split; [discriminate|]. intros [H|[H|H]]; [tauto|tauto|]. apply HC in H. destruct H; discriminate. }
  destruct (existsb (touches_any G1) (flatten G0)) eqn:E4.
  { split; [discriminate|]. intros [H|[H|H]]; [tauto|tauto|]. apply HC in H. destruct H; discriminate. }
  split; [intros _; right; right; apply HC; auto|reflexivity].
Qed.

Lemma separate_disjoint g0 g1 :
  (all_before g0 g1 \/ all_before g1 g0 \/ closed_disjoint g0 g1) ->
  forall a b c d, In (a, b) g0 -> In (c, d) g1 -> b <= c \/ d <= a.
Proof.
  intros [H|[H|H]] a b c d Hab Hcd.
  - left. apply (H a b c d); assumption.
  - right. apply (H c d a b); assumption.
  - destruct (H a b c d Hab Hcd); [left|right]; lra.
Qed.

(* ---- append_gtis ---- *)
Lemma wf_pos_nodup g : well_formed g -> positive_lengths g -> NoDup g.
Proof.
  intros W P. apply well_formed_ss in W. destruct W as [_ HS]. apply positive_F in P.
  induction g as [|x g IH]; constructor.
  - intros Hin. apply StronglySorted_inv in HS. destruct HS as [_ HS]. rewrite Forall_forall in HS.
    apply HS in Hin. inversion P; subst. lra.
  - apply IH; [apply StronglySorted_inv in HS; tauto|inversion P; assumption].
Qed.
Lemma wf_pos_order g a b c d : well_formed g -> In (a, b) g -> In (c, d) g ->
  (a = c /\ b = d) \/ b <= c \/ d <= a.
Proof.
  intros [_ HS] H1 H2. apply In_nth_error in H1. apply In_nth_error in H2.
  destruct H1 as [i Hi], H2 as [j Hj].
  destruct (lt_eq_lt_dec i j) as [[h|h]|h].
  - right; left. apply (HS i j _ _ _ _ h Hi Hj).
  - left. subst. rewrite Hi in Hj. inversion Hj; auto.
  - right; right. apply (HS j i _ _ _ _ h Hj Hi).
Qed.

Lemma nodup_app_intro {A} (l1 l2 : list A) : NoDup l1 -> NoDup l2 -> (forall x, In x l1 -> ~ In x l2) -> NoDup (l1 ++ l2).
Proof.
  induction l1 as [|x l1 IH]; intros H1 H2 H; [assumption|]. inversion H1; subst. simpl. constructor.
  - rewrite in_app_iff. intros [h|h]; [tauto|]. apply (H x); [left; reflexivity|assumption].
  - apply IH; auto. intros y Hy. apply H. right; assumption.
Qed.
Lemma nodup_nth {A} (l : list A) i j x : NoDup l -> nth_error l i = Some x -> nth_error l j = Some x -> i = j.
Proof.
  intros H Hi Hj. rewrite NoDup_nth_error in H. apply H; [apply nth_error_Some; congruence|congruence].
Qed.

Lemma merged_sorted srt g0 g1 : sorts_by fst srt ->
  well_formed g0 -> well_formed g1 -> positive_lengths g0 -> positive_lengths g1 ->
  (forall a b c d, In (a, b) g0 -> In (c, d) g1 -> b <= c \/ d <= a) ->
  Forall (fun iv => fst iv < snd iv) (srt (g0 ++ g1)) /\ StronglySorted wfR (srt (g0 ++ g1)).
Proof.
  intros Hsrt W0 W1 P0 P1 Hd.
  destruct (Hsrt (g0 ++ g1)) as [Hp Hs]. set (l := srt (g0 ++ g1)) in *.
  assert (HF : Forall (fun iv => fst iv < snd iv) l).
  { eapply Permutation_Forall; [apply Permutation_sym, Hp|]. apply Forall_app. split; apply positive_F; assumption. }
  split; [assumption|]. apply ss_nth. intros i j [a b] [c d] Hij Hi Hj.
  pose proof (Hs i j _ _ Hij Hi Hj) as Hle. simpl in Hle.
  assert (Hnd : NoDup l).
  { eapply Permutation_NoDup; [apply Permutation_sym, Hp|]. apply nodup_app_intro; [apply wf_pos_nodup; assumption|apply wf_pos_nodup; assumption|].
    intros [u v] H1 H2. pose proof (P0 u v H1). destruct (Hd u v u v H1 H2); lra. }
  assert (Hneq : ~ (a = c /\ b = d)).
  { intros [-> ->]. assert (i = j) by (eapply nodup_nth; eauto). lia. }
  assert (Hc : c < d).
  { rewrite Forall_forall in HF. apply (HF (c, d)). eapply nth_error_In; eauto. }
  apply nth_error_In in Hi. apply nth_error_In in Hj.
  apply (Permutation_in _ Hp) in Hi. apply (Permutation_in _ Hp) in Hj.
  assert (Hor : b <= c \/ d <= a).
  { apply in_app_iff in Hi. apply in_app_iff in Hj. destruct Hi as [Hi|Hi], Hj as [Hj|Hj].
    - destruct (wf_pos_order g0 a b c d W0 Hi Hj) as [h|h]; tauto.
    - apply Hd; assumption.
    - destruct (Hd c d a b Hj Hi); auto.
    - destruct (wf_pos_order g1 a b c d W1 Hi Hj) as [h|h]; tauto. }
  simpl. destruct Hor; lra.
Qed.

Lemma covered_perm l l' t : Permutation l l' -> covered l t -> covered l' t.
Proof. intros Hp (a & b & H & h). exists a, b. split; [eapply Permutation_in; eauto|assumption]. Qed.
Lemma covered_app l l' t : covered (l ++ l') t <-> covered l t \/ covered l' t.
Proof.
  split.
  - intros (a & b & H & h). apply in_app_iff in H. destruct H; [left|right]; exists a, b; auto.
  - intros [(a & b & H & h)|(a & b & H & h)]; exists a, b; (split; [apply in_app_iff; auto|assumption]).
Qed.

Lemma append_sep srt g0 g1 : sorts_by fst srt -> good g0 -> good g1 ->
  (all_before g0 g1 \/ all_before g1 g0 \/ closed_disjoint g0 g1) ->
  exists r, append_gtis srt g0 g1 = Ok r /\ well_formed r /\ positive_lengths r /\ gaps_between r /\
    (forall t, covered r t <-> covered g0 t \/ covered g1 t).
Proof.
  intros Hsrt (N0 & W0 & P0) (N1 & W1 & P1) Hsep. unfold append_gtis.
  rewrite (proj2 (check_gtis_iff _) (conj N0 W0)), (proj2 (check_gtis_iff _) (conj N1 W1)). cbn [bind].
  destruct (check_separate_exact g0 g1 N0 N1 W0 W1) as (b & -> & Hb). apply Hb in Hsep as Hbt. subst b.
  cbn [bind negb].
  destruct (merged_sorted srt g0 g1 Hsrt W0 W1 P0 P1 (separate_disjoint g0 g1 Hsep)) as [HF HS].
  destruct (Hsrt (g0 ++ g1)) as [Hp _].
  destruct (srt (g0 ++ g1)) as [|x l] eqn:E.
  { exfalso. apply Permutation_nil in Hp. destruct g0; [congruence|discriminate]. }
  destruct (join_equal_spec l x HF HS) as (A1 & A2 & A3 & A4 & A5).
  exists (join_equal_loop 0 x l). split; [reflexivity|]. split; [|split; [|split]].
  - apply well_formed_ss. split; [eapply Forall_impl; [|exact A1]; simpl; intros; lra|].
    eapply ss_weaken; [|exact A2]. simpl; intros; lra.
  - apply positive_F. assumption.
  - apply gaps_between_ss. assumption.
  - intros t. rewrite A3, <- covered_app. split; apply covered_perm; [assumption|apply Permutation_sym; assumption].
Qed.

Lemma append_not_sep srt g0 g1 : good g0 -> good g1 ->
  ~ (all_before g0 g1 \/ all_before g1 g0 \/ closed_disjoint g0 g1) ->
  append_gtis srt g0 g1 = Err ValueError.
Proof.
  intros (N0 & W0 & P0) (N1 & W1 & P1) Hsep. unfold append_gtis.
  rewrite (proj2 (check_gtis_iff _) (conj N0 W0)), (proj2 (check_gtis_iff _) (conj N1 W1)). cbn [bind].
  destruct (check_separate_exact g0 g1 N0 N1 W0 W1) as (b & -> & Hb). cbn [bind].
  destruct b; [exfalso; tauto|reflexivity].
Qed.
Lemma overlap_not_sep g0 g1 t : covered g0 t -> covered g1 t ->
  ~ (all_before g0 g1 \/ all_before g1 g0 \/ closed_disjoint g0 g1).
Proof.
  intros (a & b & H1 & h1 & h2) (c & d & H2 & h3 & h4) Hsep.
  destruct (separate_disjoint g0 g1 Hsep a b c d H1 H2); lra.
Qed.

(* ---- the sweep of join_gtis ---- *)
(* recursive reading of combine (select .. starting) (select .. closing) *)
Fixpoint segs (s : Q) (gs : list Q) (cs : list bool) : gtis :=
  match gs, cs with
  | g :: gs', c :: cs' =>
    if c then (s, g) :: match gs' with w :: _ => segs w gs' cs' | [] => [] end else segs s gs' cs'
  | _, _ => []
  end.

Lemma combine_segs gs : forall s cs, length cs = length gs ->
  combine (s :: select (tl gs) (removelast cs)) (select gs cs) = segs s gs cs.
Proof.
  induction gs as [|g gs IH]; intros s cs Hlen.
  - destruct cs; [reflexivity|discriminate].
  - destruct cs as [|c cs]; [discriminate|]. injection Hlen as Hlen.
    destruct gs as [|w gs].
    + destruct cs; [|discriminate]. destruct c; reflexivity.
    + destruct cs as [|c' cs]; [discriminate|].
      specialize (IH w (c' :: cs) Hlen) as IHw. specialize (IH s (c' :: cs) Hlen) as IHs.
      change (removelast (c :: c' :: cs)) with (c :: removelast (c' :: cs)).
      change (tl (g :: w :: gs)) with (w :: gs).
      change (tl (w :: gs)) with gs in *.
      change (segs s (g :: w :: gs) (c :: c' :: cs)) with
        (if c then (s, g) :: segs w (w :: gs) (c' :: cs) else segs s (w :: gs) (c' :: cs)).
      change (select (w :: gs) (c :: removelast (c' :: cs))) with
        (if c then w :: select gs (removelast (c' :: cs)) else select gs (removelast (c' :: cs))).
      change (select (g :: w :: gs) (c :: c' :: cs)) with
        (if c then g :: select (w :: gs) (c' :: cs) else select (w :: gs) (c' :: cs)).
      destruct c; [|exact IHs]. rewrite <- IHw. reflexivity.
Qed.

Section Sweep.
Variable G : gtis.
Hypothesis Gpos : Forall (fun iv => fst iv < snd iv) G.

(* number of intervals open at v *)
Definition openc (v : Q) : Z :=
  Z.of_nat (length (filter (fun iv : ivl => qle (fst iv) v && qlt v (snd iv)) G)).
Lemma openc_zero v : openc v = 0%Z <-> ~ covered G v.
Proof.
  unfold openc. split.
  - intros H (a & b & Hin & h1 & h2).
    assert (K : In (a, b) (filter (fun iv : ivl => qle (fst iv) v && qlt v (snd iv)) G)).
    { apply filter_In. split; [assumption|]. simpl. apply andb_true_iff. split; qb; assumption. }
    destruct (filter _ G); [destruct K|simpl in H; lia].
  - intros H. destruct (filter (fun iv : ivl => qle (fst iv) v && qlt v (snd iv)) G) as [|[a b] l] eqn:E; [reflexivity|].
    exfalso. apply H. exists a, b.
    assert (K : In (a, b) (filter (fun iv : ivl => qle (fst iv) v && qlt v (snd iv)) G)) by (rewrite E; left; reflexivity).
    apply filter_In in K. destruct K as [K1 K2]. simpl in K2. qb. auto.
Qed.

(* sum of the types of the edges up to v *)
Definition zsum (l : list Z) : Z := fold_right Z.add 0%Z l.
Definition dsum (v : Q) (l : list edge) : Z := zsum (map snd (filter (fun e : edge => qle (fst e) v) l)).
Lemma zsum_app l1 l2 : zsum (l1 ++ l2) = (zsum l1 + zsum l2)%Z.
Proof. unfold zsum. induction l1; simpl; lia. Qed.
Lemma zsum_perm l l' : Permutation l l' -> zsum l = zsum l'.
Proof. unfold zsum. induction 1; simpl; lia. Qed.
Lemma filter_perm {A} (f : A -> bool) l l' : Permutation l l' -> Permutation (filter f l) (filter f l').
Proof.
  induction 1; simpl.
  - constructor.
  - destruct (f x); [constructor|]; assumption.
  - destruct (f x), (f y); try apply Permutation_refl. apply perm_swap.
  - eapply perm_trans; eauto.
Qed.
Lemma dsum_perm v l l' : Permutation l l' -> dsum v l = dsum v l'.
Proof. intros H. unfold dsum. apply zsum_perm, Permutation_map, filter_perm, H. Qed.
Lemma dsum_edges v g : Forall (fun iv => fst iv < snd iv) g ->
  dsum v (edges g) = (- Z.of_nat (length (filter (fun iv : ivl => qle (fst iv) v && qlt v (snd iv)) g)))%Z.
Proof.
  induction 1 as [|[a b] g Hx Hg IH]; [reflexivity|]. simpl in Hx.
  unfold dsum in *. change (edges ((a, b) :: g)) with ((a, (-1)%Z) :: (b, 1%Z) :: edges g). cbn [filter fst snd map].
  destruct (qle a v) eqn:E1; destruct (qle b v) eqn:E2; replace (qlt v b) with (negb (qle b v)) by reflexivity; rewrite E2; cbn [negb andb map zsum fold_right snd length];
    unfold zsum in *; cbn [fold_right] in *; qb; try lia; exfalso; lra.
Qed.

Variable ev : list edge.
Hypothesis Hperm : Permutation ev (edges G).
Hypothesis Hsort : StronglySorted (fun x y : edge => fst x <= fst y) ev.

Lemma edge_in v ty : In (v, ty) ev -> exists a b, In (a, b) G /\ ((v = a /\ ty = (-1)%Z) \/ (v = b /\ ty = 1%Z)).
Proof.
  intros H. apply (Permutation_in _ Hperm) in H. unfold edges in H. apply in_flat_map in H.
  destruct H as ([a b] & Hin & [H|[H|[]]]); simpl in H; injection H as <- <-; exists a, b; auto.
Qed.
Lemma in_edge a b : In (a, b) G -> In (a, (-1)%Z) ev /\ In (b, 1%Z) ev.
Proof.
  intros H. split; apply (Permutation_in _ (Permutation_sym Hperm)); unfold edges; apply in_flat_map; exists (a, b);
    (split; [assumption|simpl; auto]).
Qed.

(* prefix sums at the end of a group of equal edges *)
Lemma prefix_sum pre v ty post : ev = pre ++ (v, ty) :: post ->
  (forall x, In x post -> v < fst x) -> zsum (map snd (pre ++ [(v, ty)])) = (- openc v)%Z.
Proof.
  intros E Hpost. unfold openc. rewrite <- dsum_edges by assumption. rewrite <- (dsum_perm v _ _ Hperm).
  unfold dsum. f_equal. f_equal. rewrite E in Hsort. apply ss_app in Hsort. destruct Hsort as (_ & _ & Hlt).
  rewrite E. replace (pre ++ (v, ty) :: post) with ((pre ++ [(v, ty)]) ++ post) by (rewrite <- app_assoc; reflexivity).
  rewrite filter_app.
  assert (H1 : filter (fun e : edge => qle (fst e) v) post = []).
  { clear - Hpost. induction post as [|x post IH]; [reflexivity|]. simpl.
    replace (qle (fst x) v) with false by (symmetry; qb; apply Hpost; left; reflexivity).
    apply IH. intros y Hy. apply Hpost. right; assumption. }
  assert (H2 : forall l, (forall x, In x l -> fst x <= v) -> filter (fun e : edge => qle (fst e) v) l = l).
  { clear. induction l as [|x l IH]; intros H; [reflexivity|]. simpl.
    replace (qle (fst x) v) with true by (symmetry; qb; apply H; left; reflexivity).
    f_equal. apply IH. intros y Hy. apply H. right; assumption. }
  rewrite H1, app_nil_r, H2; [reflexivity|].
  intros x Hx. apply in_app_iff in Hx. destruct Hx as [Hx|[<-|[]]]; [|simpl; lra].
  apply (Hlt x (v, ty) Hx). left; reflexivity.
Qed.

(* flags *)
Definition flag_ok (pre : list edge) (v : Q) (post : list edge) (c : bool) : Prop :=
  c = true <-> (match post with w :: _ => v < fst w | [] => True end /\ ~ covered G v).

Fixpoint flags_ok (pre : list edge) (l : list edge) (cs : list bool) : Prop :=
  match l, cs with
  | [], [] => True
  | x :: l', c :: cs' => flag_ok pre (fst x) l' c /\ flags_ok (pre ++ [x]) l' cs'
  | _, _ => False
  end.

Lemma not_covered_between x y post t pre : ev = pre ++ x :: y :: post -> fst x <= t -> t < fst y ->
  (covered G t <-> covered G (fst x)).
Proof.
  intros E h1 h2. rewrite E in Hsort.
  assert (Hno : forall e, In e ev -> fst e <= fst x \/ fst y <= fst e).
  { intros e He. rewrite E in He. apply in_app_iff in He.
    apply ss_app in Hsort. destruct Hsort as (_ & S2 & S3). destruct He as [He|[<-|[<-|He]]].
    - left. apply (S3 e x He). left; reflexivity.
    - left; lra.
    - right; lra.
    - right. apply StronglySorted_inv in S2. destruct S2 as [S2 _]. apply StronglySorted_inv in S2. destruct S2 as [_ S2].
      rewrite Forall_forall in S2. apply S2. assumption. }
  split; intros (a & b & Hin & k1 & k2); exists a, b; (split; [assumption|]); destruct (in_edge a b Hin) as [I1 I2];
    apply Hno in I1; apply Hno in I2; simpl in I1, I2; lra.
Qed.

Lemma opens_after_gap x y post pre : ev = pre ++ x :: y :: post -> fst x < fst y -> ~ covered G (fst x) -> covered G (fst y).
Proof.
  intros E h Hn. destruct y as [w ty]. simpl in *.
  assert (Hin : In (w, ty) ev) by (rewrite E; apply in_app_iff; right; right; left; reflexivity).
  apply edge_in in Hin. destruct Hin as (a & b & Hab & [[-> _]|[-> _]]).
  - rewrite Forall_forall in Gpos. specialize (Gpos (a, b) Hab). simpl in Gpos. exists a, b. split; [assumption|lra].
  - exfalso. rewrite Forall_forall in Gpos. specialize (Gpos (a, b) Hab). simpl in Gpos.
    assert (Ha : covered G ((fst x))); [|tauto].
    destruct (in_edge a b Hab) as [I1 _]. rewrite E in I1, Hsort. apply in_app_iff in I1.
    apply ss_app in Hsort. destruct Hsort as (_ & S2 & S3). exists a, b. split; [assumption|]. split; [|assumption].
    destruct I1 as [I1|[I1|[I1|I1]]].
    + apply (S3 _ x I1). left; reflexivity.
    + rewrite I1. simpl. lra.
    + inversion I1; subst. lra.
    + exfalso. apply StronglySorted_inv in S2. destruct S2 as [S2 _]. apply StronglySorted_inv in S2. destruct S2 as [_ S2].
      rewrite Forall_forall in S2. apply S2 in I1. simpl in I1. lra.
Qed.
Lemma first_covered x post : ev = x :: post -> covered G (fst x).
Proof.
  intros E. destruct x as [w ty]. simpl.
  assert (Hin : In (w, ty) ev) by (rewrite E; left; reflexivity).
  apply edge_in in Hin. destruct Hin as (a & b & Hab & [[-> _]|[-> _]]).
  - rewrite Forall_forall in Gpos. specialize (Gpos (a, b) Hab). simpl in Gpos. exists a, b. split; [assumption|lra].
  - exfalso. rewrite Forall_forall in Gpos. specialize (Gpos (a, b) Hab). simpl in Gpos.
    destruct (in_edge a b Hab) as [I1 _]. rewrite E in I1, Hsort. apply StronglySorted_inv in Hsort. destruct Hsort as [_ S].
    destruct I1 as [I1|I1]; [inversion I1; subst; lra|]. rewrite Forall_forall in S. apply S in I1. simpl in I1. lra.
Qed.

Lemma segs_spec post : forall pre s cs, ev = pre ++ post -> flags_ok pre post cs ->
  match post with
  | [] => True
  | x :: _ => s <= fst x /\ (forall t, s <= t -> t < fst x -> covered G t) /\ covered G s /\
              (s < fst x \/ covered G (fst x))
  end ->
  let r := segs s (map fst post) cs in
  Forall (fun iv => fst iv < snd iv) r /\ StronglySorted sepR r /\ (forall iv, In iv r -> s <= fst iv) /\
  (post <> [] -> forall t, s <= t -> (covered r t <-> covered G t)).
Proof.
  induction post as [|x post IH]; intros pre s cs E Hfl Hst r.
  - unfold r; simpl. repeat split; try constructor; try (intros iv []); congruence.
  - destruct cs as [|c cs]; [destruct Hfl|]. destruct Hfl as [Hc Hfl].
    destruct Hst as (h1 & h2 & h3 & h4).
    assert (E' : ev = (pre ++ [x]) ++ post) by (rewrite <- app_assoc; exact E).
    destruct post as [|y post].
    + (* last edge *)
      destruct cs; [|destruct Hfl]. unfold r. simpl map. cbn [segs].
      assert (Hafter : forall t, fst x <= t -> ~ covered G t).
      { intros t Ht (a & b & Hin & k1 & k2). destruct (in_edge a b Hin) as [_ I2].
        rewrite E in I2, Hsort. apply ss_app in Hsort. destruct Hsort as (_ & _ & S3).
        apply in_app_iff in I2. destruct I2 as [I2|[I2|[]]]; [|rewrite I2 in Ht; simpl in Ht; lra].
        pose proof (S3 _ x I2 (or_introl eq_refl)). simpl in H. lra. }
      assert (c = true) as -> by (apply Hc; split; [exact I|apply Hafter; lra]).
      assert (Hs : s < fst x) by (destruct h4 as [h4|h4]; [assumption|exfalso; apply (Hafter (fst x)); [lra|assumption]]).
      split; [repeat constructor; assumption|]. split; [repeat constructor|].
      split; [intros iv [<-|[]]; simpl; lra|].
      intros _ t Ht. split.
      * intros (a & b & [Hab|[]] & k1 & k2). inversion Hab; subst. apply h2; assumption.
      * intros Hcov. exists s, (fst x). split; [left; reflexivity|]. split; [assumption|].
        destruct (Qlt_le_dec t (fst x)) as [k|k]; [assumption|exfalso; apply (Hafter t); assumption].
    + assert (Hxy : fst x <= fst y).
      { rewrite E in Hsort. apply ss_app in Hsort. destruct Hsort as (_ & S2 & _). apply StronglySorted_inv in S2.
        destruct S2 as [_ S2]. inversion S2; subst. assumption. }
      unfold r. change (map fst (x :: y :: post)) with (fst x :: fst y :: map fst post).
      destruct c.
      * destruct (proj1 Hc eq_refl) as [Hlt Hnc].
        assert (Hs : s < fst x) by (destruct h4 as [h4|h4]; [assumption|tauto]).
        pose proof (opens_after_gap x y post pre E Hlt Hnc) as Hy.
        destruct (IH (pre ++ [x]) (fst y) cs E' Hfl) as (A1 & A2 & A3 & A4).
        { repeat split; [lra| |assumption|right; assumption]. intros t k1 k2. lra. }
        change (map fst (y :: post)) with (fst y :: map fst post) in *.
        change (segs s (fst x :: fst y :: map fst post) (true :: cs)) with
          ((s, fst x) :: segs (fst y) (fst y :: map fst post) cs).
        set (r' := segs (fst y) (fst y :: map fst post) cs) in *.
        split; [constructor; [simpl; assumption|assumption]|].
        split; [constructor; [assumption|apply Forall_forall; intros iv Hin; apply A3 in Hin; simpl; lra]|].
        split; [intros iv [<-|Hin]; [simpl; lra|apply A3 in Hin; lra]|].
        intros _ t Ht. specialize (A4 ltac:(discriminate)). split.
        -- intros (a & b & [Hab|Hab] & k1 & k2).
           ++ inversion Hab; subst. apply h2; assumption.
           ++ pose proof (A3 _ Hab) as k3. simpl in k3. apply A4; [lra|]. exists a, b. auto.
        -- intros Hcov. destruct (Qlt_le_dec t (fst x)) as [k|k].
           ++ exists s, (fst x). split; [left; reflexivity|auto].
           ++ destruct (Qlt_le_dec t (fst y)) as [k'|k'].
              ** exfalso. apply Hnc. apply (not_covered_between x y post t pre E k k'). assumption.
              ** apply A4 in Hcov; [|assumption]. destruct Hcov as (a & b & Hab & ?). exists a, b. split; [right; assumption|assumption].
      * change (segs s (fst x :: fst y :: map fst post) (false :: cs)) with (segs s (map fst (y :: post)) cs).
        assert (Hcx : fst x < fst y -> covered G (fst x)).
        { intros Hlt. destruct (Z.eq_dec (openc (fst x)) 0) as [z|z].
          - apply openc_zero in z. exfalso. destruct Hc as [_ Hc]. assert (false = true) by (apply Hc; auto). discriminate.
          - destruct (filter (fun iv : ivl => qle (fst iv) (fst x) && qlt (fst x) (snd iv)) G) as [|[a b] l] eqn:Ef.
            + exfalso. apply z. unfold openc. rewrite Ef. reflexivity.
            + assert (K : In (a, b) (filter (fun iv : ivl => qle (fst iv) (fst x) && qlt (fst x) (snd iv)) G)) by (rewrite Ef; left; reflexivity).
              apply filter_In in K. destruct K as [K1 K2]. simpl in K2. qb. exists a, b. auto. }
        destruct (IH (pre ++ [x]) s cs E' Hfl) as (A1 & A2 & A3 & A4).
        { repeat split; [lra| |assumption|].
          - intros t k1 k2. destruct (Qlt_le_dec t (fst x)) as [k|k]; [apply h2; assumption|].
            apply (not_covered_between x y post t pre E k k2). apply Hcx. lra.
          - destruct (Qlt_le_dec s (fst y)) as [k|k]; [left; assumption|right].
            destruct h4 as [h4|(a & b & Hab & k1 & k2)]; [lra|].
            exists a, b. split; [assumption|lra]. }
        split; [assumption|]. split; [assumption|]. split; [assumption|].
        intros _. apply A4. discriminate.
Qed.

Fixpoint closing_rec (acc : Z) (w0 : Q) (l : list edge) : list bool :=
  match l with
  | [] => []
  | (v, ty) :: l' =>
    ((acc + ty =? 0)%Z && negb (qeq v (match l' with (w, _) :: _ => w | [] => w0 end))) :: closing_rec (acc + ty)%Z w0 l'
  end.
Lemma closing_eq l : forall acc w0,
  map (fun p : Z * (Q * Q) => (fst p =? 0)%Z && negb (qeq (fst (snd p)) (snd (snd p))))
      (combine (cumsum acc (map snd l)) (combine (map fst l) (tl (map fst l) ++ [w0]))) = closing_rec acc w0 l.
Proof.
  induction l as [|[v ty] l IH]; intros acc w0; [reflexivity|].
  destruct l as [|[w tw] l]; [reflexivity|].
  specialize (IH (acc + ty)%Z w0). simpl tl in *. simpl map in *. cbn [combine cumsum app map fst snd closing_rec] in *.
  f_equal. exact IH.
Qed.
Lemma closing_len l : forall acc w0, length (closing_rec acc w0 l) = length l.
Proof. induction l as [|[v ty] l IH]; intros; simpl; [reflexivity|]. f_equal. apply IH. Qed.

Lemma first_lt_last x pre y : ev = x :: pre -> (exists q, ev = q ++ [y]) -> fst x < fst y.
Proof.
  intros E [q E2].
  assert (Hall : forall e, In e ev -> fst x <= fst e /\ fst e <= fst y).
  { intros e He. split.
    - rewrite E in He, Hsort. destruct He as [<-|He]; [lra|]. apply StronglySorted_inv in Hsort.
      destruct Hsort as [_ S]. rewrite Forall_forall in S. apply S. assumption.
    - rewrite E2 in He, Hsort. apply in_app_iff in He. destruct He as [He|[<-|[]]]; [|lra].
      apply ss_app in Hsort. destruct Hsort as (_ & _ & S). apply S; [assumption|left; reflexivity]. }
  destruct x as [v ty].
  assert (Hin : In (v, ty) ev) by (rewrite E; left; reflexivity).
  apply edge_in in Hin. destruct Hin as (a & b & Hab & _). destruct (in_edge a b Hab) as [I1 I2].
  apply Hall in I1. apply Hall in I2. rewrite Forall_forall in Gpos. specialize (Gpos _ Hab). simpl in *. lra.
Qed.

Lemma closing_flags x0 rest0 : ev = x0 :: rest0 -> forall post pre,
  ev = pre ++ post -> flags_ok pre post (closing_rec (zsum (map snd pre)) (fst x0) post).
Proof.
  intros E0. induction post as [|[v ty] post IH]; intros pre E; [exact I|].
  cbn [closing_rec flags_ok]. split.
  - unfold flag_ok. cbn [fst].
    assert (Hsum : zsum (map snd (pre ++ [(v, ty)])) = (zsum (map snd pre) + ty)%Z).
    { rewrite map_app, zsum_app. unfold zsum at 2. simpl. lia. }
    destruct post as [|[w tw] post].
    + assert (Hs : zsum (map snd (pre ++ [(v, ty)])) = (- openc v)%Z).
      { apply (prefix_sum pre v ty []); [assumption|intros x []]. }
      assert (Hlt : fst x0 < v).
      { apply (first_lt_last x0 rest0 (v, ty) E0). exists pre. assumption. }
      replace (qeq v (fst x0)) with false by (symmetry; qb; lra).
      rewrite andb_true_iff, Z.eqb_eq. split.
      * intros [H _]. split; [exact I|]. apply openc_zero. lia.
      * intros [_ H]. apply openc_zero in H. split; [lia|reflexivity].
    + cbn [fst].
      assert (Hvw : v <= w).
      { rewrite E in Hsort. apply ss_app in Hsort. destruct Hsort as (_ & S & _). apply StronglySorted_inv in S.
        destruct S as [_ S]. inversion S; subst. assumption. }
      rewrite andb_true_iff, Z.eqb_eq, negb_true_iff. 
      assert (Hs : v < w -> zsum (map snd (pre ++ [(v, ty)])) = (- openc v)%Z).
      { intros Hlt. apply (prefix_sum pre v ty ((w, tw) :: post)); [assumption|].
        intros x [<-|Hx]; [assumption|]. rewrite E in Hsort. apply ss_app in Hsort. destruct Hsort as (_ & S & _).
        apply StronglySorted_inv in S. destruct S as [S _]. apply StronglySorted_inv in S. destruct S as [_ S].
        rewrite Forall_forall in S. apply S in Hx. simpl in Hx. lra. }
      split.
      * intros [H1 H2]. qb. assert (v < w) by lra. specialize (Hs H). split; [assumption|]. apply openc_zero. lia.
      * intros [H1 H2]. specialize (Hs H1). apply openc_zero in H2. split; [lia|qb; lra].
  - specialize (IH (pre ++ [(v, ty)])). rewrite map_app, zsum_app in IH. 
    replace (zsum (map snd pre) + zsum (map snd [(v, ty)]))%Z with (zsum (map snd pre) + ty)%Z in IH
      by (unfold zsum; simpl; lia).
    apply IH. rewrite <- app_assoc. assumption.
Qed.

Lemma closing_last x0 rest0 : ev = x0 :: rest0 ->
  exists cs, closing_rec 0 (fst x0) ev = cs ++ [true].
Proof.
  intros E0. destruct (@exists_last _ ev) as (pre & [v ty] & E); [rewrite E0; discriminate|].
  assert (K : forall pre acc w0, closing_rec acc w0 (pre ++ [(v, ty)]) =
     removelast (closing_rec acc w0 (pre ++ [(v, ty)])) ++ closing_rec (acc + zsum (map snd pre))%Z w0 [(v, ty)]).
  { clear. induction pre as [|[u tu] pre IH]; intros acc w0.
    - unfold zsum; simpl. rewrite Z.add_0_r. reflexivity.
    - simpl app. cbn [closing_rec]. specialize (IH (acc + tu)%Z w0).
      destruct (closing_rec (acc + tu) w0 (pre ++ [(v, ty)])) as [|c cs] eqn:Ec.
      + apply (f_equal (@length _)) in Ec. rewrite closing_len, app_length in Ec. simpl in Ec. lia.
      + cbn [removelast]. cbn [app]. f_equal. rewrite IH at 1. cbn [removelast]. f_equal. 
        unfold zsum; cbn [map fold_right snd]. rewrite Z.add_assoc. reflexivity. }
  exists (removelast (closing_rec 0 (fst x0) ev)). rewrite E at 1. rewrite K, <- E. f_equal.
  cbn [closing_rec]. 
  assert (Hs : zsum (map snd (pre ++ [(v, ty)])) = (- openc v)%Z).
  { apply (prefix_sum pre v ty []); [assumption|intros x []]. }
  rewrite map_app, zsum_app in Hs. replace (zsum (map snd [(v, ty)])) with ty in Hs by (unfold zsum; simpl; lia).
  assert (Hlt : fst x0 < v).
  { apply (first_lt_last x0 rest0 (v, ty) E0). exists pre. assumption. }
  assert (Hz : openc v = 0%Z).
  { apply openc_zero. intros (a & b & Hin & h1 & h2). destruct (in_edge a b Hin) as [_ I2].
    rewrite E in I2, Hsort. apply ss_app in Hsort. destruct Hsort as (_ & _ & S3).
    apply in_app_iff in I2. destruct I2 as [I2|[I2|[]]]; [|injection I2 as -> _; lra].
    pose proof (S3 _ (v, ty) I2 (or_introl eq_refl)). simpl in H. lra. }
  f_equal. apply andb_true_iff. split; [apply Z.eqb_eq; lia|]. apply negb_true_iff. qb. lra.
Qed.

Lemma select_len_pos {A} (l : list A) : select l [] = [].
Proof. destruct l; reflexivity. Qed.

Lemma sort_columns_id (g : gtis) : Forall (fun iv => fst iv < snd iv) g -> StronglySorted sepR g -> sort_columns g = g.
Proof.
  intros HF HS. unfold sort_columns, np_sort.
  assert (H1 : StronglySorted (fun a b : Q => a <= b) (map fst g)).
  { induction HS as [|x l Hs IH Hf]; [constructor|]. inversion HF; subst. simpl. constructor; [apply IH; assumption|].
    rewrite Forall_forall in *. intros y Hy. apply in_map_iff in Hy. destruct Hy as (z & <- & Hz). apply Hf in Hz. lra. }
  assert (H2 : StronglySorted (fun a b : Q => a <= b) (map snd g)).
  { clear H1. induction HS as [|x l Hs IH Hf]; [constructor|]. inversion HF as [|? ? H2 H3]; subst. simpl. constructor; [apply IH; assumption|].
    rewrite Forall_forall in *. intros y Hy. apply in_map_iff in Hy. destruct Hy as (z & <- & Hz). pose proof (Hf _ Hz). pose proof (H3 _ Hz). simpl in *. lra. }
  rewrite (isort_by_id (fun x => x)), (isort_by_id (fun x => x)) by assumption.
  clear. induction g as [|[a b] g IH]; [reflexivity|]. simpl. f_equal. assumption.
Qed.

Lemma sweep_main : G <> [] ->
  Forall (fun iv => fst iv < snd iv) (sweep ev) /\ StronglySorted sepR (sweep ev) /\
  (forall t, covered (sweep ev) t <-> covered G t).
Proof.
  intros HG. destruct ev as [|x0 rest0] eqn:Eev.
  { exfalso. apply Permutation_nil in Hperm. destruct G as [|[a b] g]; [congruence|discriminate]. }
  rewrite <- Eev in *.
  assert (E : sweep ev = sort_columns (segs (fst x0) (map fst ev) (closing_rec 0 (fst x0) ev))).
  { unfold sweep. 
    assert (Er : roll_left (map fst ev) = tl (map fst ev) ++ [fst x0]) by (rewrite Eev; reflexivity).
    rewrite Er, closing_eq. f_equal.
    destruct (closing_last x0 rest0 Eev) as [cs Ecs].
    rewrite <- combine_segs by (rewrite closing_len, map_length; reflexivity).
    rewrite Ecs. unfold roll_right. rewrite rev_app_distr. simpl rev. cbn [app]. rewrite rev_involutive, removelast_last.
    f_equal. rewrite Eev. reflexivity. }
  pose proof (closing_flags x0 rest0 Eev ev [] eq_refl) as Hfl. change (zsum (map snd [])) with 0%Z in Hfl.
  pose proof (first_covered x0 rest0 Eev) as Hc0.
  destruct (segs_spec ev [] (fst x0) _ eq_refl Hfl) as (A1 & A2 & A3 & A4).
  { rewrite Eev. repeat split; [lra|intros t h1 h2; lra|assumption|right; assumption]. }
  rewrite E. rewrite sort_columns_id by assumption.
  split; [assumption|]. split; [assumption|]. intros t.
  destruct (Qlt_le_dec t (fst x0)) as [h|h].
  - split; intros (a & b & Hab & h1 & h2).
    + apply A3 in Hab. simpl in Hab. lra.
    + destruct (in_edge a b Hab) as [I1 _]. rewrite Eev in I1, Hsort. apply StronglySorted_inv in Hsort.
      destruct Hsort as [_ S]. destruct I1 as [I1|I1]; [rewrite I1 in h; simpl in h; lra|].
      rewrite Forall_forall in S. apply S in I1. simpl in I1. lra.
  - apply A4; [rewrite Eev; discriminate|assumption].
Qed.
End Sweep.

Lemma join_gtis_main srt1 srt2 g0 g1 : sorts_by fst srt1 -> sorts_by fst srt2 -> good g0 -> good g1 ->
  exists r, join_gtis srt1 srt2 g0 g1 = Ok r /\ well_formed r /\ positive_lengths r /\ gaps_between r /\
    (forall t, covered r t <-> covered g0 t \/ covered g1 t).
Proof.
  intros Hs1 Hs2 G0 G1. pose proof G0 as (N0 & W0 & P0). pose proof G1 as (N1 & W1 & P1). unfold join_gtis.
  rewrite (proj2 (check_gtis_iff _) (conj N0 W0)), (proj2 (check_gtis_iff _) (conj N1 W1)). cbn [bind].
  destruct (check_separate_exact g0 g1 N0 N1 W0 W1) as (b & -> & Hb). cbn [bind].
  destruct b.
  - apply append_sep; [assumption|assumption|assumption|]. apply Hb; reflexivity.
  - replace (edges g0 ++ edges g1) with (edges (g0 ++ g1)) by (unfold edges; apply flat_map_app).
    destruct (sorts_by_ss _ _ Hs2 (edges (g0 ++ g1))) as [Hp HS].
    destruct (sweep_main (g0 ++ g1)) with (ev := srt2 (edges (g0 ++ g1))) as (A1 & A2 & A3).
    + apply Forall_app. split; apply positive_F; assumption.
    + assumption.
    + assumption.
    + destruct g0; [congruence|discriminate].
    + exists (sweep (srt2 (edges (g0 ++ g1)))). split; [reflexivity|]. split; [|split; [|split]].
      * apply well_formed_ss. split; [eapply Forall_impl; [|exact A1]; simpl; intros; lra|].
        eapply ss_weaken; [|exact A2]. simpl; intros; lra.
      * apply positive_F. assumption.
      * apply gaps_between_ss. assumption.
      * intros t. rewrite A3. apply covered_app.
Qed.
