(* P_merge.v: proofs about merge_gtis. *)
From Verif Require Import Lib S_gti M_gti P_gti_cross P_gti_ops P_gti_exposure P_gti_final S_merge M_merge.
From Coq Require Import Permutation Lqa.
Open Scope Q_scope.

Lemma valid_in l (g : gtis) : In g (valid_lists l) <-> present l g.
Proof.
  unfold present. induction l as [|o l IH]; simpl; [tauto|].
  destruct o as [[|iv g']|]; simpl; rewrite IH.
  - split; [tauto|]. intros [[E|H] N]; [inversion E; subst; congruence|tauto].
  - split.
    + intros [<-|H]; [split; [left; reflexivity|discriminate]|tauto].
    + intros [[E|H] N]; [inversion E; tauto|tauto].
  - split; [tauto|]. intros [[E|H] N]; [discriminate|tauto].
Qed.
Lemma valid_two l : forall i j (g g' : gtis), i <> j -> nth_error (valid_lists l) i = Some g ->
  nth_error (valid_lists l) j = Some g' -> two_present l g g'.
Proof.
  assert (K : forall l i g, nth_error (valid_lists l) i = Some g -> exists i', nth_error l i' = Some (Some g) /\ g <> []).
  { clear. induction l as [|o l IH]; intros i g H; [destruct i; discriminate|].
    destruct o as [[|iv g0]|]; simpl in H; try (destruct (IH _ _ H) as (k & A & B); exists (S k); auto; fail).
    destruct i as [|i]; [inversion H; subst; exists 0%nat; split; [reflexivity|discriminate]|].
    destruct (IH _ _ H) as (k & A & B); exists (S k); auto. }
  induction l as [|o l IH]; intros i j g g' N H H'; [destruct i; discriminate|].
  assert (Sh : forall a b, two_present l a b -> two_present (o :: l) a b).
  { intros a b (p & q & A & B & C & D & E). exists (S p), (S q). repeat split; auto. }
  destruct o as [[|iv g0]|]; simpl in H, H'; try (apply Sh; eapply IH; eauto; fail).
  destruct i as [|i], j as [|j]; try lia.
  - injection H as <-. destruct (K _ _ _ H') as (k & A & B). exists 0%nat, (S k). repeat split; auto; discriminate.
  - injection H' as <-. destruct (K _ _ _ H) as (k & A & B). exists (S k), 0%nat. repeat split; auto; discriminate.
  - apply Sh. eapply (IH i j); eauto.
Qed.

Lemma merge_fold_union s1 s2 : sorts_by fst s1 -> sorts_by fst s2 ->
  forall rest g0, good g0 -> (forall g, In g rest -> good g) ->
  exists r, merge_fold (join_gtis s1 s2) g0 rest = Ok r /\ good r /\
    (forall t, covered r t <-> exists g, In g (g0 :: rest) /\ covered g t).
Proof.
  intros H1 H2. induction rest as [|g rest IH]; intros g0 G0 G.
  - exists g0. split; [reflexivity|]. split; [assumption|]. intros t. split.
    + intros H. exists g0. simpl. tauto.
    + intros (g & [->|[]] & H). assumption.
  - simpl. destruct (join_gtis_main s1 s2 g0 g H1 H2 G0 (G g (or_introl eq_refl))) as (r & -> & W & P & _ & C).
    simpl. assert (Gr : good r).
    { split; [|split; assumption]. intros ->. destruct G0 as (N & _ & P0). destruct g0 as [|[a b] g0]; [congruence|].
      assert (Hc : covered [] a).
      { apply C. left. exists a, b. split; [left; reflexivity|]. split; [apply Qle_refl|]. apply P0. left; reflexivity. }
      destruct Hc as (x & y & [] & _). }
    destruct (IH r Gr (fun x Hx => G x (or_intror Hx))) as (r' & -> & Gr' & C'). exists r'.
    split; [reflexivity|]. split; [assumption|]. intros t. rewrite C'. simpl. split.
    + intros (x & [<-|Hx] & Hc); [|eauto]. apply C in Hc. destruct Hc; eauto.
    + intros (x & [<-|[<-|Hx]] & Hc); [| |eauto]; exists r; (split; [tauto|]); apply C; tauto.
Qed.
Lemma merge_fold_append s1 : sorts_by fst s1 ->
  forall rest g0 r, good g0 -> (forall g, In g rest -> good g) -> merge_fold (append_gtis s1) g0 rest = Ok r ->
  good r /\ (forall t, covered r t <-> exists g, In g (g0 :: rest) /\ covered g t) /\
  (forall i j g g' t, i <> j -> nth_error (g0 :: rest) i = Some g -> nth_error (g0 :: rest) j = Some g' ->
     ~ (covered g t /\ covered g' t)).
Proof.
  intros H1. induction rest as [|g rest IH]; intros g0 r G0 G E.
  - injection E as <-. split; [assumption|]. split; [|intros [|[|?]] [|[|?]]; simpl; intros; try lia; discriminate].
    intros t. split; [intros H; exists g0; simpl; tauto|intros (g & [->|[]] & H); assumption].
  - simpl in E. apply bind_ok in E. destruct E as (r0 & E0 & E).
    assert (Gg := G g (or_introl eq_refl)).
    destruct (append_sound s1 g0 g r0 H1 G0 Gg E0) as (W & P & _ & C).
    assert (Gr : good r0).
    { split; [|split; assumption]. intros ->. destruct G0 as (N & _ & P0). destruct g0 as [|[a b] g0]; [congruence|].
      assert (Hc : covered [] a).
      { apply C. left. exists a, b. split; [left; reflexivity|]. split; [apply Qle_refl|]. apply P0. left; reflexivity. }
      destruct Hc as (x & y & [] & _). }
    destruct (IH r0 r Gr (fun x Hx => G x (or_intror Hx)) E) as (Gr' & C' & D'). split; [assumption|]. split.
    + intros t. rewrite C'. simpl. split.
      * intros (x & [<-|Hx] & Hc); [|eauto]. apply C in Hc. destruct Hc; eauto.
      * intros (x & [<-|[<-|Hx]] & Hc); [| |eauto]; exists r0; (split; [tauto|]); apply C; tauto.
    + assert (D1 : forall t, ~ (covered g0 t /\ covered g t)).
      { intros t [A B]. rewrite (append_rejects_overlap s1 g0 g t G0 Gg A B) in E0. discriminate. }
      assert (D2 : forall j g' t, nth_error rest j = Some g' -> covered r0 t -> ~ covered g' t).
      { intros j g' t Hj A B. apply (D' 0%nat (S j) r0 g' t); auto. }
      intros i j x y t N Hi Hj [A B].
      destruct i as [|[|i]], j as [|[|j]]; simpl in Hi, Hj; try lia;
        repeat match goal with H : Some _ = Some _ |- _ => injection H as <- end.
      * apply (D1 t); auto.
      * apply (D2 j y t Hj); [apply C; tauto|assumption].
      * apply (D1 t); auto.
      * apply (D2 j y t Hj); [apply C; tauto|assumption].
      * apply (D2 i x t Hi); [apply C; tauto|assumption].
      * apply (D2 i x t Hi); [apply C; tauto|assumption].
      * apply (D' (S i) (S j) x y t); auto.
Qed.

Lemma good_point (g : gtis) : good g -> exists t, covered g t.
Proof.
  intros (N & _ & P). destruct g as [|[a b] g]; [congruence|]. exists a, a, b.
  split; [left; reflexivity|]. split; [apply Qle_refl|]. apply P. left; reflexivity.
Qed.
Section MERGE.
Variables (s_end : list tagged -> list tagged) (s_start : gtis -> gtis) (s_edge : list edge -> list edge).
Hypothesis He : sorts_by t_end s_end.
Hypothesis Hs : sorts_by fst s_start.
Hypothesis Hd : sorts_by fst s_edge.

Lemma merge_nothing l st : (forall g, ~ present l g) -> merge_gtis s_end s_start s_edge l st = Ok None.
Proof.
  intros H. unfold merge_gtis. destruct (valid_lists l) as [|g v] eqn:E; [reflexivity|].
  exfalso. apply (H g). apply valid_in. rewrite E. left; reflexivity.
Qed.
Lemma merge_union l : (exists g, present l g) -> (forall g, present l g -> good g) ->
  exists r, merge_gtis s_end s_start s_edge l Union = Ok (Some r) /\ good r /\
    (forall t, covered r t <-> exists g, present l g /\ covered g t).
Proof.
  intros (gx & Hx) G. unfold merge_gtis.
  assert (V := valid_in l). destruct (valid_lists l) as [|g0 rest] eqn:E; [apply V in Hx; destruct Hx|].
  assert (G0 : forall g, In g (g0 :: rest) -> good g) by (intros g Hg; apply G, V, Hg).
  assert (Cv : forall t, (exists g, present l g /\ covered g t) <-> (exists g, In g (g0 :: rest) /\ covered g t)).
  { intros t. split; intros (g & A & B); exists g; (split; [apply V; assumption|assumption]). }
  destruct (merge_fold_union s_start s_edge Hs Hd rest g0) as (r & F & Gr & C).
  { apply G0. left; reflexivity. } { intros g Hg. apply G0. right; assumption. }
  destruct rest as [|g1 rest].
  - injection F as <-. exists g0. split; [reflexivity|]. split; [assumption|]. intros t. rewrite Cv. apply C.
  - destruct (cross_gtis_complete s_end (g0 :: g1 :: rest) He) as (c & Ec & _); [discriminate|assumption|].
    rewrite Ec. cbn [bind]. rewrite F. cbn [bind]. exists r. split; [reflexivity|]. split; [assumption|].
    intros t. rewrite Cv. apply C.
Qed.
Lemma merge_append l r : (forall g, present l g -> good g) ->
  merge_gtis s_end s_start s_edge l Append = Ok (Some r) ->
  good r /\ (forall t, covered r t <-> exists g, present l g /\ covered g t) /\
  (forall i j g g' t, i <> j -> nth_error l i = Some (Some g) -> nth_error l j = Some (Some g') -> ~ (covered g t /\ covered g' t)).
Proof.
  intros G. unfold merge_gtis. assert (V := valid_in l).
  assert (Vn : forall l i j (g g' : gtis), i <> j -> nth_error l i = Some (Some g) -> nth_error l j = Some (Some g') ->
     g <> [] -> g' <> [] -> exists i' j', i' <> j' /\ nth_error (valid_lists l) i' = Some g /\ nth_error (valid_lists l) j' = Some g').
  { assert (K : forall l i (g : gtis), nth_error l i = Some (Some g) -> g <> [] -> exists i', nth_error (valid_lists l) i' = Some g).
    { intros l0 i g Hi N. destruct (In_nth_error (valid_lists l0) g) as (k & Hk); [|eauto].
      apply valid_in. split; [eapply nth_error_In; eauto|assumption]. }
    clear - K. induction l as [|o l IH]; intros i j g g' N Hi Hj Ng Ng'; [destruct i; discriminate|].
    destruct i as [|i], j as [|j]; try lia; simpl in Hi, Hj.
    - injection Hi as ->. destruct g as [|iv g]; [congruence|]. destruct (K _ _ _ Hj Ng') as (k & Hk).
      exists 0%nat, (S k). repeat split; auto.
    - injection Hj as ->. destruct g' as [|iv g']; [congruence|]. destruct (K _ _ _ Hi Ng) as (k & Hk).
      exists (S k), 0%nat. repeat split; auto.
    - destruct (IH i j g g') as (p & q & A & B & C); auto.
      destruct o as [[|iv g0]|]; [exists p, q; auto|exists (S p), (S q); auto|exists p, q; auto]. }
  specialize (Vn l).
  destruct (valid_lists l) as [|g0 rest] eqn:E; [discriminate|].
  assert (G0 : forall g, In g (g0 :: rest) -> good g) by (intros g Hg; apply G, V, Hg).
  assert (Cv : forall t, (exists g, present l g /\ covered g t) <-> (exists g, In g (g0 :: rest) /\ covered g t)).
  { intros t. split; intros (g & A & B); exists g; (split; [apply V; assumption|assumption]). }
  intros F. assert (F' : merge_fold (append_gtis s_start) g0 rest = Ok r).
  { destruct rest as [|g1 rest]; [injection F as <-; reflexivity|].
    apply bind_ok in F. destruct F as (c & _ & F). apply bind_ok in F. destruct F as (r' & F & E'). congruence. }
  destruct (merge_fold_append s_start Hs rest g0 r) as (Gr & C & D); auto.
  { apply G0. left; reflexivity. } { intros g Hg. apply G0. right; assumption. }
  split; [assumption|]. split; [intros t; rewrite Cv; apply C|].
  intros i j g g' t N Hi Hj [A B].
  assert (Ng : g <> []) by (intros ->; destruct A as (? & ? & [] & _)).
  assert (Ng' : g' <> []) by (intros ->; destruct B as (? & ? & [] & _)).
  destruct (Vn i j g g' N Hi Hj Ng Ng') as (p & q & Npq & Hp & Hq). apply (D p q g g' t Npq Hp Hq); auto.
Qed.
Lemma merge_cross l : (exists g, present l g) -> (forall g, present l g -> good g) ->
  (forall g g', two_present l g g' -> no_touching g g') ->
  exists o, merge_gtis s_end s_start s_edge l Intersection = Ok o /\
    (forall r, o = Some r -> good r) /\
    (forall t, ocovered o t <-> (forall g, present l g -> covered g t)).
Proof.
  intros (gx & Hx) G T. unfold merge_gtis.
  assert (V := valid_in l). assert (V2 := valid_two l). destruct (valid_lists l) as [|g0 rest] eqn:E; [apply V in Hx; destruct Hx|].
  assert (G0 : forall g, In g (g0 :: rest) -> good g) by (intros g Hg; apply G, V, Hg).
  assert (Cv : forall t, (forall g, present l g -> covered g t) <-> (forall g, In g (g0 :: rest) -> covered g t)).
  { intros t. split; intros H g A; apply H, V, A. }
  destruct rest as [|g1 rest].
  - exists (Some g0). split; [reflexivity|]. split; [intros r Hr; injection Hr as <-; apply G0; left; reflexivity|].
    intros t. rewrite Cv. split.
    + intros (g & Eg & Hc). injection Eg as <-. intros g [<-|[]]. assumption.
    + intros H. exists g0. split; [reflexivity|]. apply H. left; reflexivity.
  - destruct (cross_gtis_exact s_end (g0 :: g1 :: rest) He) as (c & Ec & W & P & C); [discriminate|assumption| |].
    { intros i j g g' N A B. apply T. eapply V2; eauto. }
    rewrite Ec. cbn [bind]. eexists. split; [reflexivity|]. split.
    + intros r Hr. destruct c as [|iv c]; [discriminate|]. injection Hr as <-. split; [discriminate|]. split; assumption.
    + intros t. rewrite Cv, <- C. destruct c as [|iv c].
      * split; [intros (g & Eg & _); discriminate|intros (? & ? & [] & _)].
      * split; [intros (g & Eg & Hc); injection Eg as <-; assumption|intros H; eexists; split; [reflexivity|assumption]].
Qed.
Lemma merge_infer l : (exists g, present l g) -> (forall g, present l g -> good g) ->
  (forall g g', two_present l g g' -> no_touching g g') ->
  exists r, merge_gtis s_end s_start s_edge l Infer = Ok (Some r) /\ good r /\
    ((exists t, forall g, present l g -> covered g t) ->
       forall t, covered r t <-> (forall g, present l g -> covered g t)) /\
    ((~ exists t, forall g, present l g -> covered g t) ->
       forall t, covered r t <-> exists g, present l g /\ covered g t).
Proof.
  intros Hx G T. destruct (merge_cross l Hx G T) as (o & Eo & Go & Co).
  destruct (merge_union l Hx G) as (u & Eu & Gu & Cu).
  assert (V := valid_in l). unfold merge_gtis in *.
  destruct Hx as (gx & Hx). destruct (valid_lists l) as [|g0 rest] eqn:E; [apply V in Hx; destruct Hx|].
  destruct rest as [|g1 rest].
  - injection Eo as <-. injection Eu as <-. exists g0. split; [reflexivity|]. split; [assumption|]. split; [|auto].
    intros _ t. rewrite <- Co. unfold ocovered. split; [intros H; exists g0; auto|intros (g & Eg & H); injection Eg as <-; assumption].
  - destruct (cross_gtis s_end (g0 :: g1 :: rest)) as [c|e]; [|discriminate]. cbn [bind] in *.
    destruct c as [|iv c].
    + injection Eo as <-. exists u. split; [assumption|]. split; [assumption|]. split; [|auto].
      intros (t & Ht). exfalso. apply Co in Ht. destruct Ht as (? & Eg & _). discriminate.
    + injection Eo as <-. exists (iv :: c). split; [reflexivity|]. assert (Gc : good (iv :: c)) by (apply Go; reflexivity).
      split; [assumption|]. split.
      * intros _ t. rewrite <- Co. unfold ocovered. split; [intros H; eexists; split; [reflexivity|assumption]|].
        intros (g & Eg & H). injection Eg as <-. assumption.
      * intros N. exfalso. apply N. destruct (good_point _ Gc) as (t & Ht). exists t. apply Co. exists (iv :: c). auto.
Qed.
End MERGE.

Lemma fold_omin : forall e m, exists r, fold_left omin e (Some m) = Some r /\ (r = m \/ In r e) /\ r <= m /\ forall x, In x e -> r <= x.
Proof.
  induction e as [|y e IH]; intros m.
  - exists m. simpl. split; [reflexivity|]. split; [tauto|]. split; [apply Qle_refl|tauto].
  - simpl. destruct (IH (qmin m y)) as (r & -> & A & B & C). exists r. split; [reflexivity|].
    unfold qmin in *. destruct (qle m y) eqn:Q; qb; (split; [intuition congruence|]).
    + split; [assumption|]. intros x [<-|H]; [lra|auto].
    + split; [lra|]. intros x [<-|H]; [lra|auto].
Qed.
Lemma fold_omax : forall e m, exists r, fold_left omax e (Some m) = Some r /\ (r = m \/ In r e) /\ m <= r /\ forall x, In x e -> x <= r.
Proof.
  induction e as [|y e IH]; intros m.
  - exists m. simpl. split; [reflexivity|]. split; [tauto|]. split; [apply Qle_refl|tauto].
  - simpl. destruct (IH (qmax m y)) as (r & -> & A & B & C). exists r. split; [reflexivity|].
    unfold qmax in *. destruct (qle m y) eqn:Q; qb; (split; [intuition congruence|]).
    + split; [lra|]. intros x [<-|H]; [lra|auto].
    + split; [assumption|]. intros x [<-|H]; [lra|auto].
Qed.
Lemma flatten_edge (g : gtis) x : In x (flatten g) <-> edge_of g x.
Proof.
  unfold flatten, edge_of. rewrite in_flat_map. split.
  - intros ([a b] & H & [<-|[<-|[]]]); exists a, b; simpl; auto.
  - intros (a & b & H & [ -> | -> ]); exists (a, b); simpl; auto.
Qed.
Lemma merge_none s1 s2 s3 l : (exists g, present l g) ->
  exists a b, merge_gtis s1 s2 s3 l NoMerge = Ok (Some [(a, b)]) /\
    (exists g, present l g /\ edge_of g a) /\ (exists g, present l g /\ edge_of g b) /\
    (forall g x, present l g -> edge_of g x -> a <= x /\ x <= b).
Proof.
  intros (gx & Hx). unfold merge_gtis. assert (V := valid_in l).
  destruct (valid_lists l) as [|g0 rest] eqn:E; [apply V in Hx; destruct Hx|].
  unfold global_range. destruct (flat_map flatten (g0 :: rest)) as [|e0 e] eqn:Ef.
  - exfalso. assert (N : g0 <> []) by (apply (V g0); left; reflexivity). destruct g0; [congruence|]. discriminate.
  - assert (Hin : forall x, In x (e0 :: e) <-> exists g, present l g /\ edge_of g x).
    { intros x. rewrite <- Ef, in_flat_map. split; intros (g & A & B); exists g; (split; [apply V|apply flatten_edge]; assumption). }
    cbn [fold_left omin omax].
    destruct (fold_omin e e0) as (a & -> & A1 & A2 & A3). destruct (fold_omax e e0) as (b & -> & B1 & B2 & B3).
    exists a, b. split; [reflexivity|]. split; [apply Hin; simpl; destruct A1; auto|]. split; [apply Hin; simpl; destruct B1; auto|].
    intros g x Hg Hx'. assert (H : In x (e0 :: e)) by (apply Hin; eauto). destruct H as [<-|H]; auto.
Qed.
(* "infer" with three lists, two of which overlap, still takes the union. *)
Lemma merge_infer_overlap : exists (l : list (option gtis)) r,
  (forall g, present l g -> good g) /\
  (exists g g' t, two_present l g g' /\ covered g t /\ covered g' t) /\
  merge_gtis (isort_by t_end) (isort_by fst) (isort_by fst) l Infer = Ok (Some r) /\
  (forall g, present l g -> exists t, covered g t /\ covered r t) /\ exists t, covered r t /\ ~ covered [(0, 10)] t.
Proof.
  exists [Some [(0, 10)]; Some [(5, 12)]; Some [(20, 30)]]. eexists.
  split. { intros g [[E|[E|[E|[]]]] _]; injection E as <-; apply good_dec; reflexivity. }
  split. { exists [(0, 10)], [(5, 12)], 6. split; [exists 0%nat, 1%nat; repeat split; discriminate|].
    split; apply covered_dec_t; reflexivity. }
  split; [vm_compute; reflexivity|]. split.
  - intros g [[E|[E|[E|[]]]] _]; injection E as <-; [exists 1|exists 6|exists 21]; split; apply covered_dec_t; reflexivity.
  - exists 21. split; [apply covered_dec_t; reflexivity|apply covered_dec_f; reflexivity].
Qed.
