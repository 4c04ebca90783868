(* P_lcops2.v: splitting at gaps, continued. *)
From Coq Require Import Lqa Lia Permutation.
From Verif Require Import Np Lib S_gti S_seg S_base S_lc S_utils M_gti M_seg M_merge M_utils M_lc M_base M_segan S_lcops P_gti_cross P_gti_final P_seg_cut P_helpers P_base P_base2 P_base4 P_segan M_lcops P_lcops.
Open Scope Q_scope.

(* lists of separated intervals that cover the same times are equal *)
Lemma cover_unique l : forall l', well_formed l -> positive_lengths l -> gaps_between l -> well_formed l' -> positive_lengths l' -> gaps_between l' ->
  (forall t, covered l t <-> covered l' t) -> same_intervals l l'.
Proof.
  induction l as [|[a b] l IH]; intros l' W P G W' P' G' C.
  - destruct l' as [|[c d] l']; [constructor|]. exfalso. assert (K : covered [] c) by (apply C; exists c, d; split; [left; reflexivity|]; pose proof (P' c d (or_introl eq_refl)); lra).
    destruct K as (x & y & [] & _).
  - destruct l' as [|[c d] l'].
    + exfalso. assert (K : covered [] a) by (apply C; exists a, b; split; [left; reflexivity|]; pose proof (P a b (or_introl eq_refl)); lra). destruct K as (x & y & [] & _).
    + assert (F : forall a b l, well_formed ((a, b) :: l) -> positive_lengths ((a, b) :: l) -> forall t, covered ((a, b) :: l) t -> a <= t).
      { clear. intros a b l W P t (x & y & Hx & H1 & H2). destruct Hx as [E|Hx]; [injection E as <- <-; assumption|]. destruct (In_nth_error _ _ Hx) as (k & Hk).
        pose proof (proj2 W 0%nat (S k) a b x y ltac:(lia) eq_refl Hk). pose proof (P a b (or_introl eq_refl)). lra. }
      assert (A : a == c).
      { pose proof (P a b (or_introl eq_refl)). pose proof (P' c d (or_introl eq_refl)).
        assert (K1 : covered ((c, d) :: l') a) by (apply C; exists a, b; split; [left; reflexivity|lra]).
        assert (K2 : covered ((a, b) :: l) c) by (apply C; exists c, d; split; [left; reflexivity|lra]).
        apply (F c d l' W' P') in K1. apply (F a b l W P) in K2. lra. }
      assert (N : forall a b l t, gaps_between ((a, b) :: l) -> covered ((a, b) :: l) t -> b <= t -> b < t /\ covered l t).
      { clear. intros a b l t G (x & y & Hx & H1 & H2) H. destruct Hx as [E|Hx]; [injection E as <- <-; lra|]. destruct (In_nth_error _ _ Hx) as (k & Hk).
        pose proof (G 0%nat (S k) a b x y ltac:(lia) eq_refl Hk). split; [lra|]. exists x, y. split; [assumption|lra]. }
      assert (B : b == d).
      { pose proof (P a b (or_introl eq_refl)). pose proof (P' c d (or_introl eq_refl)). destruct (Q_dec b d) as [[H1|H1]|H1]; [| |assumption].
        - exfalso. assert (K : covered ((a, b) :: l) b) by (apply C; exists c, d; split; [left; reflexivity|lra]). apply (N a b l b G) in K; [lra|lra].
        - exfalso. assert (K : covered ((c, d) :: l') d) by (apply C; exists a, b; split; [left; reflexivity|lra]). apply (N c d l' d G') in K; [lra|lra]. }
      constructor; [split; assumption|]. apply IH.
      * split; [intros x y Hx; apply (proj1 W x y); right; assumption|]. intros i j x y z w Hij Hi Hj. apply (proj2 W (S i) (S j) x y z w); [lia|assumption|assumption].
      * intros x y Hx. apply (P x y). right. assumption.
      * intros i j x y z w Hij Hi Hj. apply (G (S i) (S j) x y z w); [lia|assumption|assumption].
      * split; [intros x y Hx; apply (proj1 W' x y); right; assumption|]. intros i j x y z w Hij Hi Hj. apply (proj2 W' (S i) (S j) x y z w); [lia|assumption|assumption].
      * intros x y Hx. apply (P' x y). right. assumption.
      * intros i j x y z w Hij Hi Hj. apply (G' (S i) (S j) x y z w); [lia|assumption|assumption].
      * assert (M : forall a b l t, gaps_between ((a, b) :: l) -> covered l t -> b < t).
        { clear. intros a b l t G (x & y & Hx & H1 & H2). destruct (In_nth_error _ _ Hx) as (k & Hk). pose proof (G 0%nat (S k) a b x y ltac:(lia) eq_refl Hk). lra. }
        assert (L : forall p l t, covered l t -> covered (p :: l) t) by (intros p q t (x & y & Hx & H1); exists x, y; split; [right|]; assumption).
        intros t. split; intros K.
        -- pose proof (M a b l t G K). apply (N c d l' t G'); [apply C, L, K|lra].
        -- pose proof (M c d l' t G' K). apply (N a b l t G); [apply C, L, K|lra].
Qed.

Lemma span_good mg h l : increasing l -> l <> [] -> 0 < h -> 2 * h < mg ->
  good (map (span h) (runs mg l)) /\ gaps_between (map (span h) (runs mg l)).
Proof.
  intros I N Hh Hm.
  assert (S : forall r, In r (runs mg l) -> exists x y, span h r = (x - h, y + h) /\ In x r /\ In y r /\ x <= y /\ forall z, In z r -> x <= z /\ z <= y).
  { intros r Hr. destruct (runs_shape mg l I r Hr) as (a & r' & -> & Ir & _). exists a, (last (a :: r') 0). split; [reflexivity|]. split; [left; reflexivity|].
    split; [apply last_in|]. split; [apply last_max; [assumption|left; reflexivity]|]. intros z Hz. split; [|apply last_max; assumption].
    destruct Hz as [<-|Hz]; [apply Qle_refl|apply Qlt_le_weak, (inc_head a r'); assumption]. }
  assert (G : gaps_between (map (span h) (runs mg l))).
  { intros i j a b c d Hij Hi Hj. rewrite nth_error_map in Hi, Hj. destruct (nth_error (runs mg l) i) as [r|] eqn:Ei; [|discriminate]. destruct (nth_error (runs mg l) j) as [q|] eqn:Ej; [|discriminate].
    cbn [option_map] in Hi, Hj. destruct (S r) as (x & y & E1 & _ & Y & _); [apply nth_error_In with i; assumption|]. destruct (S q) as (x' & y' & E2 & X & _); [apply nth_error_In with j; assumption|].
    rewrite E1 in Hi. rewrite E2 in Hj. assert (B : b = y + h) by congruence. assert (C : c = x' - h) by congruence. rewrite B, C.
    pose proof (runs_apart mg l I ltac:(lra) i j r q y x' Hij Ei Ej Y X). lra. }
  split; [|assumption]. split; [|split; [split|]].
  - destruct l as [|a l]; [congruence|]. destruct (runs_cons mg a l) as (r & rest & E). rewrite E. discriminate.
  - intros a b H. apply in_map_iff in H. destruct H as (r & E & Hr). destruct (S r Hr) as (x & y & E1 & _ & _ & L & _). assert (a = x - h) by congruence. assert (b = y + h) by congruence. subst. lra.
  - intros i j a b c d Hij Hi Hj. apply Qlt_le_weak. apply (G i j a b c d); assumption.
  - intros a b H. apply in_map_iff in H. destruct H as (r & E & Hr). destruct (S r Hr) as (x & y & E1 & _ & _ & L & _). assert (a = x - h) by congruence. assert (b = y + h) by congruence. subst. lra.
Qed.
Lemma all_filter {A} (p : A -> bool) l : (forall x, In x l -> p x = true) -> filter p l = l.
Proof. induction l as [|a l IH]; intros H; [reflexivity|]. cbn. rewrite (H a (or_introl eq_refl)). f_equal. apply IH. intros x Hx. apply H. right. assumption. Qed.
Lemma none_filter {A} (p : A -> bool) l : (forall x, In x l -> p x = false) -> filter p l = [].
Proof. induction l as [|a l IH]; intros H; [reflexivity|]. cbn. rewrite (H a (or_introl eq_refl)). apply IH. intros x Hx. apply H. right. assumption. Qed.
(* a test that accepts the times of a run, and no time further than mg from it *)
Lemma run_filter mg l (p : Q -> bool) k r : increasing l -> 0 < mg -> nth_error (runs mg l) k = Some r ->
  (forall x, In x r -> p x = true) -> (forall x, (forall y, In y r -> x + mg <= y) \/ (forall y, In y r -> y + mg <= x) -> p x = false) -> filter p l = r.
Proof.
  intros I Hm Hk H1 H2. destruct (nth_error_split _ _ Hk) as (r1 & r2 & E & L).
  replace (filter p l) with (filter p (concat (runs mg l))) by (rewrite runs_concat; reflexivity). rewrite E, concat_app. cbn [concat]. rewrite !filter_app.
  rewrite (all_filter p r H1). rewrite (none_filter p (concat r1)), (none_filter p (concat r2)); [rewrite app_nil_r; reflexivity| |].
  - intros x Hx. apply H2. right. intros y Hy. apply in_concat in Hx. destruct Hx as (q & Hq & Hx). destruct (In_nth_error _ _ Hq) as (j & Hj).
    apply (runs_apart mg l I ltac:(lra) k (S k + j)%nat r q y x); [lia|assumption| |assumption|assumption]. rewrite E, nth_error_app2 by lia. replace (S k + j - length r1)%nat with (S j) by lia. exact Hj.
  - intros x Hx. apply H2. left. intros y Hy. apply in_concat in Hx. destruct Hx as (q & Hq & Hx). destruct (In_nth_error _ _ Hq) as (j & Hj).
    assert (j < length r1)%nat by (apply nth_error_Some; congruence).
    apply (runs_apart mg l I ltac:(lra) j k q r x y); [lia| |assumption|assumption|assumption]. rewrite E, nth_error_app1 by assumption. exact Hj.
Qed.
Lemma flags_keep (p : Q -> bool) (P : Q -> Prop) time m : (forall t, p t = true <-> P t) -> flags P time m -> keep m time = filter p time.
Proof.
  intros H [L F]. revert m L F. induction time as [|a time IH]; intros [|b m] L F; try discriminate; [reflexivity|].
  cbn [keep filter]. assert (b = p a). { specialize (F 0%nat a eq_refl). cbn in F. destruct (p a) eqn:E.
    - assert (K : Some b = Some true) by (apply F, H, E). congruence.
    - destruct b; [|reflexivity]. assert (K : p a = true) by (apply H, F; reflexivity). congruence. }
  subst b. rewrite (IH m); [reflexivity|cbn in L; lia|]. intros i t Hi. apply (F (S i) t Hi).
Qed.
Lemma neighbours_diffs l d : In d (diffs l) <-> exists a b, neighbours l a b /\ d = b - a.
Proof.
  induction l as [|x l IH]; [split; [intros []|intros (a & b & (k & H & _) & _); destruct k; discriminate]|]. destruct l as [|y l].
  - split; [intros []|]. intros (a & b & (k & H1 & H2) & _). destruct k; discriminate.
  - change (diffs (x :: y :: l)) with ((y - x) :: diffs (y :: l)). split.
    + intros [<-|H]; [exists x, y; split; [exists 0%nat; split; reflexivity|reflexivity]|]. apply IH in H. destruct H as (a & b & (k & H1 & H2) & E). exists a, b. split; [exists (S k); split; assumption|assumption].
    + intros (a & b & (k & H1 & H2) & E). destruct k as [|k]; [cbn in H1, H2; left; congruence|]. right. apply IH. exists a, b. split; [exists k; split; assumption|assumption].
Qed.
