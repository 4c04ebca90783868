(* P_lcops.v: proofs about splitting at gaps. *)
From Coq Require Import Lqa Lia Permutation.
From Verif Require Import Np Lib S_gti S_seg S_base S_lc M_gti M_seg M_merge M_utils M_lc M_base M_segan S_lcops P_gti_cross P_seg_cut P_helpers P_base P_base2 P_base4 M_lcops.
Open Scope Q_scope.

Lemma runs_cons mg a l : exists r rest, runs mg (a :: l) = (a :: r) :: rest.
Proof.
  cbn [runs]. destruct (runs mg l) as [|[|b r] rest]; [exists [], []; reflexivity|eexists; eexists; reflexivity|].
  destruct (Qlt_le_dec (b - a) mg); eexists; eexists; reflexivity.
Qed.
Lemma runs_step mg a b l r rest : runs mg (b :: l) = r :: rest ->
  runs mg (a :: b :: l) = if Qlt_le_dec (b - a) mg then (a :: r) :: rest else [a] :: r :: rest.
Proof.
  intros E. destruct (runs_cons mg b l) as (r' & rest' & E'). rewrite E' in E. injection E as <- <-.
  change (runs mg (a :: b :: l)) with (match runs mg (b :: l) with
    | (b :: r) :: rest => if Qlt_le_dec (b - a) mg then (a :: b :: r) :: rest else [a] :: (b :: r) :: rest | rest => [a] :: rest end).
  rewrite E'. reflexivity.
Qed.
Lemma runs_concat mg l : concat (runs mg l) = l.
Proof.
  induction l as [|a l IH]; [reflexivity|]. destruct l as [|b l]; [reflexivity|].
  destruct (runs_cons mg b l) as (r & rest & E). rewrite (runs_step _ _ _ _ _ _ E). rewrite E in IH. cbn [concat app] in IH.
  destruct (Qlt_le_dec (b - a) mg); cbn [concat app]; rewrite IH; reflexivity.
Qed.
(* the closed span of a run, widened by h *)
Definition span (h : Q) (r : list Q) : Q * Q := (hd 0 r - h, last r 0 + h).
Lemma gap_gtis_runs mg h a l tl : last (a :: l) 0 = tl -> gap_gtis mg h a tl (a :: l) = map (span h) (runs mg (a :: l)).
Proof.
  unfold gap_gtis. revert a. induction l as [|b l IH]; intros a E.
  - cbn in E. subst. reflexivity.
  - assert (E' : last (b :: l) 0 = tl) by exact E. specialize (IH b E').
    destruct (runs_cons mg b l) as (r & rest & ER). rewrite (runs_step _ _ _ _ _ _ ER). rewrite ER in IH.
    assert (G : gap_ends mg (a :: b :: l) = if qle mg (b - a) then (a, b) :: gap_ends mg (b :: l) else gap_ends mg (b :: l)) by reflexivity.
    rewrite G. destruct (Qlt_le_dec (b - a) mg) as [H|H].
    + replace (qle mg (b - a)) with false by (symmetry; qb; lra). cbn [map combine] in IH |- *.
      destruct (gap_ends mg (b :: l)) as [|p q]; cbn [map app combine] in IH |- *; unfold span in IH at 1 |- * at 1; cbn [hd] in IH |- *; change (last (a :: b :: r) 0) with (last (b :: r) 0); pose proof (f_equal (fun l => snd (hd (0, 0) l)) IH) as I1; pose proof (f_equal (@List.tl _) IH) as I2; cbn [hd snd List.tl] in I1, I2; rewrite I1, I2; reflexivity.
    + replace (qle mg (b - a)) with true by (symmetry; qb; assumption). exact (f_equal (cons (a - h, a + h)) IH).
Qed.

(* runs of increasing times *)
Lemma inc_tail a l : increasing (a :: l) -> increasing l.
Proof. intros H i j x y Hij Hi Hj. apply (H (S i) (S j)); [lia|assumption|assumption]. Qed.
Lemma inc_head a l x : increasing (a :: l) -> In x l -> a < x.
Proof. intros H Hx. destruct (In_nth_error _ _ Hx) as (k & Hk). apply (H 0%nat (S k)); [lia|reflexivity|assumption]. Qed.
Lemma last_in (a : Q) l : In (last (a :: l) 0) (a :: l).
Proof. revert a. induction l as [|b l IH]; intros a; [left; reflexivity|]. right. exact (IH b). Qed.
Lemma last_max a l x : increasing (a :: l) -> In x (a :: l) -> x <= last (a :: l) 0.
Proof.
  revert a. induction l as [|b l IH]; intros a H Hx; [destruct Hx as [<-|[]]; apply Qle_refl|].
  change (last (a :: b :: l) 0) with (last (b :: l) 0). destruct Hx as [<-|Hx].
  - apply Qlt_le_weak, inc_head with (l := b :: l); [assumption|apply last_in].
  - apply IH; [apply inc_tail with a; assumption|assumption].
Qed.
(* a list of runs of times, cut where the distance is at least mg: heads, lasts *)
Lemma runs_shape mg l : increasing l -> forall r, In r (runs mg l) -> exists a r', r = a :: r' /\ increasing (a :: r') /\ incl (a :: r') l.
Proof.
  induction l as [|a l IH]; intros H r Hr; [destruct Hr|]. destruct l as [|b l].
  - destruct Hr as [<-|[]]. exists a, []. split; [reflexivity|]. split; [assumption|apply incl_refl].
  - destruct (runs_cons mg b l) as (r1 & rest & E). rewrite (runs_step _ _ _ _ _ _ E) in Hr. specialize (IH (inc_tail _ _ H)). rewrite E in IH.
    assert (K : forall r, In r ((b :: r1) :: rest) -> exists a' r', r = a' :: r' /\ increasing (a' :: r') /\ incl (a' :: r') (a :: b :: l)).
    { intros q Hq. destruct (IH q Hq) as (x & r' & -> & I & L). exists x, r'. split; [reflexivity|]. split; [assumption|]. intros z Hz. right. apply L, Hz. }
    destruct (Qlt_le_dec (b - a) mg) as [Hm|Hm]; destruct Hr as [<-|Hr].
    + destruct (K _ (or_introl eq_refl)) as (x & r' & Ex & I & L). injection Ex as <- <-. exists a, (b :: r1). split; [reflexivity|].
      split; [|intros z [<-|Hz]; [left; reflexivity|apply L, Hz]]. intros i j x y Hij Hi Hj. destruct j as [|j]; [lia|]. cbn [nth_error] in Hj.
      assert (Hy : In y (b :: l)). { destruct (IH _ (or_introl eq_refl)) as (x' & r'' & Ex & _ & L'). injection Ex as <- <-. apply L'. apply nth_error_In with j. assumption. }
      destruct i as [|i]; [cbn in Hi; injection Hi as <-; apply inc_head with (b :: l); assumption|]. apply (I i j); [lia|assumption|assumption].
    + apply K. right. assumption.
    + exists a, []. split; [reflexivity|]. split; [|intros z [<-|[]]; left; reflexivity]. intros i j x y Hij Hi Hj. destruct j as [|[|j]]; [lia|discriminate|discriminate].
    + apply K. assumption.
Qed.
(* what follows a run is at least mg later *)
Lemma runs_apart mg l : increasing l -> 0 <= mg -> forall i j r q x y, (i < j)%nat -> nth_error (runs mg l) i = Some r -> nth_error (runs mg l) j = Some q ->
  In x r -> In y q -> x + mg <= y.
Proof.
  intros H Hm. induction l as [|a l IH]; intros i j r q x y Hij Hi Hj Hx Hy; [destruct i; discriminate|]. destruct l as [|b l].
  - destruct j as [|[|j]]; [lia|discriminate|discriminate].
  - destruct (runs_cons mg b l) as (r1 & rest & E). rewrite (runs_step _ _ _ _ _ _ E) in Hi, Hj. specialize (IH (inc_tail _ _ H)). rewrite E in IH.
    pose proof (runs_shape mg _ (inc_tail _ _ H)) as Sh. rewrite E in Sh.
    assert (B : forall z, In z (concat ((b :: r1) :: rest)) -> b <= z).
    { intros z Hz. rewrite <- E, runs_concat in Hz. destruct Hz as [<-|Hz]; [apply Qle_refl|]. apply Qlt_le_weak. apply inc_head with l; [apply inc_tail with a|]; assumption. }
    assert (C : forall k p z, nth_error ((b :: r1) :: rest) k = Some p -> In z p -> In z (concat ((b :: r1) :: rest))).
    { intros k p z Hk Hz. apply in_concat. exists p. split; [apply nth_error_In with k; assumption|assumption]. }
    destruct (Qlt_le_dec (b - a) mg) as [Hg|Hg].
    + destruct j as [|j]; [lia|]. destruct i as [|i].
      * cbn in Hi. injection Hi as <-. assert (K : b + mg <= y) by (apply (IH 0%nat (S j) (b :: r1) q b y); [lia|reflexivity|exact Hj|left; reflexivity|assumption]).
        destruct Hx as [<-|Hx]; [pose proof (inc_head a (b :: l) b H (or_introl eq_refl)); lra|]. apply (IH 0%nat (S j) (b :: r1) q x y); [lia|reflexivity|exact Hj|assumption|assumption].
      * apply (IH (S i) (S j) r q x y); [lia|exact Hi|exact Hj|assumption|assumption].
    + destruct j as [|j]; [lia|]. destruct i as [|i].
      * cbn in Hi. injection Hi as <-. destruct Hx as [<-|[]]. cbn [nth_error] in Hj. pose proof (B y (C j q y Hj Hy)). lra.
      * apply (IH i j r q x y); [lia|exact Hi|exact Hj|assumption|assumption].
Qed.
(* within a run neighbours are less than mg apart *)
Lemma runs_close mg l : forall r a b, In r (runs mg l) -> neighbours r a b -> b - a < mg.
Proof.
  induction l as [|x l IH]; intros r a b Hr [k [H1 H2]]; [destruct Hr|]. destruct l as [|y l].
  - destruct Hr as [<-|[]]. destruct k; discriminate.
  - destruct (runs_cons mg y l) as (r1 & rest & E). rewrite (runs_step _ _ _ _ _ _ E) in Hr. rewrite E in IH.
    destruct (Qlt_le_dec (y - x) mg) as [Hg|Hg]; destruct Hr as [<-|Hr].
    + destruct k as [|k]; cbn [nth_error] in H1, H2; [injection H1 as <-; injection H2 as <-; assumption|].
      apply (IH (y :: r1)); [left; reflexivity|exists k; split; assumption].
    + apply (IH r); [right; assumption|exists k; split; assumption].
    + destruct k; discriminate.
    + apply (IH r); [assumption|exists k; split; assumption].
Qed.
