(* Lib.v: generic lemmas used by the proofs. *)
From Coq Require Export Sorting.Sorted Permutation Lqa.
From Verif Require Export Np.
Open Scope Q_scope.

Lemma qle_t a b : qle a b = true <-> a <= b.
Proof. apply Qle_bool_iff. Qed.
Lemma qle_f a b : qle a b = false <-> b < a.
Proof.
  unfold qle. rewrite <- not_true_iff_false, Qle_bool_iff. split; intros H.
  - apply Qnot_le_lt; assumption.
  - apply Qlt_not_le; assumption.
Qed.
Lemma qlt_t a b : qlt a b = true <-> a < b.
Proof. unfold qlt. rewrite negb_true_iff. apply qle_f. Qed.
Lemma qlt_f a b : qlt a b = false <-> b <= a.
Proof. unfold qlt. rewrite negb_false_iff. apply qle_t. Qed.
Lemma qeq_t a b : qeq a b = true <-> a == b.
Proof. apply Qeq_bool_iff. Qed.
Lemma qeq_f a b : qeq a b = false <-> ~ a == b.
Proof. unfold qeq. rewrite <- not_true_iff_false, Qeq_bool_iff. tauto. Qed.

(* Turn boolean comparisons in the context (and goal) into propositions. *)
Ltac qb :=
  repeat match goal with
  | H : qle _ _ = true |- _ => apply qle_t in H
  | H : qle _ _ = false |- _ => apply qle_f in H
  | H : qlt _ _ = true |- _ => apply qlt_t in H
  | H : qlt _ _ = false |- _ => apply qlt_f in H
  | H : qeq _ _ = true |- _ => apply qeq_t in H
  | H : qeq _ _ = false |- _ => apply qeq_f in H
  | H : andb _ _ = true |- _ => apply andb_true_iff in H; destruct H
  | H : orb _ _ = false |- _ => apply orb_false_iff in H; destruct H
  | H : negb _ = true |- _ => apply negb_true_iff in H
  | H : negb _ = false |- _ => apply negb_false_iff in H
  | |- qle _ _ = true => apply qle_t
  | |- qle _ _ = false => apply qle_f
  | |- qlt _ _ = true => apply qlt_t
  | |- qlt _ _ = false => apply qlt_f
  | |- qeq _ _ = true => apply qeq_t
  | |- qeq _ _ = false => apply qeq_f
  end.

Lemma qmax_cases a b : (qmax a b = a /\ b < a) \/ (qmax a b = b /\ a <= b).
Proof. unfold qmax. destruct (qle a b) eqn:E; qb; auto. Qed.
Lemma qmax_l a b : a <= qmax a b.
Proof. destruct (qmax_cases a b) as [[-> H]|[-> H]]; lra. Qed.
Lemma qmax_r a b : b <= qmax a b.
Proof. destruct (qmax_cases a b) as [[-> H]|[-> H]]; lra. Qed.
Lemma qmin_cases a b : (qmin a b = a /\ a <= b) \/ (qmin a b = b /\ b < a).
Proof. unfold qmin. destruct (qle a b) eqn:E; qb; auto. Qed.

(* Order on positions <-> StronglySorted. *)
Lemma ss_nth {A} (R : A -> A -> Prop) (l : list A) :
  StronglySorted R l <->
  (forall i j x y, (i < j)%nat -> nth_error l i = Some x -> nth_error l j = Some y -> R x y).
Proof.
  split.
  - induction 1 as [|a l Hs IH Hf]; intros i j x y Hij Hx Hy.
    + destruct i; discriminate.
    + destruct j as [|j]; [lia|]. destruct i as [|i]; simpl in *.
      * inversion Hx; subst. rewrite Forall_forall in Hf. apply Hf. eapply nth_error_In; eauto.
      * eapply IH with (i := i) (j := j); eauto; lia.
  - induction l as [|a l IH]; intros H; constructor.
    + apply IH. intros i j x y Hij Hx Hy. apply (H (S i) (S j) x y); [lia|assumption|assumption].
    + rewrite Forall_forall. intros x Hx. apply In_nth_error in Hx. destruct Hx as [n Hn].
      apply (H 0%nat (S n) a x); [lia|reflexivity|assumption].
Qed.

Lemma ss_app {A} (R : A -> A -> Prop) (l1 l2 : list A) :
  StronglySorted R (l1 ++ l2) <->
  StronglySorted R l1 /\ StronglySorted R l2 /\ (forall x y, In x l1 -> In y l2 -> R x y).
Proof.
  induction l1 as [|a l1 IH]; simpl.
  - split; [intros H; repeat split; [constructor|assumption|intros x y []] | tauto].
  - split.
    + intros H. apply StronglySorted_inv in H. destruct H as [H1 H2].
      rewrite Forall_app in H2. destruct H2 as [H2 H3]. apply IH in H1. destruct H1 as (Ha & Hb & Hc).
      repeat split; [constructor; assumption|assumption|].
      intros x y [->|Hx] Hy; [rewrite Forall_forall in H3; auto|auto].
    + intros (H1 & H2 & H3). apply StronglySorted_inv in H1. destruct H1 as [Ha Hb]. constructor.
      * apply IH. repeat split; auto.
      * apply Forall_app. split; [assumption|]. apply Forall_forall. intros y Hy. apply H3; auto.
Qed.

Lemma ss_weaken {A} (R S : A -> A -> Prop) (l : list A) :
  (forall x y, In x l -> In y l -> R x y -> S x y) -> StronglySorted R l -> StronglySorted S l.
Proof.
  induction l as [|a l IH]; intros H Hs; constructor.
  - apply StronglySorted_inv in Hs. apply IH; [|tauto]. intros x y Hx Hy; apply H; right; assumption.
  - apply StronglySorted_inv in Hs. destruct Hs as [_ Hf]. rewrite Forall_forall in *.
    intros x Hx. apply H; [left; reflexivity|right; assumption|apply Hf; assumption].
Qed.

Lemma fold_left_inv {A B} (P : list B -> A -> Prop) (f : A -> B -> A) (l : list B) (a : A) :
  P [] a ->
  (forall pre x post st, l = pre ++ x :: post -> P pre st -> P (pre ++ [x]) (f st x)) ->
  P l (fold_left f l a).
Proof.
  intros H0 Hstep.
  enough (G : forall post pre st, l = pre ++ post -> P pre st -> P l (fold_left f post st)) by (apply (G l [] a); auto).
  induction post as [|x post IH]; intros pre st Hl Hp; simpl.
  - rewrite app_nil_r in Hl. subst. assumption.
  - apply (IH (pre ++ [x])).
    + rewrite <- app_assoc. assumption.
    + eapply Hstep; eauto.
Qed.

(* argmax *)
Lemma argmax_from_spec l : forall pre i best vbest,
  i = length pre -> nth_error pre best = Some vbest ->
  (forall x, In x pre -> x <= vbest) ->
  exists m, nth_error (pre ++ l) (argmax_from i best vbest l) = Some m /\
            (forall x, In x (pre ++ l) -> x <= m).
Proof.
  induction l as [|x l IH]; intros pre i best vbest Hi Hb Hmax; simpl.
  - rewrite app_nil_r. eauto.
  - assert (Hlen : nth_error (pre ++ [x]) i = Some x).
    { subst i. rewrite nth_error_app2 by lia. rewrite Nat.sub_diag. reflexivity. }
    replace (pre ++ x :: l) with ((pre ++ [x]) ++ l) by (rewrite <- app_assoc; reflexivity).
    destruct (qlt vbest x) eqn:E; qb.
    + apply IH; [rewrite app_length; simpl; lia|assumption|].
      intros y Hy. rewrite in_app_iff in Hy. simpl in Hy. destruct Hy as [Hy|[Hy|[]]].
      * apply Hmax in Hy. lra.
      * subst. lra.
    + apply IH; [rewrite app_length; simpl; lia| |].
      * rewrite nth_error_app1; [assumption|]. apply nth_error_Some. congruence.
      * intros y Hy. rewrite in_app_iff in Hy. simpl in Hy. destruct Hy as [Hy|[Hy|[]]].
        -- apply Hmax; assumption.
        -- subst. assumption.
Qed.
Lemma argmax_spec l p : argmax l = Ok p ->
  exists m, nth_error l p = Some m /\ (forall x, In x l -> x <= m).
Proof.
  destruct l as [|x l]; simpl; intros H; [discriminate|]. injection H as <-.
  apply (argmax_from_spec l [x] 1%nat 0%nat x); auto.
  intros y [->|[]]. lra.
Qed.
Lemma argmax_ok l : l <> [] -> exists p, argmax l = Ok p.
Proof. destruct l; [congruence|eexists; reflexivity]. Qed.
Lemma argmax_err l e : argmax l = Err e -> l = [].
Proof. destruct l; [reflexivity|discriminate]. Qed.

Lemma bind_ok {A B} (x : result A) (f : A -> result B) b :
  bind x f = Ok b -> exists a, x = Ok a /\ f a = Ok b.
Proof. destruct x; simpl; intros H; [eauto|discriminate]. Qed.

(* insertion sort *)
Lemma insert_by_perm {A} (key : A -> Q) x l : Permutation (insert_by key x l) (x :: l).
Proof.
  induction l as [|y l IH]; simpl; [apply Permutation_refl|].
  destruct (qle _ _); [apply Permutation_refl|].
  eapply perm_trans; [apply perm_skip, IH|apply perm_swap].
Qed.
Lemma insert_by_sorted {A} (key : A -> Q) x l :
  StronglySorted (fun a b => key a <= key b) l ->
  StronglySorted (fun a b => key a <= key b) (insert_by key x l).
Proof.
  induction 1 as [|y l Hs IH Hf]; simpl; [repeat constructor|].
  destruct (qle (key x) (key y)) eqn:E; qb.
  - constructor; [constructor; assumption|]. constructor; [assumption|].
    rewrite Forall_forall in *. intros z Hz. apply Hf in Hz. lra.
  - constructor; [assumption|]. rewrite Forall_forall in *. intros z Hz.
    apply (Permutation_in _ (insert_by_perm key x l)) in Hz. destruct Hz as [<-|Hz]; [lra|auto].
Qed.
Lemma isort_by_perm {A} (key : A -> Q) l : Permutation (isort_by key l) l.
Proof.
  induction l as [|x l IH]; simpl; [constructor|].
  eapply perm_trans; [apply insert_by_perm|apply perm_skip, IH].
Qed.
Lemma isort_by_sorted {A} (key : A -> Q) l : StronglySorted (fun a b => key a <= key b) (isort_by key l).
Proof. induction l as [|x l IH]; simpl; [constructor|apply insert_by_sorted, IH]. Qed.
Lemma isort_by_id {A} (key : A -> Q) l :
  StronglySorted (fun a b => key a <= key b) l -> isort_by key l = l.
Proof.
  induction 1 as [|x l Hs IH Hf]; [reflexivity|]. simpl. rewrite IH. destruct l as [|y l]; [reflexivity|]. simpl.
  inversion Hf; subst. replace (qle (key x) (key y)) with true; [reflexivity|]. symmetry. qb. assumption.
Qed.
