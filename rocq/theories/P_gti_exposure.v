(* P_gti_exposure.v: inclusion-exclusion for exposures, by summing over the cells of a common grid. *)
From Verif Require Import Lib S_gti M_gti P_gti_cross P_gti_ops.
Open Scope Q_scope.

Definition inb (iv : ivl) (t : Q) : bool := qle (fst iv) t && qlt t (snd iv).
(* sum over consecutive grid points x, y of (y - x) * w x *)
Fixpoint cells (w : Q -> Q) (grid : list Q) : Q :=
  match grid with
  | x :: ((y :: _) as rest) => (y - x) * w x + cells w rest
  | _ => 0
  end.
Definition ind (b : bool) : Q := if b then 1 else 0.

Lemma cells_iv a b rest : forall x, a <= b -> StronglySorted (fun u v : Q => u <= v) (x :: rest) ->
  (a <= x \/ In a rest) -> (b <= x \/ In b rest) ->
  cells (fun t => ind (inb (a, b) t)) (x :: rest) == qmax b x - qmax a x.
Proof.
  induction rest as [|y rest IH]; intros x Hab HS Ha Hb.
  - simpl. destruct Ha as [Ha|[]], Hb as [Hb|[]].
    destruct (qmax_cases a x) as [[-> ?]|[-> ?]], (qmax_cases b x) as [[-> ?]|[-> ?]]; lra.
  - apply StronglySorted_inv in HS. destruct HS as [HS Hf]. inversion Hf as [|? ? Hxy Hf']; subst.
    change (cells (fun t => ind (inb (a, b) t)) (x :: y :: rest)) with
      ((y - x) * ind (inb (a, b) x) + cells (fun t => ind (inb (a, b) t)) (y :: rest)).
    assert (Hmin : forall z, In z rest -> y <= z).
    { apply StronglySorted_inv in HS. destruct HS as [_ HS]. rewrite Forall_forall in HS. exact HS. }
    assert (Ha' : a <= x \/ y <= a).
    { destruct Ha as [Ha|[Ha|Ha]]; [left; assumption|right; subst; lra|right; apply Hmin; assumption]. }
    assert (Hb' : b <= x \/ y <= b).
    { destruct Hb as [Hb|[Hb|Hb]]; [left; assumption|right; subst; lra|right; apply Hmin; assumption]. }
    rewrite IH; [|assumption|assumption| |].
    + unfold inb, ind. cbn [fst snd].
      destruct (qle a x) eqn:E1; destruct (qlt x b) eqn:E2; cbn [andb]; qb;
      destruct (qmax_cases a x) as [[-> ?]|[-> ?]], (qmax_cases b x) as [[-> ?]|[-> ?]],
               (qmax_cases a y) as [[-> ?]|[-> ?]], (qmax_cases b y) as [[-> ?]|[-> ?]];
      destruct Ha', Hb'; try lra.
    + destruct Ha as [Ha|[Ha|Ha]]; [left; lra|left; subst; lra|right; assumption].
    + destruct Hb as [Hb|[Hb|Hb]]; [left; lra|left; subst; lra|right; assumption].
Qed.

Lemma cells_ext w w' grid : (forall t, w t == w' t) -> cells w grid == cells w' grid.
Proof.
  intros H. induction grid as [|x rest IH]; [reflexivity|]. destruct rest as [|y rest]; [reflexivity|].
  change ((y - x) * w x + cells w (y :: rest) == (y - x) * w' x + cells w' (y :: rest)). rewrite IH, H. reflexivity.
Qed.
Lemma cells_plus w w' grid : cells (fun t => w t + w' t) grid == cells w grid + cells w' grid.
Proof.
  induction grid as [|x rest IH]; [simpl; ring|]. destruct rest as [|y rest]; [simpl; ring|].
  change ((y - x) * (w x + w' x) + cells (fun t => w t + w' t) (y :: rest) ==
          (y - x) * w x + cells w (y :: rest) + ((y - x) * w' x + cells w' (y :: rest))).
  rewrite IH. ring.
Qed.
Lemma cells_zero grid : cells (fun _ => 0) grid == 0.
Proof.
  induction grid as [|x rest IH]; [simpl; ring|]. destruct rest as [|y rest]; [simpl; ring|].
  change ((y - x) * 0 + cells (fun _ => 0) (y :: rest) == 0). rewrite IH. ring.
Qed.

Definition coveredb (g : gtis) (t : Q) : bool := existsb (fun iv => inb iv t) g.
Lemma coveredb_iff g t : coveredb g t = true <-> covered g t.
Proof.
  unfold coveredb. rewrite existsb_exists. split.
  - intros ([a b] & Hin & H). unfold inb in H. simpl in H. qb. exists a, b. auto.
  - intros (a & b & Hin & h1 & h2). exists (a, b). split; [assumption|]. unfold inb. simpl.
    apply andb_true_iff. split; qb; assumption.
Qed.

(* exposure of a list of pairwise disjoint intervals, read off its coverage on any grid refining it *)
Lemma exposure_cells grid g : StronglySorted (fun u v : Q => u <= v) grid ->
  Forall (fun iv => fst iv <= snd iv) g -> StronglySorted wfR g ->
  (forall a b, In (a, b) g -> In a grid /\ In b grid) ->
  exposure g == cells (fun t => ind (coveredb g t)) grid.
Proof.
  intros Hgr. induction g as [|[a b] g IH]; intros HF HS Hin.
  - simpl. rewrite cells_zero. reflexivity.
  - inversion HF as [|? ? Hab HF']; subst. apply StronglySorted_inv in HS. destruct HS as [HS Hf]. simpl in Hab.
    change (exposure ((a, b) :: g)) with (b - a + exposure g).
    rewrite IH; [|assumption|assumption|intros c d H; apply Hin; right; assumption].
    rewrite (cells_ext (fun t => ind (coveredb ((a, b) :: g) t)) (fun t => ind (inb (a, b) t) + ind (coveredb g t))).
    + rewrite cells_plus.
      assert (E : cells (fun t => ind (inb (a, b) t)) grid == b - a); [|rewrite E; reflexivity].
      destruct (Hin a b (or_introl eq_refl)) as [Ia Ib].
      destruct grid as [|x rest]; [destruct Ia|].
      assert (Hx : forall z, In z (x :: rest) -> x <= z).
      { intros z [->|Hz]; [lra|]. apply StronglySorted_inv in Hgr. destruct Hgr as [_ Hgr].
        rewrite Forall_forall in Hgr. apply Hgr. assumption. }
      pose proof (Hx a Ia). pose proof (Hx b Ib).
      rewrite cells_iv; [|assumption|assumption|destruct Ia as [->|Ia]; [left; lra|right; assumption]|destruct Ib as [->|Ib]; [left; lra|right; assumption]].
      destruct (qmax_cases a x) as [[-> ?]|[-> ?]], (qmax_cases b x) as [[-> ?]|[-> ?]]; lra.
    + intros t. change (coveredb ((a, b) :: g) t) with (inb (a, b) t || coveredb g t)%bool.
      destruct (inb (a, b) t) eqn:E1; destruct (coveredb g t) eqn:E2; simpl; try ring.
      exfalso. apply coveredb_iff in E2. destruct E2 as (c & d & Hcd & h1 & h2).
      rewrite Forall_forall in Hf. apply Hf in Hcd. unfold inb in E1. simpl in *. qb. lra.
Qed.

Lemma ind_incl_excl b1 b2 : ind (b1 || b2) + ind (b1 && b2) == ind b1 + ind b2.
Proof. destruct b1, b2; simpl; ring. Qed.

Lemma exposure_incl_excl g0 g1 u i :
  well_formed g0 -> well_formed g1 -> well_formed u -> well_formed i ->
  (forall t, covered u t <-> covered g0 t \/ covered g1 t) ->
  (forall t, covered i t <-> covered g0 t /\ covered g1 t) ->
  exposure u + exposure i == exposure g0 + exposure g1.
Proof.
  intros W0 W1 Wu Wi Hu Hi.
  set (all := g0 ++ g1 ++ u ++ i).
  set (grid := np_sort (flatten all)).
  assert (Hs : StronglySorted (fun x y : Q => x <= y) grid) by (apply (isort_by_sorted (fun x => x))).
  assert (Hin : forall g, incl g all -> forall a b, In (a, b) g -> In a grid /\ In b grid).
  { intros g Hg a b Hab. apply Hg in Hab.
    split; apply (Permutation_in _ (Permutation_sym (isort_by_perm (fun x => x) (flatten all)))); apply in_flatten; eauto. }
  assert (K : forall g, well_formed g -> incl g all -> exposure g == cells (fun t => ind (coveredb g t)) grid).
  { intros g W Hg. apply well_formed_ss in W. destruct W. apply exposure_cells; try assumption. apply Hin; assumption. }
  rewrite (K g0), (K g1), (K u), (K i); try assumption;
    try (intros x Hx; unfold all; rewrite !in_app_iff; tauto).
  rewrite <- !cells_plus. apply cells_ext. intros t.
  assert (E1 : coveredb u t = (coveredb g0 t || coveredb g1 t)%bool).
  { apply eq_true_iff_eq. rewrite orb_true_iff, !coveredb_iff. apply Hu. }
  assert (E2 : coveredb i t = (coveredb g0 t && coveredb g1 t)%bool).
  { apply eq_true_iff_eq. rewrite andb_true_iff, !coveredb_iff. apply Hi. }
  rewrite E1, E2. apply ind_incl_excl.
Qed.

Lemma exposure_qsum g : exposure g == qsum (get_gti_lengths g).
Proof. unfold qsum, get_gti_lengths. induction g as [|[a b] g IH]; simpl; [reflexivity|]. rewrite IH. reflexivity. Qed.

Lemma total_length_exposure g minlen :
  get_total_gti_length g minlen == exposure (filter (fun iv => Qle_bool minlen (snd iv - fst iv)) g).
Proof.
  unfold get_total_gti_length, get_gti_lengths, qsum. induction g as [|[a b] g IH]; simpl; [reflexivity|].
  unfold qle at 1. destruct (Qle_bool minlen (b - a)); simpl; rewrite IH; reflexivity.
Qed.

Lemma exposure_main srt1 srt2 srt3 g0 g1 :
  sorts_by fst srt1 -> sorts_by fst srt2 -> sorts_by t_end srt3 -> good g0 -> good g1 -> no_touching g0 g1 ->
  exists u i, join_gtis srt1 srt2 g0 g1 = Ok u /\ cross_two_gtis srt3 g0 g1 = Ok i /\
    exposure u + exposure i == exposure g0 + exposure g1.
Proof.
  intros H1 H2 H3 G0 G1 Hn.
  destruct (join_gtis_main srt1 srt2 g0 g1 H1 H2 G0 G1) as (u & Eu & Wu & _ & _ & Hu).
  destruct G0 as (N0 & W0 & P0), G1 as (N1 & W1 & P1).
  destruct (cross_two_main srt3 g0 g1 H3 N0 N1 W0 W1 P0 P1) as (i & Ei & Wi & _ & _ & C & _ & S & _).
  exists u, i. split; [assumption|]. split; [assumption|].
  apply exposure_incl_excl; try assumption. intros t. split; [apply S, Hn|]. intros [? ?]; apply C; assumption.
Qed.
