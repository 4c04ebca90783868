(* P_seg_regions.v: contiguous_regions and create_gti_from_condition. *)
From Verif Require Import Np Lib S_gti S_seg M_gti M_seg.
Open Scope Q_scope.

Notation sepR := (fun p q : nat * nat => (snd p < fst q)%nat).

Lemma separated_ss l : separated_ranges l <->
  (forall a b, In (a, b) l -> (a < b)%nat) /\ StronglySorted sepR l.
Proof.
  unfold separated_ranges. rewrite ss_nth. split; intros [H1 H2]; split; auto.
  - intros i j [a b] [c d] Hij Hi Hj. simpl. eapply H2; eauto.
  - intros i j a b c d Hij Hi Hj. apply (H2 i j _ _ Hij Hi Hj).
Qed.

Lemma last_default {A} (l : list A) d d' : l <> [] -> last l d = last l d'.
Proof.
  induction l as [|x l IH]; intros H; [congruence|]. destruct l as [|y l]; [reflexivity|].
  apply IH. discriminate.
Qed.

Definition tail_end (prev : bool) (i : nat) (c : list bool) : list nat :=
  if last (prev :: c) prev then [(i + length c)%nat] else [].

Lemma tail_cons prev i x c : tail_end prev i (x :: c) = tail_end x (S i) c.
Proof.
  unfold tail_end. replace (last (prev :: x :: c) prev) with (last (x :: c) x).
  - replace (i + length (x :: c))%nat with (S i + length c)%nat by (simpl; lia). reflexivity.
  - change (last (x :: c) x = last (x :: c) prev). apply last_default. discriminate.
Qed.

Lemma regions_gen c : forall i,
  (exists l, pair_up (changes_from i false c ++ tail_end false i c) = Ok l /\
     StronglySorted sepR l /\ (forall a b, In (a, b) l -> (i <= a < b)%nat) /\
     (forall j, in_ranges l (i + j) <-> nth_error c j = Some true)) /\
  (forall s, (s < i)%nat -> exists e l, pair_up (s :: changes_from i true c ++ tail_end true i c) = Ok ((s, e) :: l) /\
     StronglySorted sepR ((s, e) :: l) /\ (i <= e)%nat /\ (forall a b, In (a, b) l -> (i <= a < b)%nat) /\
     (forall j, in_ranges ((s, e) :: l) (i + j) <-> nth_error c j = Some true)).
Proof.
  induction c as [|x c IH]; intros i.
  - split.
    + exists []. split; [reflexivity|]. split; [constructor|]. split; [intros a b []|].
      intros j. split; [intros (a & b & [] & _)|destruct j; discriminate].
    + intros s Hs. exists i, []. simpl. unfold tail_end. simpl. rewrite Nat.add_0_r.
      split; [reflexivity|]. split; [repeat constructor|]. split; [lia|]. split; [intros a b []|].
      intros j. split; [intros (a & b & [E|[]] & H); inversion E; subst; lia|destruct j; discriminate].
  - split.
    + rewrite tail_cons. simpl. destruct x; simpl.
      * destruct (IH (S i)) as [_ H]. destruct (H i) as (e & l & E & Hs & He & Hb & Hi); [lia|].
        exists ((i, e) :: l). split; [exact E|]. split; [exact Hs|]. split.
        { intros a b [E1|E1]; [inversion E1; subst; lia|]. apply Hb in E1. lia. }
        intros j. destruct j as [|j].
        { split; [reflexivity|]. intros _. exists i, e. split; [left; reflexivity|lia]. }
        { replace (i + S j)%nat with (S i + j)%nat by lia. apply Hi. }
      * destruct (IH (S i)) as [(l & E & Hs & Hb & Hi) _].
        exists l. split; [exact E|]. split; [exact Hs|]. split.
        { intros a b E1. apply Hb in E1. lia. }
        intros j. destruct j as [|j].
        { split; [|discriminate]. intros (a & b & E1 & H1). apply Hb in E1. lia. }
        { replace (i + S j)%nat with (S i + j)%nat by lia. apply Hi. }
    + intros s Hs. rewrite tail_cons. simpl. destruct x; simpl.
      * destruct (IH (S i)) as [_ H]. destruct (H s) as (e & l & E & Hss & He & Hb & Hi); [lia|].
        exists e, l. split; [exact E|]. split; [exact Hss|]. split; [lia|]. split.
        { intros a b E1. apply Hb in E1. lia. }
        intros j. destruct j as [|j].
        { split; [reflexivity|]. intros _. exists s, e. split; [left; reflexivity|lia]. }
        { replace (i + S j)%nat with (S i + j)%nat by lia. apply Hi. }
      * destruct (IH (S i)) as [(l & E & Hss & Hb & Hi) _].
        exists i, l. rewrite E. split; [reflexivity|]. split.
        { constructor; [exact Hss|]. apply Forall_forall. intros [a b] E1. apply Hb in E1. simpl. lia. }
        split; [lia|]. split.
        { intros a b E1. apply Hb in E1. lia. }
        intros j. destruct j as [|j].
        { split; [|discriminate]. intros (a & b & [E1|E1] & H1); [inversion E1; subst; lia|]. apply Hb in E1. lia. }
        { replace (i + S j)%nat with (S i + j)%nat by lia.
          change (nth_error (false :: c) (S j)) with (nth_error c j). rewrite <- Hi. split.
          - intros (a & b & [E1|E1] & H1); [inversion E1; subst; lia|]. exists a, b; auto.
          - intros (a & b & E1 & H1). exists a, b. split; [right; exact E1|exact H1]. }
Qed.

Lemma contiguous_main c : c <> [] -> exists l, contiguous_regions c = Ok l /\ separated_ranges l /\
  (forall k, in_ranges l k <-> nth_error c k = Some true).
Proof.
  intros Hc. destruct c as [|c0 c]; [congruence|]. unfold contiguous_regions.
  destruct (regions_gen c 1%nat) as [H1 H2].
  assert (Ht : (if last (c0 :: c) c0 then [length (c0 :: c)] else []) = tail_end c0 1 c) by reflexivity.
  rewrite Ht. destruct c0.
  - destruct (H2 0%nat) as (e & l & E & Hs & He & Hb & Hi); [lia|].
    exists ((0%nat, e) :: l). split; [exact E|]. split.
    + apply separated_ss. split; [|exact Hs]. intros a b [E1|E1]; [inversion E1; subst; lia|]. apply Hb in E1; lia.
    + intros [|k]; simpl; [|apply Hi]. split; [reflexivity|]. intros _. exists 0%nat, e. split; [left; reflexivity|lia].
  - destruct H1 as (l & E & Hs & Hb & Hi).
    exists l. split; [exact E|]. split.
    + apply separated_ss. split; [|exact Hs]. intros a b E1. apply Hb in E1; lia.
    + intros [|k]; simpl; [|apply Hi]. split; [|discriminate]. intros (a & b & E1 & H). apply Hb in E1; lia.
Qed.

(* The separated list of ranges with given members is unique. *)
Lemma ranges_unique l : forall l', separated_ranges l -> separated_ranges l' ->
  (forall k, in_ranges l k <-> in_ranges l' k) -> l = l'.
Proof.
  induction l as [|[a b] l IH]; intros l' H H' Heq.
  - destruct l' as [|[a b] l']; [reflexivity|]. exfalso.
    destruct (proj2 (Heq a)) as (x & y & [] & _). exists a, b. split; [left; reflexivity|].
    destruct H' as [H' _]. specialize (H' a b (or_introl eq_refl)). lia.
  - destruct l' as [|[a' b'] l'].
    { exfalso. destruct (proj1 (Heq a)) as (x & y & [] & _). exists a, b. split; [left; reflexivity|].
      destruct H as [H _]. specialize (H a b (or_introl eq_refl)). lia. }
    apply separated_ss in H. apply separated_ss in H'. destruct H as [Hp Hs], H' as [Hp' Hs'].
    apply StronglySorted_inv in Hs. apply StronglySorted_inv in Hs'. destruct Hs as [Hs Hf], Hs' as [Hs' Hf'].
    rewrite Forall_forall in Hf, Hf'.
    assert (Hab := Hp a b (or_introl eq_refl)). assert (Hab' := Hp' a' b' (or_introl eq_refl)).
    assert (Hl : forall x y, In (x, y) l -> (b < x < y)%nat).
    { intros x y Hx. split; [apply (Hf _ Hx)|apply Hp; right; exact Hx]. }
    assert (Hl' : forall x y, In (x, y) l' -> (b' < x < y)%nat).
    { intros x y Hx. split; [apply (Hf' _ Hx)|apply Hp'; right; exact Hx]. }
    assert (Ha : a = a').
    { destruct (proj1 (Heq a)) as (x & y & [E|E] & Hx); [exists a, b; split; [left; reflexivity|lia]| |];
        destruct (proj2 (Heq a')) as (x' & y' & [E'|E'] & Hx'); try (exists a', b'; split; [left; reflexivity|lia]);
        repeat match goal with
        | H : (_, _) = (_, _) |- _ => inversion H; subst; clear H
        | H : In _ l |- _ => apply Hl in H
        | H : In _ l' |- _ => apply Hl' in H end; lia. }
    subst a'.
    assert (Hb : b = b').
    { destruct (Nat.lt_trichotomy b b') as [Hlt|[E|Hlt]]; [exfalso| exact E|exfalso].
      - destruct (proj2 (Heq b)) as (x & y & [E|E] & Hx); [exists a, b'; split; [left; reflexivity|lia]| |].
        + inversion E; subst; lia.
        + apply Hl in E. lia.
      - destruct (proj1 (Heq b')) as (x & y & [E|E] & Hx); [exists a, b; split; [left; reflexivity|lia]| |].
        + inversion E; subst; lia.
        + apply Hl' in E. lia. }
    subst b'. f_equal. apply IH.
    + apply separated_ss. split; [|assumption]. intros x y Hx; apply Hp; right; assumption.
    + apply separated_ss. split; [|assumption]. intros x y Hx; apply Hp'; right; assumption.
    + intros k. split; intros (x & y & Hx & Hk).
      * destruct (proj1 (Heq k)) as (x' & y' & [E|E] & Hx'); [exists x, y; split; [right; assumption|assumption]| |].
        -- inversion E; subst. apply Hl in Hx. lia.
        -- exists x', y'; auto.
      * destruct (proj2 (Heq k)) as (x' & y' & [E|E] & Hx'); [exists x, y; split; [right; assumption|assumption]| |].
        -- inversion E; subst. apply Hl' in Hx. lia.
        -- exists x', y'; auto.
Qed.

Lemma contiguous_final c : c <> [] -> exists l, contiguous_regions c = Ok l /\ separated_ranges l /\
  (forall k, in_ranges l k <-> nth_error c k = Some true) /\
  (forall l', separated_ranges l' -> (forall k, in_ranges l' k <-> nth_error c k = Some true) -> l' = l).
Proof.
  intros Hc. destruct (contiguous_main c Hc) as (l & E & Hs & Hi). exists l.
  repeat split; try assumption; try (apply Hi).
  - apply Hs. - apply Hs.
  - intros l' Hs' Hi'. apply ranges_unique; auto. intros k. rewrite Hi, Hi'. reflexivity.
Qed.

Lemma nth_error_ex {A} (l : list A) i : (i < length l)%nat -> exists x, nth_error l i = Some x.
Proof. intros H. destruct (nth_error l i) eqn:E; [eauto|]. apply nth_error_None in E. lia. Qed.

Lemma get_ok {A} (l : list A) i x : nth_error l i = Some x -> get l i = Ok x.
Proof. unfold get. intros ->. reflexivity. Qed.

Lemma condition_gtis_main time dt : half_widths_ok time dt ->
  forall idxs, separated_ranges idxs -> (forall a b, In (a, b) idxs -> (b <= length time)%nat) ->
  exists g, condition_gtis time dt (0, 0) idxs = Ok g /\
    Forall2 (fun (p : nat * nat) (iv : Q * Q) => exists ta da tb db,
      nth_error time (fst p) = Some ta /\ nth_error dt (fst p) = Some da /\
      nth_error time (snd p - 1) = Some tb /\ nth_error dt (snd p - 1) = Some db /\
      fst iv == ta - da /\ snd iv == tb + db) idxs g.
Proof.
  intros (Hlen & Hpos & Hsep). induction idxs as [|[a b] idxs IH]; intros Hs Hb.
  - exists []. split; [reflexivity|constructor].
  - assert (Hab : (a < b)%nat) by (apply Hs; left; reflexivity).
    assert (Hbl : (b <= length time)%nat) by (apply (Hb a); left; reflexivity).
    destruct IH as (g & E & HF).
    { apply separated_ss in Hs. apply separated_ss. destruct Hs as [H1 H2]. split.
      - intros x y Hx; apply H1; right; assumption.
      - apply StronglySorted_inv in H2; tauto. }
    { intros x y Hx. apply (Hb x y). right; assumption. }
    destruct (nth_error_ex time a) as [ta Eta]; [lia|]. destruct (nth_error_ex dt a) as [da Eda]; [lia|].
    destruct (nth_error_ex time (b - 1)) as [tb Etb]; [lia|]. destruct (nth_error_ex dt (b - 1)) as [db Edb]; [lia|].
    simpl. rewrite (get_ok _ _ _ Eta), (get_ok _ _ _ Eda), (get_ok _ _ _ Etb), (get_ok _ _ _ Edb). simpl.
    rewrite E. simpl.
    assert (Hda := Hpos _ _ Eda). assert (Hdb := Hpos _ _ Edb).
    assert (ta <= tb).
    { destruct (Nat.eq_dec a (b - 1)) as [Ee|Ne].
      - rewrite Ee in Eta. rewrite Eta in Etb. inversion Etb. lra.
      - assert (H : (a < b - 1)%nat) by lia. destruct (Hsep a (b - 1)%nat ta tb da db H Eta Etb Eda Edb). lra. }
    destruct (qlt _ 0) eqn:Eq; qb; [lra|].
    eexists. split; [reflexivity|]. constructor; [|assumption]. exists ta, da, tb, db. simpl.
    repeat split; auto; lra.
Qed.

Lemma forall2_in_r {A B} (R : A -> B -> Prop) l l' y : Forall2 R l l' -> In y l' -> exists x, In x l /\ R x y.
Proof.
  induction 1 as [|a b l l' Hr H IH]; simpl; [intros []|]. intros [-> |Hy]; [eauto|].
  destruct (IH Hy) as (x & Hx & Hxy). eauto.
Qed.
Lemma forall2_in_l {A B} (R : A -> B -> Prop) l l' x : Forall2 R l l' -> In x l -> exists y, In y l' /\ R x y.
Proof.
  induction 1 as [|a b l l' Hr H IH]; simpl; [intros []|]. intros [-> |Hy]; [eauto|].
  destruct (IH Hy) as (y & Hx & Hxy). eauto.
Qed.
Lemma forall2_nth {A B} (R : A -> B -> Prop) l l' i y : Forall2 R l l' -> nth_error l' i = Some y ->
  exists x, nth_error l i = Some x /\ R x y.
Proof.
  intros H; revert i. induction H as [|a b l l' Hr H IH]; intros [|i]; simpl; try discriminate.
  - intros E; inversion E; subst; eauto.
  - apply IH.
Qed.

(* With given half widths. *)
Lemma from_condition_main time cond dt : time <> [] -> length time = length cond ->
  half_widths_ok time dt ->
  exists g, create_gti_from_condition time cond (0, 0) (Some dt) = Ok g /\
    well_formed g /\ gaps_between g /\
    (forall i t, nth_error time i = Some t -> (covered_closed g t <-> nth_error cond i = Some true)).
Proof.
  intros Ht Hl Hw. unfold create_gti_from_condition.
  replace (length time =? length cond)%nat with true by (symmetry; apply Nat.eqb_eq; assumption). simpl.
  destruct (contiguous_main cond) as (idxs & E & Hs & Hi).
  { intros ->. destruct time; [congruence|discriminate]. }
  rewrite E. simpl.
  destruct (condition_gtis_main time dt Hw idxs Hs) as (g & Eg & HF).
  { intros a b Hab. assert (a < b)%nat by (apply Hs; assumption).
    assert (H1 : nth_error cond (b - 1) = Some true) by (apply Hi; exists a, b; split; [assumption|lia]).
    assert (b - 1 < length cond)%nat by (apply nth_error_Some; congruence). lia. }
  rewrite Eg. exists g. split; [reflexivity|].
  destruct Hw as (Hlen & Hpos & Hsep). destruct Hs as [Hs1 Hs2].
  assert (Hle : forall i j t u d e, (i <= j)%nat -> nth_error time i = Some t -> nth_error time j = Some u ->
     nth_error dt i = Some d -> nth_error dt j = Some e -> t <= u).
  { intros i j t u d e Hij Hti Htj Hdi Hdj. destruct (Nat.eq_dec i j) as [-> |Ne].
    - rewrite Hti in Htj; inversion Htj; lra.
    - assert (Hlt : (i < j)%nat) by lia. destruct (Hsep _ _ _ _ _ _ Hlt Hti Htj Hdi Hdj).
      assert (0 <= d) by (eapply Hpos; eassumption). lra. }
  assert (Hgap : gaps_between g).
  { intros i j a b c d Hij Hia Hjc.
    destruct (forall2_nth _ _ _ _ _ HF Hia) as ([p q] & Hp & ta & da & tb & db & E1 & E2 & E3 & E4 & E5 & E6).
    destruct (forall2_nth _ _ _ _ _ HF Hjc) as ([r s] & Hr & tc & dc & td & dd & F1 & F2 & F3 & F4 & F5 & F6).
    simpl in *. assert (Hqr := Hs2 _ _ _ _ _ _ Hij Hp Hr).
    assert (p < q)%nat by (apply Hs1, (nth_error_In _ _ Hp)).
    assert (Hr' : (r < length time)%nat) by (apply nth_error_Some; congruence).
    destruct (nth_error_ex time q) as [tq Etq]; [lia|]. destruct (nth_error_ex dt q) as [dq Edq]; [lia|].
    assert (H1 : (q - 1 < q)%nat) by lia.
    destruct (Hsep _ _ _ _ _ _ H1 E3 Etq E4 Edq). destruct (Hsep _ _ _ _ _ _ Hqr Etq F1 Edq F2). lra. }
  assert (Hiv : forall a b, In (a, b) g -> a <= b).
  { intros a b Hin. destruct (forall2_in_r _ _ _ _ HF Hin) as ([p q] & Hp & ta & da & tb & db & E1 & E2 & E3 & E4 & E5 & E6).
    simpl in *. assert (p < q)%nat by (apply Hs1; assumption). assert (Hpq : (p <= q - 1)%nat) by lia.
    assert (0 <= da) by (eapply Hpos; eassumption). assert (0 <= db) by (eapply Hpos; eassumption).
    assert (ta <= tb) by (eapply (Hle p (q-1)%nat); eassumption). lra. }
  split; [split; [assumption|]|split; [assumption|]].
  - intros i j a b c d Hij Hi' Hj'. assert (b < c) by (eapply Hgap; eassumption). lra.
  - intros i t Hit. assert (Hil : (i < length time)%nat) by (apply nth_error_Some; congruence).
    destruct (nth_error_ex dt i) as [di Edi]; [lia|]. rewrite <- Hi. split.
    + intros (a & b & Hin & Hat & Htb).
      destruct (forall2_in_r _ _ _ _ HF Hin) as ([p q] & Hp & ta & da & tb & db & E1 & E2 & E3 & E4 & E5 & E6).
      simpl in *. exists p, q. split; [assumption|]. assert (p < q)%nat by (apply Hs1; assumption).
      destruct (Nat.lt_ge_cases i p) as [Hlt|Hge].
      { destruct (Hsep _ _ _ _ _ _ Hlt Hit E1 Edi E2). lra. }
      destruct (Nat.lt_ge_cases i q) as [Hlt2|Hge2]; [lia|].
      assert (Hlt3 : (q - 1 < i)%nat) by lia. destruct (Hsep _ _ _ _ _ _ Hlt3 E3 Hit E4 Edi). lra.
    + intros (p & q & Hp & Hpq).
      destruct (forall2_in_l _ _ _ _ HF Hp) as ([a b] & Hin & ta & da & tb & db & E1 & E2 & E3 & E4 & E5 & E6).
      simpl in *. exists a, b. split; [assumption|].
      assert (0 <= da) by (eapply Hpos; eassumption). assert (0 <= db) by (eapply Hpos; eassumption).
      assert (ta <= t) by (eapply (Hle p i); try eassumption; lia).
      assert (t <= tb) by (eapply (Hle i (q - 1)%nat); try eassumption; lia).
      lra.
Qed.

(* Default half widths of an evenly sampled series. *)
Lemma nth_error_repeat' {A} (x y : A) n i : nth_error (repeat x n) i = Some y -> y = x.
Proof. intros H. apply nth_error_In in H. apply repeat_spec in H. assumption. Qed.

Lemma from_condition_even n t0 step cond : (2 <= n)%nat -> 0 < step -> length cond = n ->
  let time := map (fun i => t0 + inject_Z (Z.of_nat i) * step) (seq 0 n) in
  exists g, create_gti_from_condition time cond (0, 0) None = Ok g /\
    well_formed g /\ gaps_between g /\
    (forall i t, nth_error time i = Some t -> (covered_closed g t <-> nth_error cond i = Some true)).
Proof.
  intros Hn Hstep Hc time.
  assert (Hlen : length time = n) by (unfold time; rewrite map_length, seq_length; reflexivity).
  assert (Hnth : forall i t, nth_error time i = Some t -> t = t0 + inject_Z (Z.of_nat i) * step).
  { intros i t H. unfold time in H. rewrite nth_error_map in H.
    destruct (nth_error (seq 0 n) i) eqn:E; simpl in H; [|discriminate]. injection H as <-.
    assert (Hi : (i < length (seq 0 n))%nat) by (apply nth_error_Some; congruence). rewrite seq_length in Hi.
    apply nth_error_nth with (d := 0%nat) in E. rewrite seq_nth in E by assumption. simpl in E. rewrite E. reflexivity. }
  destruct time as [|a [|b time']] eqn:Et; [simpl in Hlen; lia|simpl in Hlen; lia|]. rewrite <- Et in *.
  assert (Ea := Hnth 0%nat a). assert (Eb := Hnth 1%nat b). rewrite Et in Ea, Eb. simpl in Ea, Eb.
  specialize (Ea eq_refl). specialize (Eb eq_refl).
  assert (Hd : (b - a) / 2 == step / 2). { rewrite Ea, Eb. unfold Qdiv. change (inject_Z 0) with 0. change (inject_Z 1) with 1. ring. }
  destruct (from_condition_main time cond (repeat ((b - a) / 2) (length time))) as (g & E & H).
  - rewrite Et; discriminate.
  - lia.
  - split; [apply repeat_length|]. split.
    + intros i d Hi. apply nth_error_repeat' in Hi. subst d. rewrite Hd. apply Qle_shift_div_l; lra.
    + intros i j t u d e Hij Hi Hj Hdi Hdj. apply nth_error_repeat' in Hdi. apply nth_error_repeat' in Hdj.
      subst d e. rewrite Hd. apply Hnth in Hi. apply Hnth in Hj. subst t u.
      assert (H1 : inject_Z (Z.of_nat i) + 1 <= inject_Z (Z.of_nat j)).
      { change 1 with (inject_Z 1). rewrite <- inject_Z_plus. rewrite <- Zle_Qle. lia. }
      assert (H2 : step / 2 < step) by (apply Qlt_shift_div_r; lra).
      assert (H3 : inject_Z (Z.of_nat i) * step + step <= inject_Z (Z.of_nat j) * step).
      { setoid_replace (inject_Z (Z.of_nat i) * step + step) with ((inject_Z (Z.of_nat i) + 1) * step) by ring.
        apply Qmult_le_compat_r; lra. }
      split; lra.
  - exists g. split; [|exact H]. unfold create_gti_from_condition in *. rewrite Et in E |- *. exact E.
Qed.

(* Refutations. *)
Lemma from_condition_uneven : exists time cond g i t,
  increasing time /\ create_gti_from_condition time cond (0, 0) None = Ok g /\
  nth_error time i = Some t /\ nth_error cond i = Some false /\ covered g t.
Proof.
  exists [0; 10; 11], [false; false; true]. eexists. exists 1%nat, 10.
  split; [|split; [|split; [|split]]].
  - unfold increasing. apply (proj1 (ss_nth Qlt _)). repeat constructor; reflexivity.
  - vm_compute. reflexivity.
  - reflexivity.
  - reflexivity.
  - eexists _, _. split; [left; reflexivity|]. split; vm_compute; [discriminate|reflexivity].
Qed.
Lemma from_condition_dt_is_half : exists time cond g i t,
  increasing time /\ (forall a b k, nth_error time k = Some a -> nth_error time (S k) = Some b -> b - a == 1) /\
  create_gti_from_condition time cond (0, 0) (Some (map (fun _ => 1) time)) = Ok g /\
  nth_error time i = Some t /\ nth_error cond i = Some false /\ covered g t.
Proof.
  exists [0; 1; 2], [false; true; false]. eexists. exists 0%nat, 0.
  split; [|split; [|split; [|split; [|split]]]].
  - unfold increasing. apply (proj1 (ss_nth Qlt _)). repeat constructor; reflexivity.
  - intros a b [|[|[|k]]]; simpl; intros E1 E2; inversion E1; inversion E2; subst; try reflexivity.
  - vm_compute. reflexivity.
  - reflexivity.
  - reflexivity.
  - eexists _, _. split; [left; reflexivity|]. split; vm_compute; [discriminate|reflexivity].
Qed.
