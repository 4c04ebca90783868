(* P_varen.v: reference bands *)
From Verif Require Import Np Lib S_gti M_utils M_gti M_varen P_helpers P_gti_cross P_gti_ops P_gti_final.
From Coq Require Import Lqa.
Open Scope Q_scope.

Lemma perm3 {A} (a b c : A) l : Permutation l [a; b; c] ->
  l = [a; b; c] \/ l = [a; c; b] \/ l = [b; a; c] \/ l = [b; c; a] \/ l = [c; a; b] \/ l = [c; b; a].
Proof.
  intros P. pose proof (Permutation_length P) as L.
  destruct l as [|x [|y [|z [|]]]]; try discriminate.
  assert (X : In x [a; b; c]) by (eapply Permutation_in; [exact P|now left]).
  destruct X as [<-|[<-|[<-|[]]]].
  - apply Permutation_cons_inv in P. apply Permutation_length_2_inv in P || apply Permutation_sym, Permutation_length_2_inv in P.
    destruct P as [P|P]; injection P as -> ->; auto.
  - assert (P' : Permutation (b :: [y; z]) (b :: [a; c])) by (rewrite P; apply perm_swap).
    apply Permutation_cons_inv, Permutation_sym, Permutation_length_2_inv in P'. destruct P' as [P'|P']; injection P' as -> ->; auto 10.
  - assert (P' : Permutation (c :: [y; z]) (c :: [a; b])).
    { rewrite P. change (c :: [a; b]) with ([c] ++ [a; b]). change [a; b; c] with ([a; b] ++ [c]). apply Permutation_app_comm. }
    apply Permutation_cons_inv, Permutation_sym, Permutation_length_2_inv in P'. destruct P' as [P'|P']; injection P' as -> ->; auto 10.
Qed.

Lemma band_separate srt c ref : good ref -> fst c < snd c -> (forall t, covered ref t -> ~ (fst c <= t < snd c)) ->
  check_separate ref [c] = Ok true -> get_non_overlapping_ref_band srt c ref = Ok ref.
Proof. intros _ _ _ E. unfold get_non_overlapping_ref_band. rewrite E. reflexivity. Qed.

Lemma good1 c : fst c < snd c -> good [c].
Proof.
  intros H. split; [discriminate|]. split; [split|].
  - intros a b [->|[]]. cbn in H. lra.
  - intros i j a b c' d Hij Hi Hj. destruct j as [|[|]]; destruct i as [|[|]]; try lia; discriminate.
  - intros a b [->|[]]. exact H.
Qed.
Lemma covered1 c t : covered [c] t <-> fst c <= t < snd c.
Proof.
  split.
  - intros (a & b & [->|[]] & H1 & H2). cbn. lra.
  - intros [H1 H2]. destruct c as [a b]. exists a, b. cbn in *. auto.
Qed.

Lemma band_main srt c ref : sorts_by t_end srt -> good ref -> (forall iv, In iv ref -> 0 <= fst iv) ->
  0 < fst c < snd c -> (forall iv, In iv ref -> ~ fst iv == fst c /\ ~ snd iv == snd c) ->
  exists r, get_non_overlapping_ref_band srt c ref = Ok r /\ forall t, covered r t <-> covered ref t /\ ~ (fst c <= t < snd c).
Proof.
  intros Hs G P Hc T. unfold get_non_overlapping_ref_band.
  assert (Gc : good [c]) by (apply good1; lra).
  destruct (separate_exact ref [c] G Gc) as (b & E & _). rewrite E. cbn [bind]. destruct b.
  - exists ref. split; [reflexivity|]. intros t. split; [|tauto]. intros H. split; [exact H|]. intros C.
    apply (separate_sound ref [c] t G Gc E). split; [exact H|now apply covered1].
  - destruct (qmax_list_ok (flatten ref)) as (m & Em & Im & Bm).
    { destruct G as [N _]. destruct ref; [congruence|discriminate]. }
    rewrite Em. cbn [bind]. set (M := qmax m (snd c + 1)).
    assert (HM : m <= M /\ snd c + 1 <= M) by (unfold M, qmax; destruct (qle m (snd c + 1)) eqn:Q; qb; lra).
    assert (Bi : forall iv, In iv ref -> snd iv <= M /\ fst iv < snd iv).
    { intros iv Hi. destruct G as (_ & _ & Pl). split.
      - apply Qle_trans with m; [|apply HM]. apply Bm. unfold flatten. apply in_flat_map. exists iv. split; [exact Hi|right; now left].
      - destruct iv as [x y]. now apply Pl. }
    assert (G1 : good [(0, fst c); (snd c, M)]).
    { split; [discriminate|]. split; [split|].
      - intros x y [H|[H|[]]]; injection H as <- <-; lra.
      - intros i j x y z w Hij Hi Hj. destruct i as [|[|i]]; destruct j as [|[|j]]; try lia; cbn in Hi, Hj.
        + injection Hi as <- <-. injection Hj as <- <-. lra.
        + destruct j; discriminate.
        + destruct j; discriminate.
        + destruct i; discriminate.
      - intros x y [H|[H|[]]]; injection H as <- <-; lra. }
    destruct (cross_two_exact srt ref _ Hs G G1) as (r & Er & _ & _ & _ & Cr).
    { intros x y z w Hi [H|[H|[]]]; injection H as <- <-; destruct (T _ Hi) as [T1 T2]; destruct (Bi _ Hi) as [B1 B2]; specialize (P _ Hi); cbn in *; split; lra. }
    exists r. split; [exact Er|]. intros t. rewrite Cr. split.
    + intros [H1 (x & y & [H|[H|[]]] & H2 & H3)]; injection H as <- <-; (split; [exact H1|lra]).
    + intros [H1 H2]. split; [exact H1|]. destruct H1 as (x & y & Hi & Hx & Hy).
      destruct (Bi _ Hi) as [B1 B2]. specialize (P _ Hi). cbn in *.
      destruct (Qlt_le_dec t (fst c)) as [L|L].
      * exists 0, (fst c). repeat split; [now left|lra|exact L].
      * exists (snd c), M. repeat split; [right; now left| |lra].
        destruct (Qlt_le_dec t (snd c)); [exfalso; apply H2; split; assumption|assumption].
Qed.

Lemma band_refuted : exists c ref r t, good ref /\ (forall iv, In iv ref -> 0 <= fst iv) /\ 0 < fst c < snd c /\
  get_non_overlapping_ref_band (isort_by t_end) c ref = Ok r /\ covered r t /\ fst c <= t < snd c.
Proof.
  exists (2, 3), [(2, 5 # 2); (5, 10)], [(2, 5 # 2); (5, 10)], 2. split.
  - apply good_dec; reflexivity.
  - split; [intros iv [<-|[<-|[]]]; cbn; lra|]. split; [cbn; lra|]. split; [vm_compute; reflexivity|]. split; [|cbn; lra].
    exists 2, (5 # 2). split; [now left|]. lra.
Qed.

Ltac plain x := lazymatch x with context [if _ then _ else _] => fail | _ => idtac end.
Ltac dcmp :=
  match goal with
  | |- context [qlt ?a ?b] => plain a; plain b; destruct (qlt a b) eqn:?
  | |- context [qle ?a ?b] => plain a; plain b; destruct (qle a b) eqn:?
  end.
Lemma band_single srt c r0 r1 : sorts_by t_end srt -> 0 <= r0 -> r0 < r1 -> 0 <= fst c -> fst c < snd c ->
  ~ (fst c == r0 /\ r1 <= snd c) ->
  exists r, get_non_overlapping_ref_band srt c [(r0, r1)] = Ok r /\ forall t, covered r t <-> r0 <= t < r1 /\ ~ (fst c <= t < snd c).
Proof.
  intros Hs H0 H1 C0 C1 T. unfold get_non_overlapping_ref_band.
  assert (Gc : good [c]) by (apply good1; lra). assert (G : good [(r0, r1)]) by (apply good1; cbn; lra).
  destruct (separate_exact _ [c] G Gc) as (b & E & Eb). rewrite E. cbn [bind]. destruct b.
  - exists [(r0, r1)]. split; [reflexivity|]. intros t. rewrite covered1. cbn [fst snd]. split; [|tauto]. intros H. split; [exact H|]. intros C.
    apply (separate_sound _ [c] t G Gc E). split; apply covered1; cbn; assumption.
  - assert (Ov : fst c < r1 /\ r0 < snd c).
    { split; apply Qnot_le_lt; intros C; assert (false = true) by (apply Eb; [left + (right; left)]; intros x y z w [X|[]] [Y|[]]; subst; cbn in *; try (injection X as <- <-); try (injection Y as <- <-); cbn; lra); discriminate. }
    destruct c as [c0 c1]. cbn [fst snd] in *.
    cbn [flatten flat_map qmax_list fold_left app fst snd bind].
    set (M := qmax (qmax r0 r1) (c1 + 1)).
    assert (HM : r1 <= M /\ c1 + 1 <= M /\ (M == r1 \/ r1 < M)).
    { unfold M, qmax. destruct (qle r0 r1) eqn:A; [|qb; lra]. destruct (qle r1 (c1 + 1)) eqn:B; qb; repeat split; try lra. }
    clearbody M. unfold cross_two_gtis. cbn [join_equal_gti_boundaries join_equal_loop bind fst snd].
    assert (Ab : qle (Qabs (c0 - c1)) 0 = false).
    { apply qle_f. rewrite Qabs_neg by lra. lra. }
    rewrite Ab. cbn [bind].
    assert (K1 : check_gtis [(r0, r1)] = Ok tt).
    { unfold check_gtis. cbn. replace (qle r0 r1) with true by (symmetry; apply qle_t; lra). reflexivity. }
    assert (K2 : check_gtis [(0, c0); (c1, M)] = Ok tt).
    { unfold check_gtis. cbn. replace (qle 0 c0) with true by (symmetry; apply qle_t; lra).
      replace (qle c1 M) with true by (symmetry; apply qle_t; lra). replace (qle c0 c1) with true by (symmetry; apply qle_t; lra). reflexivity. }
    rewrite K1, K2. cbn [bind tag_list map app fst snd].
    destruct (Hs [(r0, r1, false); (0, c0, true); (c1, M, true)]) as [Pm St].
    apply perm3 in Pm.
    assert (Sm : srt [(r0, r1, false); (0, c0, true); (c1, M, true)] = [(0, c0, true); (r0, r1, false); (c1, M, true)] \/
      (srt [(r0, r1, false); (0, c0, true); (c1, M, true)] = [(0, c0, true); (c1, M, true); (r0, r1, false)] /\ M == r1)).
    { destruct Pm as [Q|[Q|[Q|[Q|[Q|Q]]]]]; rewrite Q in *; auto.
      - exfalso. specialize (St 0%nat 1%nat _ _ ltac:(lia) eq_refl eq_refl). cbn in St. lra.
      - exfalso. specialize (St 0%nat 2%nat _ _ ltac:(lia) eq_refl eq_refl). cbn in St. lra.
      - right. split; [reflexivity|]. specialize (St 1%nat 2%nat _ _ ltac:(lia) eq_refl eq_refl). cbn in St. lra.
      - exfalso. specialize (St 0%nat 2%nat _ _ ltac:(lia) eq_refl eq_refl). cbn in St. lra.
      - exfalso. specialize (St 0%nat 1%nat _ _ ltac:(lia) eq_refl eq_refl). cbn in St. lra. }
    clear Pm St Hs Ab K1 K2 E Eb G Gc. destruct Sm as [->|[-> Em]]; cbn [rev app].
    all: eexists; split; [reflexivity|]; intros t; unfold cross_step, opening_pos, t_start, t_end, t_tag, qmax.
    all: cbn [fst snd fold_left map filter negb].
    all: repeat (dcmp; cbn [argmax argmax_from nth_error fst snd existsb orb andb filter rev app negb]; try (exfalso; qb; lra)).
    all: qb; unfold covered; split.
    all: try (intros (x & y & Hin & Hx & Hy); cbn [In] in Hin; repeat (destruct Hin as [Hin|Hin]; [injection Hin as <- <-; split; lra|]); destruct Hin).
    all: intros [Ht Hn].
    all: destruct (Qlt_le_dec t c0); [|destruct (Qlt_le_dec t c1); [exfalso; apply Hn; split; assumption|]].
    all: try (exfalso; lra).
    all: try (eexists; eexists; split; [now left|split; lra]).
    all: try (eexists; eexists; split; [right; now left|split; lra]).
Qed.
