(* P_filters.v: proofs about the dead-time filters. *)
From Verif Require Import Np Lib S_gti S_seg M_gti M_seg P_seg_cut P_seg_regions S_filters M_filters.
From Coq Require Import Permutation Sorted Lqa.
Open Scope Q_scope.

Lemma select_kept {A} (l : list A) : forall m, select l m = kept l m.
Proof. reflexivity. Qed.

(* --- paralyzable --- *)
Lemma par_from_len : forall ev p, length (par_from p ev) = length ev.
Proof. induction ev as [|[t d] ev IH]; intros p; simpl; auto. Qed.
Lemma par_from_spec : forall ev p i t, nth_error (map fst ev) i = Some t ->
  (nth_error (par_from p ev) i = Some true <->
   match i with O => p <= t | S j => forall u d, nth_error ev j = Some (u, d) -> u + d <= t end).
Proof.
  induction ev as [|[t0 d0] ev IH]; intros p i t H; [destruct i; discriminate|]. destruct i as [|i]; simpl in H |- *.
  - injection H as ->. destruct (qlt t p) eqn:E; qb; simpl; split; intros; try discriminate; try lra; reflexivity.
  - rewrite (IH (t0 + d0) i t H). destruct i as [|i]; simpl.
    + split; [intros K u d E; injection E as <- <-; assumption|intros K; apply K; reflexivity].
    + reflexivity.
Qed.
Lemma combine_nth {A B} (l : list A) (l' : list B) : forall j u d,
  nth_error (combine l l') j = Some (u, d) <-> nth_error l j = Some u /\ nth_error l' j = Some d.
Proof.
  revert l'. induction l as [|a l IH]; intros l' j u d; [destruct j; simpl; split; [discriminate|intros []; discriminate|discriminate|intros []; discriminate]|].
  destruct l' as [|b l']; [destruct j; simpl; split; try discriminate; intros []; discriminate|].
  destruct j as [|j]; simpl; [|apply IH]. split; [intros E; injection E as -> ->; auto|intros [E E']; injection E as ->; injection E' as ->; reflexivity].
Qed.
Lemma map_fst_combine {A B} (l : list A) : forall (l' : list B), length l' = length l -> map fst (combine l l') = l.
Proof. induction l as [|a l IH]; intros [|b l'] H; simpl in *; try discriminate; [reflexivity|]. f_equal. apply IH. congruence. Qed.
Lemma paralyzable_main ev dts : length dts = length ev ->
  exists m, paralyzable_dead_time ev dts = Ok m /\ paralyzable_record ev dts m.
Proof.
  intros Hl. unfold paralyzable_dead_time. assert (Hm := map_fst_combine ev dts Hl).
  assert (Hc := combine_nth ev dts). assert (HL : length (combine ev dts) = length ev) by (rewrite combine_length; lia).
  destruct (combine ev dts) as [|[t0 d0] r] eqn:E.
  - exists []. split; [reflexivity|]. split; [simpl in *; assumption|].
    intros i t Hi. rewrite <- Hm in Hi. destruct i; discriminate.
  - eexists. split; [reflexivity|]. split; [simpl; rewrite par_from_len; assumption|].
    intros i t Hi. rewrite <- Hm in Hi. destruct i as [|i].
    + split; [intros _ j u d Hj; discriminate|reflexivity].
    + simpl in Hi. cbn [nth_error]. rewrite (par_from_spec r (t0 + d0) i t Hi). split.
      * intros K j u d Hj A B. injection Hj as <-. specialize (proj2 (Hc i u d) (conj A B)). intros Hn.
        destruct i as [|i]; simpl in Hn; [injection Hn as <- <-; assumption|apply K; assumption].
      * intros K. destruct i as [|i].
        -- destruct (proj1 (Hc 0%nat t0 d0) eq_refl) as [A B]. apply (K 0%nat t0 d0 eq_refl A B).
        -- intros u d Hn. destruct (proj1 (Hc (S i) u d) Hn) as [A B]. apply (K (S i) u d eq_refl A B).
Qed.

(* --- non-paralyzable --- *)
Lemma nonpar_core_len : forall ev p, length (nonpar_core p ev) = length ev.
Proof. induction ev as [|[t d] ev IH]; intros p; simpl; auto. destruct (qlt t p); simpl; rewrite IH; reflexivity. Qed.
Lemma last_recorded_fun m i j j' : last_recorded m i j -> last_recorded m i j' -> j = j'.
Proof.
  intros (A & B & C) (A' & B' & C'). destruct (Nat.lt_trichotomy j j') as [H|[H|H]]; [|assumption|].
  - rewrite (C j') in B'; [discriminate|lia].
  - rewrite (C' j) in B; [discriminate|lia].
Qed.
(* After an initial recorded event at position 0 with dead time end p. *)
Lemma nonpar_core_spec : forall ev p i t, nth_error (map fst ev) i = Some t ->
  let m := nonpar_core p ev in
  (nth_error m i = Some true <->
   ((forall k, (k < i)%nat -> nth_error m k = Some false) -> p <= t) /\
   (forall j u d, last_recorded m i j -> nth_error ev j = Some (u, d) -> u + d <= t)).
Proof.
  induction ev as [|[t0 d0] ev IH]; intros p i t H m; [destruct i; discriminate|].
  subst m. cbn [nonpar_core]. destruct (qlt t0 p) eqn:E.
  - destruct i as [|i]; cbn [nth_error map fst] in H |- *.
    + injection H as ->. qb. split; [discriminate|]. intros [K _]. exfalso. assert (p <= t) by (apply K; intros k Hk; lia). lra.
    + rewrite (IH p i t H). split; intros [K1 K2]; split.
      * intros Kf. apply K1. intros k Hk. apply (Kf (S k)). lia.
      * intros [|j] u d (A & B & C) Hn; [discriminate B|]. apply (K2 j u d); [|assumption].
        split; [lia|]. split; [exact B|]. intros k Hk. apply (C (S k)). lia.
      * intros Kf. apply K1. intros [|k] Hk; [reflexivity|]. apply Kf. lia.
      * intros j u d (A & B & C) Hn. apply (K2 (S j) u d); [|assumption].
        split; [lia|]. split; [exact B|]. intros [|k] Hk; [lia|]. apply C. lia.
  - destruct i as [|i]; cbn [nth_error map fst] in H |- *.
    + injection H as ->. qb. split; [|reflexivity]. intros _. split; [auto|]. intros j u d (A & _). lia.
    + rewrite (IH (t0 + d0) i t H). split; intros [K1 K2]; split.
      * intros Kf. specialize (Kf 0%nat ltac:(lia)). discriminate Kf.
      * intros [|j] u d (A & B & C) Hn.
        -- injection Hn as <- <-. apply K1. intros k Hk. apply (C (S k)). lia.
        -- apply (K2 j u d); [|assumption]. split; [lia|]. split; [exact B|]. intros k Hk. apply (C (S k)). lia.
      * intros Kf. apply (K2 0%nat t0 d0); [|reflexivity]. split; [lia|]. split; [reflexivity|].
        intros [|k] Hk; [lia|]. apply Kf. lia.
      * intros j u d (A & B & C) Hn. apply (K2 (S j) u d); [|assumption].
        split; [lia|]. split; [exact B|]. intros [|k] Hk; [lia|]. apply C. lia.
Qed.
Lemma nonparalyzable_main ev dts : ev <> [] -> length dts = length ev ->
  exists m, non_paralyzable_dead_time ev dts = Ok m /\ nonparalyzable_record ev dts m.
Proof.
  intros Ne Hl. unfold non_paralyzable_dead_time. assert (Hm := map_fst_combine ev dts Hl).
  assert (Hc := combine_nth ev dts). assert (HL : length (combine ev dts) = length ev) by (rewrite combine_length; lia).
  destruct (combine ev dts) as [|[t0 d0] r] eqn:E.
  - destruct ev; [congruence|discriminate].
  - eexists. split; [reflexivity|].
    assert (En : true :: nonpar_core (t0 + d0) r = nonpar_core t0 ((t0, d0) :: r)).
    { cbn [nonpar_core]. destruct (qlt t0 t0) eqn:Q; [qb; lra|reflexivity]. }
    rewrite En. split; [rewrite nonpar_core_len; assumption|].
    intros i t Hi. rewrite <- Hm in Hi. rewrite (nonpar_core_spec _ t0 i t Hi). split.
    + intros [_ K] j u d Hj A B. apply (K j u d Hj). apply Hc. auto.
    + intros K. split.
      * intros Kf. destruct i as [|i]; [simpl in Hi; injection Hi as ->; apply Qle_refl|].
        specialize (Kf 0%nat ltac:(lia)). rewrite <- En in Kf. discriminate Kf.
      * intros j u d Hj Hn. apply Hc in Hn. apply (K j u d Hj); tauto.
Qed.
Lemma nonparalyzable_unique ev dts m m' : nonparalyzable_record ev dts m -> nonparalyzable_record ev dts m' -> m = m'.
Proof.
  intros [L H] [L' H'].
  assert (K : forall i, forall k, (k < i)%nat -> nth_error m k = nth_error m' k).
  { induction i as [|i IH]; intros k Hk; [lia|]. destruct (Nat.eq_dec k i) as [->|N]; [|apply IH; lia].
    destruct (nth_error ev i) as [t|] eqn:E.
    - assert (Hi : (i < length ev)%nat) by (apply nth_error_Some; rewrite E; discriminate).
      destruct (nth_error_ex m i) as (x & Hx); [lia|]. destruct (nth_error_ex m' i) as (y & Hy); [lia|].
      assert (Q : nth_error m i = Some true <-> nth_error m' i = Some true).
      { rewrite (H i t E), (H' i t E). split; intros Q j u d (A & B & C); apply (Q j u d);
          (split; [assumption|]); (split; [rewrite <- B; (apply IH || (symmetry; apply IH)); lia|]); intros k Hk'; rewrite <- (C k Hk');
          (apply IH || (symmetry; apply IH)); lia. }
      rewrite Hx, Hy in Q |- *. destruct x, y; try reflexivity; destruct Q as [Q1 Q2];
        [specialize (Q1 eq_refl)|specialize (Q2 eq_refl)]; discriminate.
    - apply nth_error_None in E. rewrite (proj2 (nth_error_None m i)) by lia. rewrite (proj2 (nth_error_None m' i)) by lia. reflexivity. }
  assert (Kn : forall i, nth_error m i = nth_error m' i) by (intros i; apply (K (S i)); lia).
  assert (EL : length m = length m') by congruence.
  clear - EL Kn. revert m' EL Kn. induction m as [|a m IH]; intros [|b m'] EL Kn; simpl in EL; try discriminate; [reflexivity|].
  assert (a = b) by (specialize (Kn 0%nat); simpl in Kn; congruence). subst. f_equal. apply IH; [congruence|].
  intros i. apply (Kn (S i)).
Qed.

(* Consequences for a constant dead time and sorted events. *)
Lemma bool_none_true (m : list bool) i : (i <= length m)%nat ->
  (exists j, last_recorded m i j) \/ (forall k, (k < i)%nat -> nth_error m k = Some false).
Proof.
  induction i as [|i IH]; intros Hi; [right; intros; lia|].
  destruct (nth_error_ex m i) as ([|] & Hx); [lia| |].
  - left. exists i. split; [lia|]. split; [assumption|]. intros; lia.
  - destruct IH as [(j & A & B & C)|F]; [lia| |].
    + left. exists j. split; [lia|]. split; [assumption|]. intros k Hk. destruct (Nat.eq_dec k i) as [->|]; [assumption|apply C; lia].
    + right. intros k Hk. destruct (Nat.eq_dec k i) as [->|]; [assumption|apply F; lia].
Qed.
Lemma const_nth d ev j : (j < length ev)%nat -> nth_error (const_dt d ev) j = Some d.
Proof. intros H. unfold const_dt. rewrite nth_error_map. destruct (nth_error_ex ev j H) as (x & ->). reflexivity. Qed.
Lemma record_consequences ev d m : 0 <= d -> nondecreasing ev -> nonparalyzable_record ev (const_dt d ev) m ->
  (ev <> [] -> nth_error m 0 = Some true) /\
  (forall i j t u, (j < i)%nat -> nth_error m i = Some true -> nth_error m j = Some true ->
     nth_error ev i = Some t -> nth_error ev j = Some u -> u + d <= t) /\
  (forall i t, nth_error ev i = Some t -> nth_error m i = Some false ->
     exists j u, (j < i)%nat /\ nth_error m j = Some true /\ nth_error ev j = Some u /\ u <= t /\ t < u + d).
Proof.
  intros Hd Hs [L H]. split; [|split].
  - intros Ne. destruct ev as [|t ev]; [congruence|]. apply (H 0%nat t eq_refl). intros j u d' (A & _). lia.
  - intros i. induction i as [i IH] using (well_founded_induction lt_wf). intros j t u Hji Hi Hj Et Eu.
    assert (Hii : (i < length ev)%nat) by (apply nth_error_Some; rewrite Et; discriminate).
    destruct (bool_none_true m i) as [(l & Hl)|F]; [lia| |rewrite F in Hj by lia; discriminate].
    destruct (nth_error_ex ev l) as (v & Ev); [destruct Hl; lia|].
    assert (K : v + d <= t).
    { apply (proj1 (H i t Et) Hi l v d Hl Ev). apply const_nth. destruct Hl; lia. }
    destruct Hl as (A & B & C). destruct (Nat.lt_trichotomy j l) as [Q|[Q|Q]].
    + assert (u <= v) by (apply (Hs j l); auto). lra.
    + subst. rewrite Eu in Ev. injection Ev as <-. assumption.
    + rewrite C in Hj by lia. discriminate.
  - intros i t Et Hi.
    assert (Hii : (i < length ev)%nat) by (apply nth_error_Some; rewrite Et; discriminate).
    destruct (bool_none_true m i) as [(l & Hl)|F]; [lia| |].
    + destruct (nth_error_ex ev l) as (v & Ev); [destruct Hl; lia|]. exists l, v.
      destruct Hl as (A & B & C). split; [assumption|]. split; [assumption|]. split; [assumption|].
      split; [apply (Hs l i); auto|]. apply Qnot_le_lt. intros K.
      assert (T : nth_error m i = Some true).
      { apply (H i t Et). intros j u d' Hj Eu Ed.
        assert (j = l) by (apply (last_recorded_fun m i); [assumption|split; auto]). subst.
        rewrite Ev in Eu. injection Eu as <-. rewrite const_nth in Ed by lia. injection Ed as <-. assumption. }
      rewrite T in Hi. discriminate.
    + assert (T : nth_error m i = Some true).
      { apply (H i t Et). intros j u d' (A & B & C). rewrite F in B by lia. discriminate. }
      rewrite T in Hi. discriminate.
Qed.
Lemma nonpar_core_all d : forall ev p, (forall t, In t ev -> p <= t) ->
  StronglySorted (fun a b => a + d <= b) ev -> nonpar_core p (combine ev (const_dt d ev)) = map (fun _ => true) ev.
Proof.
  induction ev as [|t ev IH]; intros p Hp Hs; [reflexivity|]. inversion Hs as [|? ? Hs' Hf]; subst. simpl.
  destruct (qlt t p) eqn:E; [qb; specialize (Hp t (or_introl eq_refl)); lra|]. f_equal. apply IH; [|assumption].
  intros x Hx. rewrite Forall_forall in Hf. apply Hf. assumption.
Qed.
Lemma kept_ss {A} (R : A -> A -> Prop) : forall (l : list A) m,
  (forall i j x y, (i < j)%nat -> nth_error m i = Some true -> nth_error m j = Some true ->
     nth_error l i = Some x -> nth_error l j = Some y -> R x y) -> StronglySorted R (kept l m).
Proof.
  induction l as [|a l IH]; intros [|b m] H; simpl; try constructor. 
  destruct b; [constructor|].
  - apply IH. intros i j x y Hij A1 A2 A3 A4. apply (H (S i) (S j) x y); auto. lia.
  - apply Forall_forall. intros y Hy.
    assert (K : forall (l : list A) m y, In y (kept l m) -> exists j, nth_error m j = Some true /\ nth_error l j = Some y).
    { clear. induction l as [|a l IH]; intros [|b m] y; simpl; try tauto.
      destruct b; simpl.
      - intros [<-|Hy]; [exists 0%nat; auto|]. destruct (IH m y Hy) as (j & ? & ?). exists (S j); auto.
      - intros Hy. destruct (IH m y Hy) as (j & ? & ?). exists (S j); auto. }
    destruct (K l m y Hy) as (j & ? & ?). apply (H 0%nat (S j) a y); auto. lia.
  - apply IH. intros i j x y Hij A1 A2 A3 A4. apply (H (S i) (S j) x y); auto. lia.
Qed.
Lemma dead_time_idempotent ev d m : 0 <= d -> nondecreasing ev ->
  non_paralyzable_dead_time ev (const_dt d ev) = Ok m ->
  non_paralyzable_dead_time (kept ev m) (const_dt d (kept ev m)) = Ok (map (fun _ => true) (kept ev m)).
Proof.
  intros Hd Hs E. assert (Ne : ev <> []) by (intros ->; discriminate).
  destruct (nonparalyzable_main ev (const_dt d ev) Ne) as (m' & E' & R); [apply map_length|].
  rewrite E in E'. injection E' as <-.
  destruct (record_consequences ev d m Hd Hs R) as (A & B & _).
  assert (S : StronglySorted (fun a b => a + d <= b) (kept ev m)).
  { apply kept_ss. intros i j x y Hij Hi Hj Hx Hy. apply (B j i y x); auto. }
  destruct ev as [|t ev]; [congruence|]. destruct m as [|b m]; [specialize (A Ne); discriminate|].
  specialize (A Ne). injection A as ->. simpl in S |- *. inversion S as [|? ? S' F]; subst.
  unfold non_paralyzable_dead_time. simpl. f_equal. f_equal. apply nonpar_core_all; [|assumption].
  intros x Hx. rewrite Forall_forall in F. apply F. assumption.
Qed.
Lemma par_subset_nonpar ev d mp mn : nondecreasing ev ->
  paralyzable_record ev (const_dt d ev) mp -> nonparalyzable_record ev (const_dt d ev) mn ->
  forall i, nth_error mp i = Some true -> nth_error mn i = Some true.
Proof.
  intros Hs [Lp Hp] [Ln Hn] i Hi.
  assert (Hii : (i < length ev)%nat) by (rewrite <- Lp; apply nth_error_Some; rewrite Hi; discriminate).
  destruct (nth_error_ex ev i Hii) as (t & Et). apply (Hn i t Et). intros j u d' (A & _ & _) Eu Ed.
  rewrite const_nth in Ed by lia. injection Ed as <-.
  destruct i as [|i]; [lia|]. destruct (nth_error_ex ev i) as (v & Ev); [lia|].
  assert (K : v + d <= t). { apply (proj1 (Hp (S i) t Et) Hi i v d eq_refl Ev). apply const_nth. lia. }
  destruct (Nat.eq_dec j i) as [->|N].
  - rewrite Ev in Eu. injection Eu as <-. assumption.
  - assert (u <= v) by (apply (Hs j i); auto; lia). lra.
Qed.
(* With dead times that differ from event to event the inclusion fails. *)
Lemma par_subset_varying : exists ev dts mp mn i, increasing ev /\ Forall (fun d => 0 <= d) dts /\
  paralyzable_dead_time ev dts = Ok mp /\ non_paralyzable_dead_time ev dts = Ok mn /\
  nth_error mp i = Some true /\ nth_error mn i = Some false.
Proof.
  exists [0; 1; 2], [5; 0; 0]. eexists. eexists. exists 2%nat.
  split; [unfold increasing; apply (proj1 (ss_nth Qlt _)); repeat constructor|].
  split; [repeat constructor; discriminate|]. repeat split; vm_compute; reflexivity.
Qed.
Lemma nonpar_empty : non_paralyzable_dead_time [] [] = Err IndexError /\ paralyzable_dead_time [] [] = Ok [].
Proof. split; reflexivity. Qed.

(* --- background --- *)
Lemma perm_qeq_sorted : forall (l1 l2 l' : list Q), StronglySorted Qle l1 -> StronglySorted Qle l2 ->
  Permutation l1 l' -> Forall2 Qeq l' l2 -> Forall2 Qeq l1 l2.
Proof.
  induction l1 as [|a l1 IH]; intros l2 l' S1 S2 P F.
  - apply Permutation_nil in P. subst. assumption.
  - inversion S1 as [|? ? S1' F1]; subst. rewrite Forall_forall in F1.
    destruct l' as [|b' l'']; [apply Permutation_sym, Permutation_nil in P; discriminate|].
    inversion F as [|? b ? l2' Hb F']; subst. inversion S2 as [|? ? S2' F2]; subst. rewrite Forall_forall in F2.
    assert (Hba : b <= a).
    { assert (Ha : In a (b' :: l'')) by (apply (Permutation_in _ P); left; reflexivity).
      destruct Ha as [->|Ha]; [lra|].
      assert (K : forall x (p q : list Q), Forall2 Qeq p q -> In x p -> exists y, In y q /\ x == y).
      { clear. intros x p q H. induction H; simpl; [tauto|]. intros [<-|Hx]; [eauto|]. destruct (IHForall2 Hx) as (z & ? & ?); eauto. }
      destruct (K a l'' l2' F' Ha) as (y & Hy & Ey). specialize (F2 y Hy). lra. }
    assert (Hab : a <= b).
    { assert (Hb' : In b' (a :: l1)) by (apply (Permutation_in _ (Permutation_sym P)); left; reflexivity).
      destruct Hb' as [->|Hb']; [lra|]. specialize (F1 b' Hb'). lra. }
    assert (E : a == b) by lra. constructor; [assumption|].
    destruct (in_inv (Permutation_in _ P (or_introl eq_refl))) as [->|Ha].
    + apply Permutation_cons_inv in P. apply (IH l2' l''); assumption.
    + destruct (in_split _ _ Ha) as (p & q & ->). apply Forall2_app_inv_l in F'.
      destruct F' as (p2 & q2' & Fp & Fq & ->). inversion Fq as [|? a2 ? q2 Ea Fq']; subst.
      apply (IH _ (p ++ b' :: q)); [assumption|assumption| |].
      * apply (Permutation_cons_inv (a := a)). rewrite P.
        transitivity (a :: b' :: p ++ q); [|apply perm_skip; apply Permutation_middle].
        rewrite perm_swap. apply perm_skip. symmetry. apply Permutation_middle.
      * apply Forall2_app; [assumption|]. constructor; [lra|assumption].
Qed.
Lemma select_map_fst {A} (l : list (A * bool)) : map fst (filter snd l) = select (map fst l) (map snd l).
Proof. induction l as [|[a b] l IH]; simpl; [reflexivity|]. destruct b; simpl; rewrite IH; reflexivity. Qed.
Lemma filter_perm {A} (f : A -> bool) l l' : Permutation l l' -> Permutation (filter f l) (filter f l').
Proof.
  intros H. induction H; simpl; [constructor| | |eapply Permutation_trans; eauto].
  - destruct (f x); auto.
  - destruct (f x), (f y); auto. constructor.
Qed.
Lemma filter_ss {A} (R : A -> A -> Prop) f l : StronglySorted R l -> StronglySorted R (filter f l).
Proof.
  intros H. induction H; simpl; [constructor|]. destruct (f a); [|assumption]. constructor; [assumption|].
  rewrite Forall_forall in *. intros x Hx. apply filter_In in Hx. apply H0. tauto.
Qed.
Lemma ss_map_fst (l : list (Q * bool)) : StronglySorted (fun a b => fst a <= fst b) l -> StronglySorted Qle (map fst l).
Proof.
  intros H. induction H; simpl; [constructor|]. constructor; [assumption|]. apply Forall_forall. intros x Hx.
  apply in_map_iff in Hx. destruct Hx as (y & <- & Hy). rewrite Forall_forall in H0. auto.
Qed.
Lemma forall2_qeq_refl l : Forall2 Qeq l l.
Proof. induction l; constructor; [reflexivity|assumption]. Qed.
Lemma select_len {A} (l : list A) : forall m m' : list bool, length m = length l -> length m' = length l ->
  length (select m m') = length (select l m').
Proof.
  induction l as [|a l IH]; intros m m' H H'; destruct m, m'; simpl in *; try discriminate; [reflexivity|].
  destruct b0; simpl; rewrite (IH m m'); congruence.
Qed.

Lemma forall2_len {A B} (R : A -> B -> Prop) l l' : Forall2 R l l' -> length l = length l'.
Proof. intros H. induction H; simpl; congruence. Qed.
(* The stream the detector sees: sources and background in time order. *)
Lemma kept_kept_negb {A} (t : list A) : forall r k, length r = length t -> length k = length t ->
  kept (kept t r) (map negb (kept k r)) = kept t (map (fun p => fst p && negb (snd p))%bool (combine r k)).
Proof.
  induction t as [|a t IH]; intros [|b r] [|c k] Lr Lk; try discriminate; [reflexivity|]. simpl in Lr, Lk.
  destruct b; cbn [kept select map combine fst snd andb]; [destruct c; cbn [negb]|]; rewrite <- IH by lia; reflexivity.
Qed.
Lemma background_main srt ev bkg d (par : bool) : sorts_by fst srt -> 0 < d -> nondecreasing ev -> (ev <> [] \/ bkg <> []) ->
  exists stream record mask,
    Permutation stream (map (fun t => (t, true)) ev ++ map (fun t => (t, false)) bkg) /\
    nondecreasing (map fst stream) /\
    (if par then paralyzable_record (map fst stream) (const_dt d (map fst stream)) record
     else nonparalyzable_record (map fst stream) (const_dt d (map fst stream)) record) /\
    get_deadtime_mask srt ev d (Some bkg) None par false = Ok (JustMask mask) /\
    get_deadtime_mask srt ev d (Some bkg) None par true = Ok (WithOutput mask
      {| uf_events := kept (map fst stream) record; is_event := kept (map snd stream) record;
         o_deadtime := kept (map (fun _ => 0 + d) (map fst stream)) record;
         o_bkg := kept (map fst stream) (map (fun p => fst p && negb (snd p))%bool (combine record (map snd stream))) |}) /\
    length mask = length ev /\
    mask = kept record (map snd stream) /\ Forall2 Qeq ev (kept (map fst stream) (map snd stream)).
Proof.
  intros Hs Hd Hev Hne. set (all := map (fun t => (t, true)) ev ++ map (fun t => (t, false)) bkg).
  destruct (Hs all) as [Hp Hn]. set (stream := srt all) in *.
  assert (SS : StronglySorted (fun a b => fst a <= fst b) stream).
  { apply (proj2 (ss_nth (fun a b : Q * bool => fst a <= fst b) stream)). exact Hn. }
  assert (NDs : nondecreasing (map fst stream)).
  { unfold nondecreasing. apply (proj1 (ss_nth Qle (map fst stream))). apply ss_map_fst. assumption. }
  assert (F2 : Forall2 Qeq ev (kept (map fst stream) (map snd stream))).
  { rewrite <- select_kept, <- select_map_fst.
    apply (perm_qeq_sorted ev _ (map fst (filter snd stream))).
    - apply (proj2 (ss_nth Qle ev)). exact Hev.
    - apply ss_map_fst, filter_ss, SS.
    - transitivity (@map (Q * bool) Q fst (filter snd all)); [|apply Permutation_map, filter_perm, Permutation_sym, Hp].
      assert (K : map fst (filter snd all) = ev).
      { unfold all. rewrite filter_app, map_app.
        assert (A : filter snd (map (fun t : Q => (t, true)) ev) = map (fun t => (t, true)) ev) by (clear; induction ev; simpl; congruence).
        assert (B : filter snd (map (fun t : Q => (t, false)) bkg) = []) by (clear; induction bkg; simpl; congruence).
        rewrite A, B, app_nil_r, map_map. simpl. apply map_id. }
      rewrite K. reflexivity.
    - apply forall2_qeq_refl. }
  set (times := map fst stream) in *.
  assert (Hrec : exists record, (if par then paralyzable_dead_time times (map (fun _ => 0 + d) times)
                                 else non_paralyzable_dead_time times (map (fun _ => 0 + d) times)) = Ok record /\
     (if par then paralyzable_record times (map (fun _ => 0 + d) times) record
      else nonparalyzable_record times (map (fun _ => 0 + d) times) record)).
  { destruct par.
    - apply paralyzable_main. apply map_length.
    - apply nonparalyzable_main; [|apply map_length]. intros E. apply map_eq_nil in E. unfold stream in *. rewrite E in Hp.
      apply Permutation_nil in Hp. unfold all in Hp. destruct Hne as [N|N]; [destruct ev|destruct bkg]; try congruence; try discriminate.
      destruct (map (fun t => (t, true)) ev); discriminate. }
  destruct Hrec as (record & Er & Rr).
  assert (Rc : if par then paralyzable_record times (const_dt d times) record else nonparalyzable_record times (const_dt d times) record).
  { assert (Q : forall j x, nth_error (const_dt d times) j = Some x -> nth_error (map (fun _ => 0 + d) times) j = Some (0 + d) /\ x = d).
    { intros j x. unfold const_dt. rewrite !nth_error_map. destruct (nth_error times j); simpl; [|discriminate].
      intros E; injection E as <-; auto. }
    assert (Q' : forall j x, nth_error (map (fun _ => 0 + d) times) j = Some x -> nth_error (const_dt d times) j = Some d /\ x = 0 + d).
    { intros j x. unfold const_dt. rewrite !nth_error_map. destruct (nth_error times j); simpl; [|discriminate].
      intros E; injection E as <-; auto. }
    destruct par; destruct Rr as [L R]; (split; [assumption|]); intros i t Hi; rewrite (R i t Hi); split; intros K j u x Hj Hu Hx.
    - destruct (Q j x Hx) as [A ->]. assert (u + (0 + d) <= t) by (apply (K j); auto). lra.
    - destruct (Q' j x Hx) as [A ->]. assert (u + d <= t) by (apply (K j); auto). lra.
    - destruct (Q j x Hx) as [A ->]. assert (u + (0 + d) <= t) by (apply (K j); auto). lra.
    - destruct (Q' j x Hx) as [A ->]. assert (u + d <= t) by (apply (K j); auto). lra. }
  exists stream, record, (kept record (map snd stream)).
  split; [assumption|]. split; [assumption|]. split; [assumption|]. split.
  - unfold get_deadtime_mask. fold all. fold stream. fold times.
    destruct (qle d 0) eqn:E; [qb; lra|]. rewrite Er. reflexivity.
  - split.
    { unfold get_deadtime_mask. fold all. fold stream. fold times.
      destruct (qle d 0) eqn:E; [qb; lra|]. rewrite Er. cbn [bind]. rewrite !select_kept.
      rewrite kept_kept_negb; [reflexivity| |].
      - destruct par; destruct Rc as [L _]; exact L.
      - unfold times. rewrite !map_length. reflexivity. }
    split; [|split; [reflexivity|assumption]].
    apply forall2_len in F2. rewrite F2. rewrite <- !select_kept. apply select_len.
    + destruct par; destruct Rc as [L _]; exact L.
    + unfold times. rewrite !map_length. reflexivity.
Qed.
Lemma no_background srt ev d (par all : bool) : ev <> [] -> 0 < d ->
  exists record, get_deadtime_mask srt ev d None None par all =
    Ok (if all then WithOutput record {| uf_events := kept ev record; is_event := kept (map (fun _ => true) ev) record;
          o_deadtime := kept (map (fun _ => 0 + d) ev) record; o_bkg := [] |} else JustMask record) /\
    (if par then paralyzable_record ev (map (fun _ => 0 + d) ev) record else nonparalyzable_record ev (map (fun _ => 0 + d) ev) record).
Proof.
  intros Ne Hd. unfold get_deadtime_mask. destruct (qle d 0) eqn:E; [qb; lra|].
  rewrite !map_map. simpl. rewrite map_id.
  assert (Hrec : exists record, (if par then paralyzable_dead_time ev (map (fun _ => 0 + d) ev)
                                 else non_paralyzable_dead_time ev (map (fun _ => 0 + d) ev)) = Ok record /\
     (if par then paralyzable_record ev (map (fun _ => 0 + d) ev) record
      else nonparalyzable_record ev (map (fun _ => 0 + d) ev) record)).
  { destruct par; [apply paralyzable_main|apply nonparalyzable_main; [assumption|]]; apply map_length. }
  destruct Hrec as (record & Er & Rr). exists record. split; [|assumption]. rewrite Er. cbn [bind].
  assert (L : length record = length ev) by (destruct par; destruct Rr; assumption).
  assert (S1 : select record (map (fun _ => true) ev) = record).
  { clear - L. revert record L. induction ev; intros [|b r] L; simpl in *; try discriminate; [reflexivity|]. f_equal. apply IHev. congruence. }
  assert (S2 : select (select ev record) (map negb (select (map (fun _ => true) ev) record)) = []).
  { clear. revert record. induction ev; intros [|[|] r]; simpl; auto. }
  rewrite S1, S2. reflexivity.
Qed.
Lemma zero_dead_time srt ev bkg noise par all : exists o,
  get_deadtime_mask srt ev 0 bkg noise par all = Ok (WithOutput (map (fun _ => true) ev) o).
Proof. eexists. reflexivity. Qed.
Lemma negative_dead_time srt ev bkg noise par all d : d < 0 -> get_deadtime_mask srt ev d bkg noise par all = Err ValueError.
Proof.
  intros H. unfold get_deadtime_mask. destruct (qle d 0) eqn:E; [|qb; lra]. destruct (qlt d 0) eqn:E'; [reflexivity|qb; lra].
Qed.
(* Unsorted source events: the mask is in time order, not in the order of the list. *)
Lemma background_unsorted : exists ev ev' bkg d out out' o o',
  Permutation ev ev' /\
  filter_for_deadtime (isort_by fst) ev d (Some bkg) None false = Ok (out, o) /\
  filter_for_deadtime (isort_by fst) ev' d (Some bkg) None false = Ok (out', o') /\
  uf_events o = uf_events o' /\
  In 0 (uf_events o) /\ ~ In 0 out /\ ~ In 1 (uf_events o) /\ In 1 out /\ In 0 out'.
Proof.
  exists [10; 0; 1], [0; 1; 10], [20], 2. eexists. eexists. eexists. eexists.
  split; [apply (Permutation_cons_append [0; 1] 10)|].
  split; [vm_compute; reflexivity|]. split; [vm_compute; reflexivity|]. simpl.
  split; [reflexivity|]. split; [tauto|]. split; [intros [H|[H|[]]]; discriminate|].
  split; [intros [H|[H|[H|[]]]]; discriminate|]. split; tauto.
Qed.
Lemma filter_no_background srt ev d (par : bool) : ev <> [] -> 0 < d ->
  exists record o, filter_for_deadtime srt ev d None None par = Ok (kept ev record, o) /\ uf_events o = kept ev record /\ o_bkg o = [] /\
    (if par then paralyzable_record ev (map (fun _ => 0 + d) ev) record else nonparalyzable_record ev (map (fun _ => 0 + d) ev) record).
Proof.
  intros Ne Hd. destruct (no_background srt ev d par true Ne Hd) as (record & E & R).
  exists record. eexists. split; [unfold filter_for_deadtime; rewrite E; reflexivity|]. split; [reflexivity|]. split; [reflexivity|assumption].
Qed.
Lemma noise_main srt ev d noise (par : bool) : ev <> [] -> 0 < d -> length noise = length ev ->
  exists record, get_deadtime_mask srt ev d None (Some noise) par false = Ok (JustMask record) /\
    (if par then paralyzable_record ev (map (fun x => if qlt x 0 then 0 else x) noise) record
     else nonparalyzable_record ev (map (fun x => if qlt x 0 then 0 else x) noise) record).
Proof.
  intros Ne Hd Hl. unfold get_deadtime_mask. destruct (qle d 0) eqn:E; [qb; lra|].
  rewrite !map_map. simpl. rewrite map_id.
  set (dts := map (fun x => if qlt x 0 then 0 else x) noise).
  assert (Hrec : exists record, (if par then paralyzable_dead_time ev dts else non_paralyzable_dead_time ev dts) = Ok record /\
     (if par then paralyzable_record ev dts record else nonparalyzable_record ev dts record)).
  { destruct par; [apply paralyzable_main|apply nonparalyzable_main; [assumption|]]; unfold dts; rewrite map_length; assumption. }
  destruct Hrec as (record & Er & Rr). exists record. split; [|assumption]. rewrite Er. cbn [bind].
  assert (L : length record = length ev) by (destruct par; destruct Rr; assumption).
  assert (S1 : select record (map (fun _ => true) ev) = record).
  { clear - L. revert record L. induction ev; intros [|b r] L; simpl in *; try discriminate; [reflexivity|]. f_equal. apply IHev. congruence. }
  rewrite S1. reflexivity.
Qed.
