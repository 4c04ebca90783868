(* P_seg_bins.v: bin segments and splitting of GTI lists. *)
From Verif Require Import Np Lib S_gti S_seg M_gti M_seg P_gti_ops P_seg_regions P_seg_cut.
Open Scope Q_scope.

Lemma py_int_id n : Z.to_nat (py_int (inject_Z (Z.of_nat n) * 1)) = n.
Proof.
  unfold py_int. assert (E : inject_Z (Z.of_nat n) * 1 == inject_Z (Z.of_nat n)) by ring.
  replace (qle 0 (inject_Z (Z.of_nat n) * 1)) with true.
  - rewrite E. rewrite Qfloor_Z. apply Nat2Z.id.
  - symmetry. qb. rewrite E. change 0 with (inject_Z 0). rewrite <- Zle_Qle. lia.
Qed.

Lemma bin_loop_nonempty_nbin time seg d eps g st :
  bin_intervals_loop time seg d eps 0 0 g = Ok st -> st = [].
Proof.
  revert st. induction g as [|[g0 g1] g IH]; intros st H; simpl in H; [inversion H; reflexivity|].
  destruct (qlt _ seg); [auto|]. apply bind_ok in H. destruct H as (b & _ & H). discriminate.
Qed.

Lemma filter_sub {A} (f : A -> bool) l x : In x (filter f l) -> In x l.
Proof. intros H. apply filter_In in H. tauto. Qed.

Lemma forall2_in_both {A B} (R : A -> B -> Prop) l l' : Forall2 R l l' ->
  forall i j x y x' y', (i < j)%nat -> nth_error l i = Some x -> nth_error l' i = Some y ->
  nth_error l j = Some x' -> nth_error l' j = Some y' -> R x y /\ R x' y'.
Proof.
  intros H. assert (G : forall i x y, nth_error l i = Some x -> nth_error l' i = Some y -> R x y).
  { induction H as [|a b l l' Hab H IH]; intros [|i] x y Hx Hy; simpl in *; try discriminate; [inversion Hx; inversion Hy; subst; assumption|eauto]. }
  intros i j x y x' y' _ H1 H2 H3 H4. split; eauto.
Qed.

Lemma forall2_ss_transport {A B} (R : A -> B -> Prop) (S1 : A -> A -> Prop) (S2 : B -> B -> Prop) l l' :
  (forall x y x' y', In x l -> In x' l -> R x y -> R x' y' -> S1 x x' -> S2 y y') ->
  Forall2 R l l' -> StronglySorted S1 l -> StronglySorted S2 l'.
Proof.
  intros HS HF. revert HS. induction HF as [|a b l l' Hab HF IH]; intros HS Hs; constructor.
  - apply StronglySorted_inv in Hs. apply IH; [|tauto]. intros; eapply HS; eauto; right; assumption.
  - apply StronglySorted_inv in Hs. destruct Hs as [_ Hf]. rewrite Forall_forall in *. intros y Hy.
    destruct (forall2_in_r _ _ _ _ HF Hy) as (x & Hx & Hxy). eapply (HS a b x y); eauto; [left; reflexivity|right; assumption].
Qed.

Lemma ss_filter {A} (R : A -> A -> Prop) f l : StronglySorted R l -> StronglySorted R (filter f l).
Proof.
  induction 1 as [|a l Hs IH Hf]; simpl; [constructor|]. destruct (f a); [|assumption]. constructor; [assumption|].
  rewrite Forall_forall in *. intros x Hx. apply Hf. eapply filter_sub; eassumption.
Qed.

Lemma bin_intervals_main g seg time d eps st en : 0 < d -> 0 <= eps -> eps < 1 # 2 ->
  well_formed g -> increasing time ->
  bin_intervals_from_gtis g seg time d 1 eps = Ok (st, en) ->
  let nbin := Z.to_nat (rint (seg / d)) in
  (0 < nbin)%nat /\ st <> [] /\ en = map (fun s => s + nbin)%nat st /\
  (forall s, In s st -> exists a b, In (a, b) g /\
     forall k, (s <= k < s + nbin)%nat -> exists t, nth_error time k = Some t /\ bin_inside t d (eps * d) a b) /\
  (forall i j s s', (i < j)%nat -> nth_error st i = Some s -> nth_error st j = Some s' -> (s + nbin <= s')%nat) /\
  (forall a b p, In (a, b) g -> seg <= b - a + 3 * eps * d ->
     (forall k, (p <= k < p + nbin)%nat -> exists t, nth_error time k = Some t /\ bin_inside t d (eps * d) a b) ->
     exists s, In s st /\ (s <= p < s + nbin)%nat).
Proof.
  intros Hd He0 He Hwf Hinc H nbin. unfold bin_intervals_from_gtis in H. fold nbin in H. rewrite py_int_id in H.
  apply bind_ok in H. destruct H as (o & _ & H). destruct o; [discriminate|].
  apply bind_ok in H. destruct H as (st' & E & H).
  assert (Hst : st' = st /\ st <> [] /\ en = map (fun s => s + nbin)%nat st).
  { destruct st' as [|x l]; [discriminate|]. inversion H; subst. split; [reflexivity|]. split; [discriminate|reflexivity]. }
  clear H. destruct Hst as (-> & Hne & ->).
  assert (Hn : (0 < nbin)%nat).
  { destruct nbin as [|n]; [|lia]. apply bin_loop_nonempty_nbin in E. contradiction. }
  split; [assumption|]. split; [assumption|]. split; [reflexivity|].
  destruct (bin_loop_main time seg d eps nbin Hn Hinc _ _ E) as (used & HF & ->). clear E.
  assert (Hed : 0 <= eps * d) by (apply Qmult_le_0_compat; lra).
  assert (Hed2 : eps * d < (1 # 2) * d) by (apply Qmult_lt_r; assumption).
  assert (Hhalf : d / 2 == (1 # 2) * d) by (unfold Qdiv; change (/ 2) with (1 # 2); ring).
  set (F := filter (fun iv : Q * Q => negb (qlt (snd iv - fst iv + d + eps * d) seg)) (narrow d eps g)) in *.
  assert (HFin : forall x y, In (x, y) F -> exists a b, In (a, b) g /\ x = a + d / 2 - eps * d /\ y = b - d / 2 + eps * d).
  { intros x y Hx. apply filter_sub in Hx. unfold narrow in Hx. apply in_map_iff in Hx.
    destruct Hx as ([a b] & Eq & Hab). inversion Eq; subst. exists a, b. auto. }
  split; [|split].
  - intros s Hs. apply in_flat_map in Hs. destruct Hs as ([i j] & Hij & Hs).
    apply in_map_iff in Hs. destruct Hs as (m & <- & Hm). apply in_seq in Hm.
    destruct (forall2_in_r _ _ _ _ HF Hij) as ([x y] & Hxy & Eb & Hlt). simpl in *.
    destruct (HFin _ _ Hxy) as (a & b & Hab & -> & ->). exists a, b. split; [assumption|].
    intros k Hk. apply border_one_main in Eb; [|assumption]. destruct Eb as [Hj Hb].
    assert (Hm2 : (m * nbin + nbin <= j - i)%nat).
    { assert (Hm1 : (m + 1 <= (j - i) / nbin)%nat) by lia.
      assert (D := Nat.mul_div_le (j - i) nbin ltac:(lia)). nia. }
    destruct (nth_error_ex time k) as [t Et]; [lia|]. exists t. split; [assumption|].
    apply bin_inside_iff. apply (Hb _ _ Et). lia.
  - apply (proj1 (ss_nth (fun s s' => (s + nbin <= s')%nat) _)).
    assert (Hord : StronglySorted (fun b b' : nat * nat => (snd b <= fst b')%nat) used).
    { eapply (forall2_ss_transport _ (fun x y : Q * Q => snd x < fst y)); [|exact HF|].
      - intros [x y] [i j] [x' y'] [i' j'] _ _ [Eb Hlt] [Eb' Hlt'] Hxy. simpl in *.
        apply border_one_main in Eb; [|assumption]. apply border_one_main in Eb'; [|assumption].
        destruct Eb as [Hj Hb], Eb' as [Hj' Hb'].
        destruct (Nat.le_gt_cases j i') as [D|D]; [assumption|exfalso].
        destruct (nth_error_ex time i') as [t Et]; [lia|].
        destruct (nth_error_ex time (j - 1)) as [t' Et']; [lia|].
        assert (A : x' <= t /\ t <= y') by (apply (Hb' _ _ Et); lia).
        assert (B : x <= t' /\ t' <= y) by (apply (Hb _ _ Et'); lia).
        assert (C : t <= t').
        { destruct (Nat.eq_dec i' (j - 1)) as [Eq|Ne]; [rewrite <- Eq in Et'; rewrite Et in Et'; inversion Et'; lra|].
          assert (Hlt2 : (i' < j - 1)%nat) by lia. assert (t < t') by (eapply Hinc; eassumption). lra. }
        lra.
      - apply ss_filter. unfold narrow. apply ss_nth. intros i j [x y] [x' y'] Hij Hx Hx'. simpl.
        rewrite nth_error_map in Hx, Hx'.
        destruct (nth_error g i) as [[a b]|] eqn:Ea; [|discriminate]. destruct (nth_error g j) as [[a' b']|] eqn:Ea'; [|discriminate].
        simpl in Hx, Hx'. inversion Hx; inversion Hx'; subst.
        destruct Hwf as [_ Hwf]. assert (b <= a') by (eapply Hwf; eassumption). lra. }
    clear HF Hne. induction Hord as [|[i j] used Hs IH Hf]; simpl; [constructor|].
    apply ss_app. split; [|split; [exact IH|]].
    + apply ss_nth. intros p q x y Hpq Hx Hy. rewrite nth_error_map in Hx, Hy.
      destruct (nth_error (seq 0 _) p) as [x0|] eqn:Ex; [|discriminate]. destruct (nth_error (seq 0 _) q) as [y0|] eqn:Ey; [|discriminate].
      simpl in Hx, Hy. inversion Hx; inversion Hy; subst.
      assert (Lp : (p < length (seq 0 ((j - i) / nbin)))%nat) by (apply nth_error_Some; congruence).
      assert (Lq : (q < length (seq 0 ((j - i) / nbin)))%nat) by (apply nth_error_Some; congruence).
      rewrite seq_length in Lp, Lq.
      apply nth_error_nth with (d := 0%nat) in Ex. apply nth_error_nth with (d := 0%nat) in Ey.
      rewrite seq_nth in Ex, Ey by assumption. subst. nia.
    + intros x y Hx Hy. apply in_map_iff in Hx. destruct Hx as (m & <- & Hm). apply in_seq in Hm.
      apply in_flat_map in Hy. destruct Hy as ([i' j'] & Hij' & Hy). apply in_map_iff in Hy. destruct Hy as (m' & <- & Hm').
      rewrite Forall_forall in Hf. specialize (Hf _ Hij'). simpl in *.
      assert (Hm1 : (m + 1 <= (j - i) / nbin)%nat) by lia.
      assert (D := Nat.mul_div_le (j - i) nbin ltac:(lia)).
      assert ((m * nbin + nbin <= j - i)%nat) by nia. destruct (Nat.le_gt_cases j i); [|lia].
      replace (j - i)%nat with 0%nat in * by lia. lia.
  - intros a b p Hab Hlen Hp.
    assert (HinF : In (a + d / 2 - eps * d, b - d / 2 + eps * d) F).
    { apply filter_In. split.
      - unfold narrow. apply in_map_iff. exists (a, b). auto.
      - simpl. apply negb_true_iff. qb. lra. }
    destruct (forall2_in_l _ _ _ _ HF HinF) as ([i j] & Hij & Eb & Hlt). simpl in *.
    apply border_one_main in Eb; [|assumption]. destruct Eb as [Hj Hb].
    assert (Hpi : (i <= p)%nat).
    { destruct (Hp p) as (t & Et & Ht); [lia|]. apply bin_inside_iff in Ht. apply (Hb _ _ Et) in Ht. lia. }
    assert (Hpj : (p + nbin <= j)%nat).
    { destruct (Hp (p + nbin - 1)%nat) as (t & Et & Ht); [lia|]. apply bin_inside_iff in Ht. apply (Hb _ _ Et) in Ht. lia. }
    exists (i + (p - i) / nbin * nbin)%nat. split.
    + apply in_flat_map. exists (i, j). split; [assumption|]. simpl. apply in_map_iff. exists ((p - i) / nbin)%nat.
      split; [reflexivity|]. apply in_seq. split; [lia|]. simpl.
      assert ((p - i) / nbin + 1 <= (j - i) / nbin)%nat; [|lia].
      replace ((p - i) / nbin + 1)%nat with ((p - i + 1 * nbin) / nbin)%nat by (apply Nat.div_add; lia).
      apply Nat.div_le_mono; lia.
    + assert (D := Nat.mul_div_le (p - i) nbin ltac:(lia)). assert (D2 := Nat.mul_succ_div_gt (p - i) nbin ltac:(lia)). nia.
Qed.

(* A GTI that is long enough but holds no bin makes the whole call fail. *)
Lemma bin_intervals_crash : exists g seg time,
  good g /\ increasing time /\
  (exists a b, In (a, b) g /\ forall k, (k < 4)%nat -> exists t, nth_error time k = Some t /\ bin_inside t 1 0 a b) /\
  bin_intervals_from_gtis g seg time 1 1 (1 # 1000) = Err IndexError.
Proof.
  exists [(0, 5); (10, 14)], 2, [21 # 2; 23 # 2; 25 # 2; 27 # 2]. split; [|split; [|split]].
  - split; [discriminate|]. split; [split|].
    + intros a b [E|[E|[]]]; inversion E; discriminate.
    + intros [|[|i]] [|[|j]]; simpl; intros a b c d H E1 E2; try lia; try (destruct j; discriminate); try (destruct i; discriminate).
      inversion E1; inversion E2; subst. lra.
    + intros a b [E|[E|[]]]; inversion E; reflexivity.
  - unfold increasing. apply (proj1 (ss_nth Qlt _)). repeat constructor; reflexivity.
  - exists 10, 14. split; [right; left; reflexivity|].
    intros [|[|[|[|k]]]] Hk; [| | | |lia]; eexists; (split; [reflexivity|]); split; vm_compute; discriminate.
  - vm_compute. reflexivity.
Qed.

(* C12 *)
Lemma slice_concat {A} (l : list A) i j : (i <= j)%nat -> firstn i l ++ slice l i j = firstn j l.
Proof.
  intros H. unfold slice. rewrite <- (firstn_skipn i (firstn j l)) at 1.
  rewrite firstn_firstn. replace (Nat.min i j) with i by lia. f_equal. symmetry. apply skipn_firstn_comm.
Qed.

Lemma norm_pos n i : (0 <= i)%Z -> norm_idx n i = Z.to_nat i.
Proof. intros H. unfold norm_idx. destruct (i <? 0)%Z eqn:E; [apply Z.ltb_lt in E; lia|reflexivity]. Qed.

Lemma split_loop_main g idx : forall prev, (0 <= prev)%Z -> Forall (fun i => prev <= i)%Z idx -> StronglySorted Z.le idx ->
  firstn (Z.to_nat prev) g ++ concat (fst (split_loop g prev idx)) = firstn (Z.to_nat (snd (split_loop g prev idx))) g /\
  snd (split_loop g prev idx) = last idx prev /\ (prev <= last idx prev)%Z.
Proof.
  induction idx as [|i idx IH]; intros prev Hp Hf Hs; cbn [split_loop fst snd concat].
  - simpl. rewrite app_nil_r. repeat split; lia.
  - inversion Hf as [|? ? Hpi Hf']; subst. apply StronglySorted_inv in Hs. destruct Hs as [Hs Hi].
    destruct (IH i) as (E1 & E2 & E3); [lia|assumption|assumption|].
    rewrite app_assoc. unfold zslice. rewrite !norm_pos by lia. rewrite slice_concat by lia.
    split; [exact E1|]. destruct idx as [|x idx]; [simpl in *; split; [reflexivity|lia]|].
    change (last (i :: x :: idx) prev) with (last (x :: idx) prev).
    rewrite E2. rewrite (last_default (x :: idx) prev i) by discriminate. split; [reflexivity|lia].
Qed.

Lemma get_last_ok {A} (l : list A) d : l <> [] -> get_last l = Ok (last l d).
Proof.
  intros H. destruct (exists_last H) as (l' & x & ->). unfold get_last. rewrite rev_app_distr, last_last. reflexivity.
Qed.

Lemma split_at_main g idx : nondec_nat idx -> (exists i, In i idx /\ (i <> 0)%Z) ->
  exists parts, split_gtis_at_indices g idx = Ok parts /\ concat parts = g.
Proof.
  intros [Hpos Hs] (i & Hi & Hi0). unfold split_gtis_at_indices. destruct idx as [|i0 tl0]; [destruct Hi|].
  set (idx := if (i0 =? 0)%Z then tl0 else i0 :: tl0).
  assert (Hne : idx <> []).
  { unfold idx. destruct (i0 =? 0)%Z eqn:E; [|discriminate]. apply Z.eqb_eq in E. destruct Hi as [Hi|Hi]; [congruence|].
    intros ->. destruct Hi. }
  assert (Hp : Forall (fun i => 0 <= i)%Z idx).
  { unfold idx. destruct (i0 =? 0)%Z; [inversion Hpos; assumption|assumption]. }
  assert (Hss : StronglySorted Z.le idx).
  { unfold idx. destruct (i0 =? 0)%Z; [apply StronglySorted_inv in Hs; tauto|assumption]. }
  clearbody idx. destruct (split_loop_main g idx 0%Z) as (E1 & E2 & E3); [lia|assumption|assumption|].
  rewrite (get_last_ok idx 0%Z Hne). cbn [bind]. simpl in E1.
  destruct (negb (last idx 0 =? -1)%Z && (last idx 0 <=? Z.of_nat (length g) - 1)%Z) eqn:E; eexists; (split; [reflexivity|]).
  - rewrite concat_app. simpl. rewrite app_nil_r, E1. rewrite norm_pos by lia. apply firstn_skipn.
  - rewrite E1. apply firstn_all2. apply andb_false_iff in E. destruct E as [E|E].
    + apply negb_false_iff in E. apply Z.eqb_eq in E. lia.
    + apply Z.leb_gt in E. lia.
Qed.

Lemma forallb_flatten (p : Q -> bool) g : (forall a b, In (a, b) g -> p a = true /\ p b = true) -> forallb p (flatten g) = true.
Proof.
  intros H. apply forallb_forall. intros x Hx. unfold flatten in Hx. apply in_flat_map in Hx.
  destruct Hx as ([a b] & Hin & [<-|[<-|[]]]); apply (H a b Hin).
Qed.
Lemma outside_rejected g time d eps seg frac : time <> [] -> g <> [] -> increasing time ->
  ((forall a b t, In (a, b) g -> In t time -> t < a /\ t < b) \/ (forall a b t, In (a, b) g -> In t time -> a < t /\ b < t)) ->
  gti_border_bins g time d eps = Err ValueError /\ bin_intervals_from_gtis g seg time d frac eps = Err ValueError.
Proof.
  intros Nt Ng Hi H. assert (E : outside time g = Ok true).
  { unfold outside. destruct time as [|t0 time]; [congruence|]. destruct g as [|g0 g]; [congruence|]. f_equal.
    apply orb_true_iff. destruct H as [H|H]; [left|right]; apply forallb_flatten; intros a b Hin.
    - destruct (H a b (last (t0 :: time) t0) Hin) as [A B]; [apply last_In; discriminate|]. split; apply negb_true_iff;
        (destruct (Qle_bool _ _) eqn:Q; [apply Qle_bool_iff in Q; lra|reflexivity]).
    - destruct (H a b t0 Hin) as [A B]; [left; reflexivity|]. split; apply negb_true_iff;
        (destruct (Qle_bool _ _) eqn:Q; [apply Qle_bool_iff in Q; lra|reflexivity]). }
  unfold gti_border_bins, bin_intervals_from_gtis. rewrite E. split; reflexivity.
Qed.
