(* P_logbin.v: proofs about rebin_data_log. *)
From Verif Require Import Np Lib S_gti S_seg S_utils M_gti M_seg M_utils P_seg_regions P_seg_cut P_rebin P_rebin2 P_hist.
From Coq Require Import Lqa Sorted.
Open Scope Q_scope.

Lemma log_edges_main f maxx : 0 <= f -> forall fuel last dx more, 0 < dx -> log_edges fuel f maxx last dx = Ok more ->
  StronglySorted Qlt (last :: more) /\
  (forall b, nth_error more 0 = Some b -> b - last == dx * (1 + f)) /\
  growing f (last :: more) /\
  (forall u, nth_error (last :: more) (length more) = Some u -> maxx < u) /\
  (forall i u, (i < length more)%nat -> nth_error (last :: more) i = Some u -> u <= maxx).
Proof.
  intros Hf. induction fuel as [|fuel IH]; intros last dx more Hdx E; [discriminate|].
  cbn [log_edges] in E. destruct (qle last maxx) eqn:El; qb.
  - apply bind_ok in E. destruct E as (r & Er & E). injection E as <-.
    set (nxt := last + dx * (1 + f)) in *.
    assert (Hg : 0 < dx * (1 + f)) by (apply Qmult_lt_0_compat; lra).
    destruct (IH nxt (nxt - last) r) as (S1 & W & G & L & B); [unfold nxt; lra|assumption|].
    split; [|split; [|split; [|split] ] ].
    + constructor; [assumption|]. constructor; [unfold nxt; lra|].
      inversion S1 as [|? ? _ HF]; subst. rewrite Forall_forall in *. intros u Hu. specialize (HF u Hu). unfold nxt in *. lra.
    + intros b Hb. injection Hb as <-. unfold nxt. ring.
    + intros [|i] a b c Ha Hb Hc.
      * injection Ha as <-. injection Hb as <-. cbn [nth_error] in Hc. rewrite (W c Hc). reflexivity.
      * apply (G i); assumption.
    + intros u Hu. apply L. assumption.
    + intros [|i] u Hi Hu; [injection Hu as <-; assumption|]. apply (B i); [simpl in Hi; lia|assumption].
  - injection E as <-. split; [repeat constructor|]. split; [intros b Hb; discriminate|]. split; [intros [|i] a b c Ha Hb; [discriminate|destruct i; discriminate]|].
    split; [intros u Hu; injection Hu as <-; assumption|]. intros i u Hi. simpl in Hi. lia.
Qed.

Lemma log_edges_total f maxx : 0 <= f -> forall n last dx, 0 < dx -> maxx < last + inject_Z (Z.of_nat n) * dx ->
  exists more, log_edges (S n) f maxx last dx = Ok more.
Proof.
  intros Hf. induction n as [|n IH]; intros last dx Hdx H; cbn [log_edges]; destruct (qle last maxx) eqn:E; qb; try (eexists; reflexivity).
  - change (inject_Z (Z.of_nat 0)) with 0 in H. lra.
  - set (nxt := last + dx * (1 + f)).
    assert (Hg : 0 <= dx * f) by (apply Qmult_le_0_compat; lra).
    destruct (IH nxt (nxt - last)) as [more Em]; [unfold nxt; lra| |].
    + rewrite zof_S in H. assert (Hn := zof_0 n).
      assert (inject_Z (Z.of_nat n) * dx <= inject_Z (Z.of_nat n) * (nxt - last)).
      { rewrite (Qmult_comm _ dx), (Qmult_comm _ (nxt - last)). apply Qmult_le_compat_r; [unfold nxt; lra|assumption]. }
      unfold nxt in *. lra.
    + cbn [log_edges] in Em. rewrite Em. eexists. reflexivity.
Qed.

(* Negative f: the edges may converge below max(x). *)
Lemma log_edges_diverge fuel : forall last dx, 0 < dx -> last + dx <= 10 -> log_edges fuel (-(1 # 2)) 10 last dx = Err OutOfFuel.
Proof.
  induction fuel as [|fuel IH]; intros last dx Hdx H; [reflexivity|]. cbn [log_edges].
  replace (qle last 10) with true by (symmetry; apply qle_t; lra). rewrite IH; [reflexivity|lra|lra].
Qed.
Lemma rebin_log_diverges : exists x y f, increasing x /\ length y = length x /\ -(1) < f /\
  forall fuel, rebin_data_log fuel x y f None None = Err OutOfFuel.
Proof.
  exists [1; 2; 3; 4; 5; 6; 7; 8; 9; 10], [1; 1; 1; 1; 1; 1; 1; 1; 1; 1], (-(1 # 2)). split; [|split; [|split] ].
  - apply inc_ss. repeat constructor; reflexivity.
  - reflexivity.
  - reflexivity.
  - intros fuel. unfold rebin_data_log.
    replace (median (diffs [1; 2; 3; 4; 5; 6; 7; 8; 9; 10])) with (Some 1) by reflexivity. cbn [bind].
    cbn [length Nat.eqb negb map]. cbn [get nth_error bind get_last rev app].
    rewrite log_edges_diverge; [reflexivity|reflexivity|discriminate].
Qed.

(* ---------- the bin of a sample ---------- *)
Lemma stat_bin_some edges : forall v j, StronglySorted Qlt edges ->
  (forall u, nth_error edges (length edges - 1) = Some u -> v < u) ->
  (stat_bin edges v = Some j <-> in_cell edges j v = true).
Proof.
  induction edges as [|a edges IH]; intros v j Hs Hl.
  { split; [discriminate|]. unfold in_cell. destruct j; discriminate. }
  destruct edges as [|b r].
  { split; [discriminate|]. unfold in_cell. destruct j as [|[|j] ]; discriminate. }
  inversion Hs as [|? ? Hs' HF]; subst.
  assert (Hl' : forall u, nth_error (b :: r) (length (b :: r) - 1) = Some u -> v < u).
  { intros u Hu. apply Hl. simpl length in *. replace (S (S (length r)) - 1)%nat with (S (S (length r) - 1)) by lia. assumption. }
  specialize (IH v). 
  assert (Eb : (match r with [] => qeq v b | _ => false end) = false).
  { destruct r; [|reflexivity]. apply qeq_f. assert (v < b) by (apply Hl'; reflexivity). lra. }
  change (stat_bin (a :: b :: r) v) with (if (qle a v && (qlt v b || (match r with [] => qeq v b | _ => false end)))%bool then Some 0%nat
    else option_map S (stat_bin (b :: r) v)).
  rewrite Eb, orb_false_r.
  destruct j as [|j].
  - change (in_cell (a :: b :: r) 0 v) with (qle a v && qlt v b)%bool. destruct (qle a v && qlt v b)%bool; [tauto|].
    split; [|discriminate]. destruct (stat_bin (b :: r) v); discriminate.
  - change (in_cell (a :: b :: r) (S j) v) with (in_cell (b :: r) j v). rewrite <- (IH j Hs' Hl').
    destruct (qle a v && qlt v b)%bool eqn:E.
    + split; [discriminate|]. intros C. apply (IH j Hs' Hl') in C. unfold in_cell in C.
      destruct (nth_error (b :: r) j) as [u|] eqn:Eu; [|discriminate]. destruct (nth_error (b :: r) (S j)); [|discriminate].
      apply andb_true_iff in C. destruct C as [C _]. apply andb_true_iff in E. destruct E as [_ E]. qb.
      assert (b <= u).
      { destruct j as [|j]; [injection Eu as <-; lra|]. change (nth_error r j = Some u) in Eu. apply nth_error_In in Eu.
        inversion Hs' as [|? ? _ HF']; subst. rewrite Forall_forall in HF'. specialize (HF' u Eu). lra. }
      lra.
    + destruct (stat_bin (b :: r) v) as [j'|]; simpl; split; intros H; try discriminate; [injection H as ->; reflexivity|injection H as ->; reflexivity].
Qed.
Lemma in_cell_ex edges : forall v, StronglySorted Qlt edges ->
  (forall u, nth_error edges 0 = Some u -> u <= v) -> (forall u, nth_error edges (length edges - 1) = Some u -> v < u) -> (2 <= length edges)%nat ->
  exists j, (S j < length edges)%nat /\ in_cell edges j v = true.
Proof.
  induction edges as [|a edges IH]; intros v Hs H0 Hl HL; [simpl in HL; lia|].
  destruct edges as [|b r]; [simpl in HL; lia|].
  inversion Hs as [|? ? Hs' HF]; subst.
  destruct (qlt v b) eqn:E; qb.
  - exists 0%nat. split; [simpl; lia|]. unfold in_cell. simpl nth_error. apply andb_true_iff. rewrite qle_t, qlt_t. split; [apply H0; reflexivity|assumption].
  - destruct (IH v Hs') as (j & Hj & C).
    + intros u Hu. injection Hu as <-. assumption.
    + intros u Hu. apply Hl. simpl length in *. replace (S (S (length r)) - 1)%nat with (S (S (length r) - 1)) by lia. assumption.
    + destruct r; [|simpl; lia]. exfalso. assert (v < b) by (apply Hl; reflexivity). lra.
    + exists (S j). split; [simpl in *; lia|]. exact C.
Qed.

(* ---------- sums over bins ---------- *)
Lemma total_app l1 l2 : total (l1 ++ l2) == total l1 + total l2.
Proof. induction l1 as [|a l IH]; simpl; [ring|]. rewrite IH. ring. Qed.
Lemma total_map_ext {A} (f g : A -> Q) l : (forall a, In a l -> f a == g a) -> total (map f l) == total (map g l).
Proof.
  induction l as [|a l IH]; intros H; [reflexivity|]. simpl. rewrite (H a (or_introl eq_refl)), IH; [reflexivity|].
  intros b Hb. apply H. right. assumption.
Qed.
Lemma total_map_plus {A} (f g : A -> Q) l : total (map (fun a => f a + g a) l) == total (map f l) + total (map g l).
Proof. induction l as [|a l IH]; simpl; [ring|]. rewrite IH. ring. Qed.
Lemma total_zero {A} (l : list A) : total (map (fun _ => 0) l) == 0.
Proof. induction l as [|a l IH]; simpl; [reflexivity|]. rewrite IH. ring. Qed.
Lemma total_indicator n j w : forall s, (s <= j < s + n)%nat -> total (map (fun i => if Nat.eqb i j then w else 0) (seq s n)) == w.
Proof.
  induction n as [|n IH]; intros s H; [lia|]. simpl seq. cbn [map total]. destruct (Nat.eqb s j) eqn:E.
  - apply Nat.eqb_eq in E. subst s.
    assert (Z : total (map (fun i => if Nat.eqb i j then w else 0) (seq (S j) n)) == 0).
    { rewrite (total_map_ext _ (fun _ => 0)); [apply total_zero|]. intros i Hi. apply in_seq in Hi.
      replace (Nat.eqb i j) with false by (symmetry; apply Nat.eqb_neq; lia). reflexivity. }
    rewrite Z. ring.
  - apply Nat.eqb_neq in E. rewrite IH by lia. ring.
Qed.
Lemma content_sum_cells (edges : list Q) nb (xy : list (Q * Q)) :
  (forall v, In v (map fst xy) -> exists j, (j < nb)%nat /\ forall i, in_cell edges i v = Nat.eqb i j) ->
  total (map (fun i => content (in_cell edges i) xy) (seq 0 nb)) == total (map snd xy).
Proof.
  induction xy as [|[v w] xy IH]; intros H.
  - simpl. apply total_zero.
  - rewrite (total_map_ext _ (fun i => (if in_cell edges i v then w else 0) + content (in_cell edges i) xy)) by (intros; reflexivity).
    rewrite total_map_plus, IH by (intros u Hu; apply H; right; assumption). cbn [map snd total].
    destruct (H v (or_introl eq_refl)) as (j & Hj & P).
    rewrite (total_map_ext _ (fun i => if Nat.eqb i j then w else 0)) by (intros i _; rewrite P; reflexivity).
    rewrite total_indicator by lia. reflexivity.
Qed.
Lemma bin_values_content edges i xy : (forall v, In v (map fst xy) -> in_stat_bin edges i v = in_cell edges i v) ->
  total (bin_values edges i xy) == content (in_cell edges i) xy /\
  length (bin_values edges i xy) = count (in_cell edges i) (map fst xy).
Proof.
  unfold bin_values. induction xy as [|[v w] xy IH]; intros H; [split; reflexivity|].
  destruct IH as [I1 I2]; [intros u Hu; apply H; right; assumption|].
  cbn [filter fst map content count]. rewrite (H v (or_introl eq_refl)).
  destruct (in_cell edges i v); cbn [map snd total length plus]; split; auto.
  - rewrite I1. reflexivity.
  - rewrite I1. ring.
Qed.

Lemma nat_max_list l m : (forall a, In a l -> (a <= m)%nat) -> In m l -> fold_right Nat.max 0%nat l = m.
Proof.
  intros H Hin. apply Nat.le_antisymm.
  - clear Hin. induction l as [|a l IH]; simpl; [lia|]. apply Nat.max_lub; [apply H; left; reflexivity|].
    apply IH. intros b Hb. apply H. right. assumption.
  - clear H. induction l as [|a l IH]; [destruct Hin|]. simpl. destruct Hin as [ <- | Hin]; [lia|]. specialize (IH Hin). lia.
Qed.

(* in_cell as equality with the bin number *)
Lemma cell_unique edges v : StronglySorted Qlt edges ->
  (forall u, nth_error edges 0 = Some u -> u <= v) -> (forall u, nth_error edges (length edges - 1) = Some u -> v < u) -> (2 <= length edges)%nat ->
  exists j, (j < length edges - 1)%nat /\ stat_bin edges v = Some j /\ forall i, in_cell edges i v = Nat.eqb i j.
Proof.
  intros Hs H0 Hl HL. destruct (in_cell_ex edges v Hs H0 Hl HL) as (j & Hj & C). exists j. split; [lia|].
  assert (E := proj2 (stat_bin_some edges v j Hs Hl) C). split; [assumption|]. intros i. apply eq_true_iff_eq.
  rewrite Nat.eqb_eq. rewrite <- (stat_bin_some edges v i Hs Hl). rewrite E. split; congruence.
Qed.

Lemma rebin_log_main fuel x y f ye d x0 xl edges bx by_ be ns :
  0 <= f -> 0 < d -> nondecreasing x -> nth_error x 0 = Some x0 -> nth_error x (length x - 1) = Some xl -> 0 <= x0 ->
  rebin_data_log fuel x y f (Some ye) (Some d) = Ok (edges, (bx, by_, be, ns)) ->
  length y = length x /\ length ye = length x /\
  increasing edges /\ growing f edges /\
  nth_error edges 0 = Some (x0 * (1 # 2)) /\ (exists e, nth_error edges 1 = Some e /\ e - x0 * (1 # 2) == d) /\
  (forall u, nth_error edges (length edges - 1) = Some u -> xl < u) /\ (2 <= length edges)%nat /\
  (let nb := (length edges - 1)%nat in
   length bx = nb /\ length by_ = nb /\ length be = nb /\ length ns = nb /\
   (forall i n, nth_error ns i = Some n -> n = count (in_cell edges i) x) /\
   (forall i o, nth_error bx i = Some o -> let n := inject_Z (Z.of_nat (count (in_cell edges i) x)) in
      match o with None => n == 0 | Some m => m * n == content (in_cell edges i) (combine x x) /\ 0 < n end) /\
   (forall i o, nth_error by_ i = Some o -> let n := inject_Z (Z.of_nat (count (in_cell edges i) x)) in
      match o with None => n == 0 | Some m => m * n == content (in_cell edges i) (combine x y) /\ 0 < n end) /\
   (forall i o, nth_error be i = Some o -> let n := inject_Z (Z.of_nat (count (in_cell edges i) x)) in
      match o with None => n == 0
      | Some m => m * (n * n) == content (in_cell edges i) (combine x (map (fun v => v * v) ye)) /\ 0 < n end) /\
   fold_right Nat.add 0%nat ns = length x /\
   total (map (fun i => content (in_cell edges i) (combine x y)) (seq 0 nb)) == total y).
Proof.
  intros Hf Hd Hx H0 Hl Hx0 E. unfold rebin_data_log in E. cbn [bind] in E.
  destruct (Nat.eqb (length x) (length y)) eqn:E1; [|discriminate]. apply Nat.eqb_eq in E1.
  destruct (Nat.eqb (length y) (length ye)) eqn:E2; [|discriminate]. apply Nat.eqb_eq in E2. cbn [negb] in E.
  unfold get in E. rewrite H0 in E. cbn [bind] in E. rewrite (get_last_nth _ _ Hl) in E. cbn [bind] in E.
  apply bind_ok in E. destruct E as (more & Em & E).
  set (minx := x0 * (1 # 2)) in *. set (e1 := minx + d) in *.
  assert (Eed : edges = minx :: e1 :: more) by (injection E; auto).
  rewrite <- Eed in E.
  destruct (log_edges_main f xl Hf fuel e1 d more Hd Em) as (S1 & W & G & L & B).
  assert (Hmin : minx <= x0) by (unfold minx; lra).
  assert (Hxl : x0 <= xl).
  { assert (Hlx : (0 < length x)%nat) by (destruct x; [discriminate|simpl; lia]).
    destruct (Nat.eq_dec (length x - 1) 0) as [e|e]; [rewrite e in Hl; assert (x0 = xl) by congruence; subst; lra|].
    apply (Hx 0%nat (length x - 1)%nat); [lia|assumption|assumption]. }
  assert (Hs : StronglySorted Qlt edges).
  { rewrite Eed. constructor; [assumption|]. inversion S1 as [|? ? _ HF]; subst. rewrite Forall_forall in *.
    intros u [ <- | Hu]; [unfold e1; lra|]. specialize (HF u Hu). unfold e1 in *. lra. }
  assert (HL2 : (2 <= length edges)%nat) by (rewrite Eed; simpl; lia).
  assert (Hlast : forall u, nth_error edges (length edges - 1) = Some u -> xl < u).
  { intros u Hu. apply L. rewrite Eed in Hu. simpl length in Hu. replace (S (S (length more)) - 1)%nat with (S (length more)) in Hu by lia. assumption. }
  assert (Hxin : forall v, In v x -> x0 <= v /\ v <= xl).
  { intros v Hv. apply In_nth_error in Hv. destruct Hv as [i Hi].
    assert (Hlen : (i < length x)%nat) by (apply nth_error_Some; congruence). split.
    - destruct (Nat.eq_dec i 0) as [e|e]; [rewrite e in Hi; assert (x0 = v) by congruence; subst; lra|].
      apply (Hx 0%nat i); [lia|assumption|assumption].
    - destruct (Nat.eq_dec i (length x - 1)) as [e|e]; [rewrite e in Hi; assert (xl = v) by congruence; subst; lra|].
      apply (Hx i (length x - 1)%nat); [lia|assumption|assumption]. }
  assert (Hcell : forall v, In v x -> exists j, (j < length edges - 1)%nat /\ stat_bin edges v = Some j /\ forall i, in_cell edges i v = Nat.eqb i j).
  { intros v Hv. destruct (Hxin v Hv) as [V1 V2]. apply cell_unique; try assumption.
    - intros u Hu. rewrite Eed in Hu. injection Hu as <-. lra.
    - intros u Hu. specialize (Hlast u Hu). lra. }
  assert (Hstat : forall v i, In v x -> in_stat_bin edges i v = in_cell edges i v).
  { intros v i Hv. destruct (Hcell v Hv) as (j & _ & Ej & P). unfold in_stat_bin. rewrite Ej, P. reflexivity. }
  set (nb := (length edges - 1)%nat) in *.
  set (binno := map (fun v => match stat_bin edges v with Some j => S j | None => 0%nat end) x) in *.
  assert (Hnmax : fold_right Nat.max 0%nat binno = nb).
  { apply nat_max_list.
    - intros a Ha. unfold binno in Ha. apply in_map_iff in Ha. destruct Ha as (v & <- & Hv).
      destruct (Hcell v Hv) as (j & Hj & -> & _). lia.
    - unfold binno. apply in_map_iff. exists xl. assert (Hin : In xl x) by (apply nth_error_In in Hl; assumption). split; [|assumption].
      destruct (Hcell xl Hin) as (j & Hj & Ej & P). rewrite Ej.
      assert (C : in_cell edges (nb - 1) xl = true).
      { unfold in_cell. assert (Hnb : (1 <= nb)%nat) by (unfold nb; lia).
        destruct (nth_error_ex edges (nb - 1)) as [u Eu]; [lia|]. replace (S (nb - 1)) with nb by lia.
        destruct (nth_error_ex edges nb) as [w Ew]; [lia|]. rewrite Eu, Ew. apply andb_true_iff. rewrite qle_t, qlt_t.
        split; [|apply Hlast; assumption].
        rewrite Eed in Eu. unfold nb in Eu. rewrite Eed in Eu. simpl length in Eu. destruct more as [|m0 more'].
        - injection Eu as <-. lra.
        - cbn [length] in Eu. replace (S (S (S (length more'))) - 1 - 1)%nat with (S (length more')) in Eu by lia.
          apply (B (length more')); [simpl; lia|assumption]. }
      rewrite P in C. apply Nat.eqb_eq in C. lia. }
  rewrite Hnmax in E.
  assert (Einj : forall A B C D F (a a' : A) (b b' : B) (c c' : C) (g g' : D) (h h' : F),
     (a, (b, c, g, h)) = (a', (b', c', g', h')) -> b' = b /\ c' = c /\ g' = g /\ h' = h) by (intros; intuition congruence).
  assert (Eok : forall A (u v : A), Ok u = Ok v -> u = v) by congruence.
  apply Eok in E. apply Einj in E. destruct E as (-> & -> & -> & ->). clear Einj Eok.
  assert (Hnth : forall A (g : nat -> A) i o, nth_error (map g (seq 0 nb)) i = Some o -> o = g i /\ (i < nb)%nat).
  { intros A g i o Ho. assert (Hi : (i < nb)%nat).
    { assert (i < length (map g (seq 0 nb)))%nat by (apply nth_error_Some; congruence). rewrite map_length, seq_length in H. assumption. }
    rewrite nth_error_map, (nth_error_nth' _ 0%nat) in Ho by (rewrite seq_length; assumption). rewrite seq_nth in Ho by assumption.
    simpl in Ho. split; [congruence|assumption]. }
  assert (Hmean : forall z i o, length z = length x -> o = stat_mean (bin_values edges i (combine x z)) ->
     let n := inject_Z (Z.of_nat (count (in_cell edges i) x)) in
     match o with None => n == 0 | Some m => m * n == content (in_cell edges i) (combine x z) /\ 0 < n end).
  { intros z i o Hz -> n.
    assert (Hfst : map fst (combine x z) = x).
    { clear - Hz. revert z Hz. induction x as [|a x IH]; intros [|b z] Hz; try discriminate; [reflexivity|]. simpl. rewrite IH by (simpl in Hz; lia). reflexivity. }
    destruct (bin_values_content edges i (combine x z)) as [T C]; [rewrite Hfst; intros v Hv; apply Hstat; assumption|].
    rewrite Hfst in C. unfold stat_mean. destruct (bin_values edges i (combine x z)) as [|b0 bv] eqn:Eb.
    - unfold n. rewrite <- C. reflexivity.
    - assert (Hn : 0 < n) by (unfold n; rewrite <- C; apply bins_pos; simpl; lia).
      split; [|assumption]. rewrite <- T. unfold mean. rewrite C. fold n. rewrite <- (total_qsum (b0 :: bv)). field. lra. }
  split; [congruence|]. split; [congruence|]. split; [apply inc_ss; assumption|].
  split.
  { rewrite Eed. intros [|i] a b c Ha Hb Hc.
    - injection Ha as <-. injection Hb as <-. cbn [nth_error] in Hc. rewrite (W c Hc). unfold e1. ring.
    - apply (G i); assumption. }
  split; [rewrite Eed; reflexivity|]. split; [exists e1; rewrite Eed; split; [reflexivity|unfold e1; ring]|].
  split; [assumption|]. split; [assumption|].
  cbv zeta. rewrite !map_length, !seq_length. split; [reflexivity|]. split; [reflexivity|]. split; [reflexivity|]. split; [reflexivity|].
  assert (Hcount : forall i, length (filter (Nat.eqb (S i)) binno) = count (in_cell edges i) x).
  { intros i. unfold binno. rewrite filter_count. clear - Hcell. induction x as [|v x IH]; [reflexivity|]. cbn [map count].
    rewrite IH by (intros u Hu; apply Hcell; right; assumption).
    destruct (Hcell v (or_introl eq_refl)) as (j & Hj & -> & P). rewrite P. reflexivity. }
  assert (Hns : forall i, (i < nb)%nat -> nth_error (map (fun i => length (filter (Nat.eqb i) binno)) (seq 1 nb)) i = Some (count (in_cell edges i) x)).
  { intros i Hi. rewrite nth_error_map, (nth_error_nth' _ 0%nat) by (rewrite seq_length; assumption). rewrite seq_nth by assumption.
    cbn [option_map]. change (1 + i)%nat with (S i). rewrite Hcount. reflexivity. }
  split; [|split; [|split; [|split; [|split] ] ] ].
  - intros i n Hi. assert (Hlt : (i < nb)%nat).
    { assert (i < length (map (fun i => length (filter (Nat.eqb i) binno)) (seq 1 nb)))%nat by (apply nth_error_Some; congruence).
      rewrite map_length, seq_length in H. assumption. }
    rewrite Hns in Hi by assumption. congruence.
  - intros i o Ho. apply Hnth in Ho. destruct Ho as [Ho _]. apply Hmean; [reflexivity|assumption].
  - intros i o Ho. apply Hnth in Ho. destruct Ho as [Ho _]. apply Hmean; [congruence|assumption].
  - intros i o Ho. apply Hnth in Ho. destruct Ho as [Ho _]. cbv zeta. rewrite Ho.
    assert (Hz : length ye = length x) by congruence.
    assert (Hfst : forall z : list Q, length z = length x -> map fst (combine x z) = x).
    { clear. intros z. revert z. induction x as [|a x IH]; intros [|b z] Hz; try discriminate; [reflexivity|]. simpl. rewrite IH by (simpl in Hz; lia). reflexivity. }
    destruct (bin_values_content edges i (combine x (map (fun v => v * v) ye))) as [T C];
      [rewrite Hfst by (rewrite map_length; assumption); intros v Hv; apply Hstat; assumption|].
    rewrite Hfst in C by (rewrite map_length; assumption).
    assert (Emap : bin_values edges i (combine x (map (fun v => v * v) ye)) = map (fun v => v * v) (bin_values edges i (combine x ye))).
    { unfold bin_values. clear. revert ye. induction x as [|a x IH]; intros [|b ye]; try reflexivity. cbn [combine map filter fst].
      destruct (in_stat_bin edges i a); cbn [map snd]; rewrite IH; reflexivity. }
    rewrite Emap in T, C. rewrite map_length in C. unfold root_squared_mean2. destruct (bin_values edges i (combine x ye)) as [|b0 bv] eqn:Eb.
    + rewrite <- C. reflexivity.
    + assert (Hn : 0 < inject_Z (Z.of_nat (count (in_cell edges i) x))) by (rewrite <- C; apply bins_pos; simpl; lia).
      split; [|assumption]. cbv zeta. rewrite <- T, C. rewrite <- (total_qsum (map (fun v => v * v) (b0 :: bv))). field. lra.
  - assert (Hsum : inject_Z (Z.of_nat (fold_right Nat.add 0%nat (map (fun i => length (filter (Nat.eqb i) binno)) (seq 1 nb)))) == inject_Z (Z.of_nat (length x))).
    { assert (A1 : forall l : list nat, inject_Z (Z.of_nat (fold_right Nat.add 0%nat l)) == total (map (fun n => inject_Z (Z.of_nat n)) l)).
      { induction l as [|a l IH]; [reflexivity|]. cbn [fold_right map total]. rewrite Nat2Z.inj_add, inject_Z_plus, IH. reflexivity. }
      rewrite A1, map_map.
      rewrite <- seq_shift, map_map.
      rewrite (total_map_ext _ (fun i => content (in_cell edges i) (combine x (map (fun _ => 1) x)))).
      - rewrite content_sum_cells.
        + assert (A2 : map snd (combine x (map (fun _ : Q => 1) x)) = map (fun _ => 1) x).
          { clear. induction x as [|a x IH]; [reflexivity|]. simpl. rewrite IH. reflexivity. }
          rewrite A2, total_qsum, qsum_ones. reflexivity.
        + assert (A2 : map fst (combine x (map (fun _ : Q => 1) x)) = x).
          { clear. induction x as [|a x IH]; [reflexivity|]. simpl. rewrite IH. reflexivity. }
          rewrite A2. intros v Hv. destruct (Hcell v Hv) as (j & Hj & _ & P). exists j. split; assumption.
      - intros i _. rewrite Hcount. rewrite <- content_count.
        replace (combine x (map (fun _ : Q => 1) x)) with (map (fun a : Q => (a, 1)) x); [reflexivity|].
        clear. induction x as [|a x IH]; [reflexivity|]. simpl. rewrite IH. reflexivity. }
    rewrite inject_Z_injective in Hsum. lia.
  - rewrite content_sum_cells.
    + assert (A2 : forall z : list Q, length z = length x -> map snd (combine x z) = z).
      { clear. induction x as [|a x IH]; intros [|b z] Hz; try discriminate; [reflexivity|]. simpl. rewrite IH by (simpl in Hz; lia). reflexivity. }
      rewrite A2 by congruence. reflexivity.
    + assert (A2 : forall z : list Q, length z = length x -> map fst (combine x z) = x).
      { clear. induction x as [|a x IH]; intros [|b z] Hz; try discriminate; [reflexivity|]. simpl. rewrite IH by (simpl in Hz; lia). reflexivity. }
      rewrite A2 by congruence. intros v Hv. destruct (Hcell v Hv) as (j & Hj & _ & P). exists j. split; assumption.
Qed.

Lemma rebin_log_total x y f ye d x0 xl : 0 <= f -> 0 < d -> nth_error x 0 = Some x0 -> nth_error x (length x - 1) = Some xl ->
  length y = length x -> length ye = length x -> exists fuel out, rebin_data_log fuel x y f (Some ye) (Some d) = Ok out.
Proof.
  intros Hf Hd H0 Hl Ly Lye.
  set (minx := x0 * (1 # 2)). set (n := Z.to_nat (Qceiling ((xl - minx) / d) + 1)).
  destruct (log_edges_total f xl Hf n (minx + d) d Hd) as [more Em].
  { assert (C := Qle_ceiling ((xl - minx) / d)). set (c := Qceiling ((xl - minx) / d)) in *.
    assert (inject_Z (c + 1) <= inject_Z (Z.of_nat n)) by (rewrite <- Zle_Qle; unfold n; lia).
    rewrite inject_Z_plus in H. assert (E : (xl - minx) / d * d == xl - minx) by (apply qdiv_mul; assumption).
    assert ((xl - minx) / d * d <= inject_Z (Z.of_nat n) * d) by (apply Qmult_le_compat_r; [change (inject_Z 1) with 1 in H; lra|lra]). lra. }
  exists (S n). unfold rebin_data_log. cbn [bind]. rewrite Ly, Nat.eqb_refl, Lye, Nat.eqb_refl. cbn [negb].
  unfold get. rewrite H0. cbn [bind]. rewrite (get_last_nth _ _ Hl). cbn [bind]. fold minx. rewrite Em. cbn [bind]. eexists. reflexivity.
Qed.
Lemma rebin_log_negative : exists x y edges bx by_ be ns, increasing x /\ length y = length x /\
  rebin_data_log 10 x y 0 None (Some 1) = Ok (edges, (bx, by_, be, ns)) /\ (fold_right Nat.add 0 ns < length x)%nat.
Proof.
  exists [-(4); -(3); -(2); -(1)], [1; 1; 1; 1]. do 5 eexists. split; [|split; [|split] ].
  - apply inc_ss. repeat constructor; reflexivity.
  - reflexivity.
  - vm_compute. reflexivity.
  - simpl. lia.
Qed.
