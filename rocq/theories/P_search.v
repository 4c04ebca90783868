(* P_search.v: proofs about the pulsation searches: the grid and the windows. *)
From Coq Require Import Reals Qreals.
From Verif Require Import Np Lib S_lc S_fold M_gti M_utils M_lc M_seg M_fold P_fold P_fold2 Cplx S_fourier S_zn M_zn P_zn P_helpers P_filters M_search S_search S_search2.
From Coq Require Import List Bool Arith Permutation Lia.
Import ListNotations.
Open Scope Q_scope.

Definition table (freqs fdots : list Q) (h : Q -> Q -> option R) : list (list ((Q * Q) * option R)) :=
  map (fun fd => map (fun f => ((f, fd), h f fd)) freqs) fdots.

Lemma map_result_map {A B C} (g : A -> B) (f : B -> result C) (h : A -> C) l : (forall a, In a l -> f (g a) = Ok (h a)) -> map_result f (map g l) = Ok (map h l).
Proof.
  induction l as [|a l IH]; intros H; [reflexivity|]. cbn. rewrite (H a) by now left. cbn [bind]. rewrite IH by (intros; apply H; now right). reflexivity.
Qed.
Lemma add_segment_table stat g freqs fdots h : (forall f fd, In f freqs -> In fd fdots -> stat f fd = Ok (g f fd)) ->
  add_segment stat (table freqs fdots h) = Ok (table freqs fdots (fun f fd => oadd (h f fd) (g f fd))).
Proof.
  intros H. unfold add_segment, table. apply map_result_map. intros fd Hfd. apply map_result_map. intros f Hf. cbn. rewrite (H f fd Hf Hfd). reflexivity.
Qed.
Lemma add_segments_table {A} (stat : A -> Q -> Q -> result (option R)) g freqs fdots segs : forall h,
  (forall s f fd, In s segs -> In f freqs -> In fd fdots -> stat s f fd = Ok (g s f fd)) ->
  add_segments stat segs (table freqs fdots h) = Ok (table freqs fdots (fun f fd => fold_left (fun a s => oadd a (g s f fd)) segs (h f fd))).
Proof.
  induction segs as [|s segs IH]; intros h H; [reflexivity|]. cbn [add_segments]. rewrite (add_segment_table (stat s) (g s)) by (intros; apply H; [now left|assumption|assumption]).
  cbn [bind]. rewrite IH by (intros; apply H; [now right|assumption|assumption]). reflexivity.
Qed.
Lemma fold_oadd {A} (g : A -> R) segs : forall a, fold_left (fun a s => oadd a (Some (g s))) segs (Some a) = Some (a + rlsum (map g segs))%R.
Proof.
  induction segs as [|s segs IH]; intros a; cbn [fold_left map]; [f_equal; cbn; ring|]. cbn [oadd]. rewrite IH. f_equal. cbn [rlsum fold_right]. unfold rlsum. cbn [fold_right]. ring.
Qed.

(* masks and pairs *)
Lemma select_pairs {A B} (p : A -> bool) : forall (ts : list A) (w : list B), length w = length ts ->
  select (map p ts) ts = map fst (filter (fun e => p (fst e)) (combine ts w)) /\ select (map p ts) w = map snd (filter (fun e => p (fst e)) (combine ts w)).
Proof.
  induction ts as [|t ts IH]; intros [|x w] L; try discriminate; [split; reflexivity|]. injection L as L. destruct (IH w L) as [E1 E2].
  unfold select in *. cbn. destruct (p t); cbn; rewrite ?E1, ?E2; split; congruence.
Qed.
Lemma filter_map_comm {A B} (f : A -> B) (p : B -> bool) l : filter p (map f l) = map f (filter (fun x => p (f x)) l).
Proof. induction l as [|a l IH]; [reflexivity|]. cbn. rewrite IH. destruct (p (f a)); reflexivity. Qed.
Lemma map_filter_ext {A B} (f : A -> B) (p q : A -> bool) l : (forall a, In a l -> p a = q a) -> map f (filter p l) = map f (filter q l).
Proof. intros H. f_equal. apply filter_ext_in. exact H. Qed.

Lemma covers_unique n m len span : covers n len span -> covers m len span -> n = m.
Proof.
  intros Hn Hm. destruct (Nat.lt_trichotomy n m) as [H|[H|H]]; [|exact H|]; exfalso.
  - assert (C := proj1 (Hm n) H). apply Hn in C. lia.
  - assert (C := proj1 (Hn m) H). apply Hm in C. lia.
Qed.

(* the masks: one for each window used, given by a test on the time *)
Lemma masks_exact times size t0 tl : get times 0 = Ok t0 -> get_last times = Ok tl -> t0 < tl ->
  (match size with Some s => 0 < s | None => True end) ->
  exists n ks, covers n (window_length size (tl - t0)) (tl - t0) /\
    let len := window_length size (tl - t0) in
    let ts := map (fun t => t - t0) times in
    let inw := fun k t => (qle (inject_Z (Z.of_nat k) * len) t && qlt t ((inject_Z (Z.of_nat k) + 1) * len))%bool in
    search_masks times size = Ok (ts, map (fun k => map (inw k) ts) ks) /\
    (forall w, length w = length times -> windows len n (events_of t0 times w) = map (fun k => window len k (events_of t0 times w)) ks) /\
    (forall k, In k ks -> (2 <= length (filter (inw k) ts))%nat).
Proof.
  intros G0 Gl Hlt Hs. set (len := window_length size (tl - t0)). set (ts := map (fun t => t - t0) times).
  set (inw := fun k t => (qle (inject_Z (Z.of_nat k) * len) t && qlt t ((inject_Z (Z.of_nat k) + 1) * len))%bool).
  assert (HL : 0 < len) by (unfold len, window_length, qmin; destruct size as [s|]; [destruct (qle s (tl - t0)); lra|lra]).
  exists (arange_len (t0 - t0) (tl - t0) len), (filter (fun k => spans_fifth len (filter (inw k) ts)) (seq 0 (arange_len (t0 - t0) (tl - t0) len))).
  split; [|split; [|split]].
  - intros k. unfold arange_len. set (x := ((tl - t0) - (t0 - t0)) / len).
    assert (X : x * len == tl - t0) by (unfold x; field; lra).
    assert (P : 0 < x) by (apply Qmult_lt_r with len; [exact HL|]; rewrite X; lra).
    assert (C : (0 <= Qceiling x)%Z).
    { apply Z.lt_le_incl. rewrite Zlt_Qlt. apply Qlt_le_trans with x; [exact P|apply Qle_ceiling]. }
    split; intros H.
    + assert (K : (Z.of_nat k < Qceiling x)%Z) by lia.
      assert (K2 : inject_Z (Z.of_nat k) < x).
      { destruct (Qlt_le_dec (inject_Z (Z.of_nat k)) x) as [|D]; [assumption|exfalso]. apply Qceiling_resp_le in D. rewrite Qceiling_Z in D. lia. }
      rewrite <- X. apply Qmult_lt_r; assumption.
    + rewrite <- X in H. apply Qmult_lt_r in H; [|exact HL]. assert (D : inject_Z (Z.of_nat k) < inject_Z (Qceiling x)) by (apply Qlt_le_trans with x; [exact H|apply Qle_ceiling]).
      rewrite <- Zlt_Qlt in D. lia.
  - cbn zeta. unfold search_masks. rewrite G0. cbn [bind]. fold ts. assert (Gl' : get_last ts = Ok (tl - t0)).
    { unfold ts, get_last in *. rewrite <- map_rev. destruct (rev times); [discriminate|]. injection Gl as ->. reflexivity. }
    rewrite Gl'. cbn [bind]. assert (G0' : get ts 0 = Ok (t0 - t0)) by (unfold ts, get in *; destruct times; [discriminate|]; cbn in *; injection G0 as ->; reflexivity).
    rewrite G0'. cbn [bind].
    replace (match size with Some s => if qlt (tl - t0) s then tl - t0 else s | None => tl - t0 end) with len.
    2:{ unfold len, window_length. destruct size as [s|]; [|reflexivity]. unfold qmin. destruct (qle s (tl - t0)) eqn:E1, (qlt (tl - t0) s) eqn:E2; qb; try reflexivity; exfalso; lra. }
    destruct (qeq len 0) eqn:Z0; [qb; lra|]. f_equal. f_equal. unfold arange. rewrite map_map, !filter_map_comm.
    assert (M : forall k, map (fun t => (qle (t0 - t0 + inject_Z (Z.of_nat k) * len) t && qlt t (t0 - t0 + inject_Z (Z.of_nat k) * len + len))%bool) ts = map (inw k) ts).
    { intros k. apply map_ext. intros t. unfold inw. f_equal.
      - destruct (qle (t0 - t0 + inject_Z (Z.of_nat k) * len) t) eqn:E; symmetry; [apply qle_t|apply qle_f]; qb; lra.
      - destruct (qlt t (t0 - t0 + inject_Z (Z.of_nat k) * len + len)) eqn:E; symmetry; [apply qlt_t|apply qlt_f]; qb; lra. }
    rewrite (map_ext _ (fun k => map (inw k) ts)) by exact M. f_equal. apply filter_ext_in. intros k _. rewrite M.
    replace (select (map (inw k) ts) ts) with (filter (inw k) ts).
    2:{ destruct (select_pairs (inw k) ts ts eq_refl) as [E _]. rewrite E. clear. induction ts as [|a l IH]; [reflexivity|]. cbn. destruct (inw k a); cbn; rewrite IH; reflexivity. }
    unfold spans_fifth. destruct (filter (inw k) ts) as [|a l]; [reflexivity|].
    destruct (qlt (last (a :: l) 0 - a) ((2 # 10) * len)) eqn:E; cbn [negb]; symmetry; [apply qle_f|apply qle_t]; qb; revert E; generalize (last (a :: l) 0); intros z E; setoid_replace (len / 5) with ((2 # 10) * len) by field; lra.
  - intros w L. unfold windows. rewrite filter_map_comm. f_equal. apply filter_ext_in. intros k _. f_equal. unfold window, events_of. fold ts.
    assert (L' : length w = length ts) by (unfold ts; rewrite map_length; exact L).
    transitivity (select (map (inw k) ts) ts); [symmetry; exact (proj1 (select_pairs (inw k) ts w L'))|].
    destruct (select_pairs (inw k) ts ts eq_refl) as [E _]. rewrite E. clear. induction ts as [|a l IH]; [reflexivity|]. cbn. destruct (inw k a); cbn; rewrite IH; reflexivity.
  - intros k Hk. change (2 <= length (filter (inw k) ts))%nat. apply filter_In in Hk. destruct Hk as [_ Hk]. unfold spans_fifth in Hk. destruct (filter (inw k) ts) as [|a [|b l]]; [discriminate| |cbn; lia].
    exfalso. qb. cbn in Hk. assert (F : len / 5 == (2 # 10) * len) by field. rewrite F in Hk. lra.
Qed.
