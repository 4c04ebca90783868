(* P_search6.v: proofs about the phaseogram. *)
From Coq Require Import Reals.
From Verif Require Import Np Lib S_lc S_fold M_gti M_utils M_lc M_seg M_fold P_fold P_fold2 P_helpers M_search S_search S_search2 P_search2 P_search5.
From Coq Require Import List Bool Arith Permutation Lia.
Import ListNotations.
Open Scope Q_scope.

(* bins as positions *)
Definition bin_test_at (e : nat -> Q) (n i : nat) (v : Q) : bool := (qle (e i) v && if Nat.eqb (S i) n then qle v (e (S i)) else qlt v (e (S i)))%bool.
Lemma bin_tests_seq (e : nat -> Q) n : forall m k, (k + m = n)%nat -> bin_tests (map e (seq k (m + 1))) = map (bin_test_at e n) (seq k m).
Proof.
  induction m as [|m IH]; intros k H; [reflexivity|]. cbn [Nat.add seq map]. destruct m as [|m].
  - cbn [Nat.add seq map bin_tests]. unfold bin_test_at. replace (Nat.eqb (S k) n) with true by (symmetry; apply Nat.eqb_eq; lia). reflexivity.
  - specialize (IH (S k) ltac:(lia)). cbn [Nat.add seq map] in *. cbn [bin_tests] in *. rewrite IH. f_equal. unfold bin_test_at. replace (Nat.eqb (S k) n) with false by (symmetry; apply Nat.eqb_neq; lia).
    replace (m + 1)%nat with (S m) by lia. reflexivity.
Qed.
Definition lin (a b : Q) (n i : nat) : Q := a + inject_Z (Z.of_nat i) * ((b - a) / inject_Z (Z.of_nat n)).
Lemma tests_lin a b n : bin_tests (linspace a b n) = map (bin_test_at (lin a b n) n) (seq 0 n).
Proof. unfold linspace. exact (bin_tests_seq (lin a b n) n n 0 eq_refl). Qed.

(* phases *)
Lemma phase_test nph k x : (0 < nph)%nat -> 0 <= x < 2 -> (k < nph * 2)%nat ->
  bin_test_at (lin 0 2 (nph * 2)) (nph * 2) k x = (bin_of nph x =? Z.of_nat k)%Z.
Proof.
  intros Hn Hx Hk. set (N := inject_Z (Z.of_nat nph)). assert (PN : 0 < N) by (unfold N, Qlt; cbn; lia).
  assert (E : forall i, lin 0 2 (nph * 2) i == inject_Z (Z.of_nat i) / N).
  { intros i. unfold lin. rewrite Nat2Z.inj_mul, inject_Z_mult. change (inject_Z (Z.of_nat 2)) with 2. fold N. field. lra. }
  assert (F1 := Qfloor_le (x * N)). assert (F2 := Qlt_floor (x * N)). rewrite inject_Z_plus in F2. change (inject_Z 1) with 1 in F2. unfold bin_of. fold N.
  assert (S1 : inject_Z (Z.of_nat (S k)) == inject_Z (Z.of_nat k) + 1) by (rewrite Nat2Z.inj_succ, <- Z.add_1_r, inject_Z_plus; reflexivity).
  assert (Sc : forall y, y / N * N == y) by (intros y; field; lra).
  apply eq_true_iff_eq. unfold bin_test_at. rewrite andb_true_iff, Z.eqb_eq. split.
  - intros [A B]. qb. rewrite E in A. assert (B' : x < lin 0 2 (nph * 2) (S k)).
    { destruct (Nat.eqb_spec (S k) (nph * 2)); qb; [|exact B]. rewrite E, e, Nat2Z.inj_mul, inject_Z_mult. fold N. change (inject_Z (Z.of_nat 2)) with 2.
      setoid_replace (N * 2 / N) with 2 by (field; lra). lra. }
    rewrite E in B'. apply Qmult_le_compat_r with (z := N) in A; [|lra]. rewrite Sc in A. apply Qmult_lt_r with (z := N) in B'; [|exact PN]. rewrite Sc, S1 in B'.
    assert (C1 : inject_Z (Z.of_nat k) < inject_Z (Qfloor (x * N)) + 1) by lra. assert (C2 : inject_Z (Qfloor (x * N)) < inject_Z (Z.of_nat k) + 1) by lra.
    change 1 with (inject_Z 1) in C1, C2. rewrite <- inject_Z_plus, <- Zlt_Qlt in C1, C2. lia.
  - intros C. rewrite C in F1, F2. assert (A : lin 0 2 (nph * 2) k <= x) by (rewrite E; apply Qmult_lt_0_le_reg_r with N; [exact PN|]; rewrite Sc; exact F1).
    assert (B : x < lin 0 2 (nph * 2) (S k)) by (rewrite E; apply Qmult_lt_r with N; [exact PN|]; rewrite Sc, S1; exact F2).
    split; [apply qle_t; exact A|]. destruct (Nat.eqb (S k) (nph * 2)); [apply qle_t; lra|apply qlt_t; exact B].
Qed.
Lemma time_test lo hi n i t : (0 < n)%nat -> t <= hi -> bin_test_at (lin lo hi n) n i t = true <-> time_bin lo hi n i t.
Proof.
  intros Hn Ht. unfold bin_test_at, time_bin. fold (lin lo hi n i) (lin lo hi n (S i)).
  assert (Top : lin lo hi n n == hi) by (unfold lin; field; unfold Qeq; cbn; lia).
  change (lo + inject_Z (Z.of_nat i) * ((hi - lo) / inject_Z (Z.of_nat n))) with (lin lo hi n i). change (lo + inject_Z (Z.of_nat (S i)) * ((hi - lo) / inject_Z (Z.of_nat n))) with (lin lo hi n (S i)).
  rewrite andb_true_iff. destruct (Nat.eqb_spec (S i) n) as [E|E].
  - rewrite E, Top. split.
    + intros [A B]. qb. split; [exact A|]. destruct (Qlt_le_dec t hi); [now left|right; split; [reflexivity|lra]].
    + intros [A B]. split; [now apply qle_t|]. apply qle_t. lra.
  - split.
    + intros [A B]. qb. split; [exact A|now left].
    + intros [A [B|[B _]]]; [|contradiction]. split; [now apply qle_t|now apply qlt_t].
Qed.

Lemma ww_filter {A} (P : A -> Prop) (p : A -> bool) l : (forall a, In a (map fst l) -> p a = true <-> P a) -> exists v, weight_where P l v /\ v == sum_of (map snd (filter (fun x => p (fst x)) l)).
Proof.
  induction l as [|[a w] l IH]; intros H; [exists 0; split; [constructor|reflexivity]|]. destruct IH as (v & W & E); [intros x Hx; apply H; now right|].
  assert (Ha := H a (or_introl eq_refl)). cbn [filter fst]. destruct (p a) eqn:Ep; [|].
  - exists (w + v). split; [constructor; [now apply Ha|exact W]|]. cbn [map sum_of snd]. rewrite E. reflexivity.
  - exists v. split; [constructor; [|exact W]|exact E]. intros C. apply Ha in C. discriminate.
Qed.
Lemma sum_of_app l l' : sum_of (l ++ l') == sum_of l + sum_of l'.
Proof. induction l as [|a l IH]; cbn [app sum_of]; [lra|]. rewrite IH. lra. Qed.

(* what phaseogram does when its arguments are accepted *)
Lemma combine_app_eq {A B} (a a' : list A) (b b' : list B) : length a = length b -> combine (a ++ a') (b ++ b') = combine a b ++ combine a' b'.
Proof. revert b. induction a as [|x a IH]; intros [|y b] H; try discriminate; [reflexivity|]. cbn. f_equal. apply IH. now injection H. Qed.
Lemma combine_map2 {A B C} (f : A -> B) (g : A -> C) l : combine (map f l) (map g l) = map (fun a => (f a, g a)) l.
Proof. induction l as [|a l IH]; [reflexivity|]. cbn. now rewrite IH. Qed.

(* every value lies in one bin *)
Definition count_true {A} (tests : list (A -> bool)) (a : A) : nat := length (filter (fun t => t a) tests).
Lemma one_bin {A} (tests : list (A -> bool)) (w : A -> Q) pts : (forall p, In p pts -> count_true tests p = 1%nat) ->
  sum_of (map (fun t => sum_of (map w (filter t pts))) tests) == sum_of (map w pts).
Proof.
  induction pts as [|p pts IH]; intros H.
  - cbn [filter map sum_of]. clear. induction tests; cbn [map sum_of]; [reflexivity|lra].
  - cbn [map sum_of]. rewrite <- IH by (intros; apply H; now right). assert (C := H p (or_introl eq_refl)). clear H IH.
    assert (G : sum_of (map (fun t => sum_of (map w (filter t (p :: pts)))) tests) == inject_Z (Z.of_nat (count_true tests p)) * w p + sum_of (map (fun t => sum_of (map w (filter t pts))) tests)).
    { clear C. unfold count_true. induction tests as [|t tests IH]; [cbn; ring|]. cbn [map sum_of filter]. cbn [filter] in IH. rewrite IH. destruct (t p); cbn [map sum_of length].
      - rewrite Nat2Z.inj_succ, <- Z.add_1_r, inject_Z_plus. change (inject_Z 1) with 1. ring.
      - ring. }
    rewrite G, C. change (inject_Z (Z.of_nat 1)) with 1. ring.
Qed.
Lemma count_at e n v : forall m k, (k + m = n)%nat -> (forall i, (i < n)%nat -> e i <= e (S i)) -> v <= e n ->
  (v < e k -> count_true (map (bin_test_at e n) (seq k m)) v = 0%nat) /\ ((0 < m)%nat -> e k <= v -> count_true (map (bin_test_at e n) (seq k m)) v = 1%nat).
Proof.
  unfold count_true. induction m as [|m IH]; intros k H He Hv; [split; [reflexivity|lia]|]. cbn [seq map filter]. destruct (IH (S k) ltac:(lia) He Hv) as [I0 I1]. assert (E := He k ltac:(lia)). split.
  - intros C. unfold bin_test_at at 1. replace (qle (e k) v) with false by (symmetry; apply qle_f; lra). cbn [andb]. apply I0. lra.
  - intros _ C. unfold bin_test_at at 1. replace (qle (e k) v) with true by (symmetry; apply qle_t; lra). cbn [andb]. destruct (Nat.eqb_spec (S k) n) as [En|En].
    + replace m with 0%nat by lia. rewrite En. replace (qle v (e n)) with true by (symmetry; apply qle_t; lra). reflexivity.
    + destruct (qlt v (e (S k))) eqn:D; qb.
      * cbn [length]. f_equal. apply I0. exact D.
      * apply I1; [lia|exact D].
Qed.
Lemma lin_mono a b n i : (0 < n)%nat -> a <= b -> lin a b n i <= lin a b n (S i).
Proof.
  intros Hn H. unfold lin. assert (P : 0 <= (b - a) / inject_Z (Z.of_nat n)) by (apply Qle_shift_div_l; [unfold Qlt; cbn; lia|lra]).
  rewrite (Nat2Z.inj_succ i), <- Z.add_1_r, inject_Z_plus. change (inject_Z 1) with 1. set (d := (b - a) / inject_Z (Z.of_nat n)) in *. setoid_replace ((inject_Z (Z.of_nat i) + 1) * d) with (inject_Z (Z.of_nat i) * d + d) by ring. lra.
Qed.
Lemma count_lin a b n v : (0 < n)%nat -> a <= v <= b -> count_true (bin_tests (linspace a b n)) v = 1%nat.
Proof.
  intros Hn H. rewrite tests_lin. apply count_at; [reflexivity|intros; apply lin_mono; [exact Hn|lra]| |exact Hn|].
  - assert (T : lin a b n n == b) by (unfold lin; field; unfold Qeq; cbn; lia). rewrite T. lra.
  - assert (T : lin a b n 0 == a) by (unfold lin; change (inject_Z (Z.of_nat 0)) with 0; ring). rewrite T. lra.
Qed.
Lemma count_map {A B} (g : B -> A) tests b : count_true (map (fun (t : A -> bool) x => t (g x)) tests) b = count_true tests (g b).
Proof. unfold count_true. induction tests as [|t tests IH]; [reflexivity|]. cbn. destruct (t (g b)); cbn; rewrite IH; reflexivity. Qed.
Lemma filter_and {A} (p q : A -> bool) l : filter (fun x => (p x && q x)%bool) l = filter q (filter p l).
Proof. induction l as [|a l IH]; [reflexivity|]. cbn. destruct (p a); cbn; destruct (q a); cbn; rewrite ?IH; reflexivity. Qed.
Lemma hist_total xe ye pts : (forall p, In p pts -> count_true (bin_tests xe) (fst (fst p)) = 1%nat /\ count_true (bin_tests ye) (snd (fst p)) = 1%nat) ->
  sum_of (map sum_of (histogram2d xe ye pts)) == sum_of (map snd pts).
Proof.
  intros H. unfold histogram2d. rewrite map_map.
  rewrite <- (one_bin (map (fun (t : Q -> bool) p => t (fst (fst p))) (bin_tests xe)) snd pts).
  2:{ intros p Hp. rewrite (count_map (fun p : Q * Q * Q => fst (fst p))). now apply H. }
  rewrite map_map. apply sum_of_proper. assert (Hy := fun p Hp => proj2 (H p Hp)). clear H. induction (bin_tests xe) as [|bx l IH]; cbn [map]; constructor; [|exact IH].
  rewrite <- (one_bin (map (fun (t : Q -> bool) p => t (snd (fst p))) (bin_tests ye)) snd (filter (fun p => bx (fst (fst p))) pts)).
  2:{ intros p Hp. apply filter_In in Hp. rewrite (count_map (fun p : Q * Q * Q => snd (fst p))). now apply Hy. }
  clear Hy IH. rewrite map_map. apply sum_of_proper. induction (bin_tests ye) as [|by_ l' IH']; cbn [map]; constructor; [|exact IH']. rewrite <- sum_of_qsum, filter_and. reflexivity.
Qed.

Section Phaseogram.
Variables (times : list Q) (f fdot fddot ph0 : Q) (nph nt : nat) (mjdref pepoch : option Q) (weights : phweights) (t0 tl : Q).
Hypotheses (G0 : get times 0 = Ok t0) (Gl : get_last times = Ok tl) (Hph : (0 < nph)%nat) (Hnt : (0 < nt)%nat).
Hypothesis (HW : match weights with PNone => True | PScalar _ => False | PArray l => length l = length times end).
Let w := phase_weights times weights.
Let ep := epoch_used t0 tl mjdref pepoch.
Let ax := axis_of mjdref.
(* the phases as the model computes them *)
Let ph (t : Q) : Q := let p := add_terms 0 [f; fdot; fddot] (t - ep) ph0 in p - inject_Z (Qfloor p).

Lemma ph_frac t : ph t == frac (ph0 + turns [f; fdot; fddot] (t - ep)).
Proof. unfold ph. cbv zeta. change (frac (add_terms 0 [f; fdot; fddot] (t - ep) ph0) == frac (ph0 + turns [f; fdot; fddot] (t - ep))). apply frac_proper, add_terms_turns. Qed.
Lemma ph_range t : 0 <= ph t < 1.
Proof. destruct (frac_floor (add_terms 0 [f; fdot; fddot] (t - ep) ph0)) as (A & B & _). split; assumption. Qed.

Lemma phaseogram_run : exists lo hi, (forall t, In t times -> lo <= ax t <= hi) /\ (exists t, In t times /\ ax t = lo) /\ (exists t, In t times /\ ax t = hi) /\
  phaseogram times f fdot fddot nph nt ph0 mjdref pepoch weights =
  Ok (histogram2d (linspace 0 2 (nph * 2)) (linspace lo hi nt)
       (combine (map (fun t => (ph t, ax t)) times) w ++ combine (map (fun t => (ph t + 1, ax t)) times) w), linspace 0 2 (nph * 2), linspace lo hi nt).
Proof.
  unfold phaseogram. rewrite G0, Gl. cbn [bind].
  set (allts := times ++ times).
  assert (Ne : map ax allts <> []) by (unfold allts; destruct times; [discriminate|discriminate]).
  destruct (qmin_list_ok _ Ne) as (lo & Elo & Ilo & Hlo). destruct (qmax_list_ok _ Ne) as (hi & Ehi & Ihi & Hhi).
  assert (In2 : forall t, In t allts <-> In t times) by (intros t; unfold allts; rewrite in_app_iff; tauto).
  exists lo, hi. split; [|split; [|split]].
  - intros t Ht. split; [apply Hlo|apply Hhi]; apply in_map, In2, Ht.
  - apply in_map_iff in Ilo. destruct Ilo as (t & E & Ht). exists t. split; [now apply In2|exact E].
  - apply in_map_iff in Ihi. destruct Ihi as (t & E & Ht). exists t. split; [now apply In2|exact E].
  - assert (Ew : (match weights with
                  | PNone => Ok (map (fun _ => 1) allts)
                  | PScalar _ => Err ValueError
                  | PArray l => if Nat.eqb (length l) (length times) then Ok (l ++ l) else Err ValueError
                  end) = Ok (w ++ w)).
    { unfold w, phase_weights, allts. destruct weights as [|c|l]; [now rewrite map_app|contradiction|]. rewrite HW, Nat.eqb_refl. reflexivity. }
    rewrite Ew. cbn [bind].
    assert (Ea : (match mjdref with Some r => map (fun t => t / 86400 + r) allts | None => allts end) = map ax allts).
    { unfold ax, axis_of. destruct mjdref; [reflexivity|]. symmetry. apply map_id. }
    rewrite Ea, Elo, Ehi. cbn [bind]. do 3 f_equal. f_equal.
    assert (Lw : length w = length times) by (unfold w, phase_weights; destruct weights; [apply map_length|contradiction|exact HW]).
    replace (pulse_phase (map (fun t => t - _) times) [f; fdot; fddot] ph0 true) with (map ph times).
    2:{ unfold pulse_phase. rewrite map_map. apply map_ext. intros t. unfold ph, ep, epoch_used. destruct mjdref, pepoch; reflexivity. }
    rewrite map_map. unfold allts. rewrite map_app, (combine_app_eq (map ph times)) by (now rewrite !map_length).
    rewrite combine_app_eq by (rewrite combine_length, !map_length; lia). rewrite !combine_map2. reflexivity.
Qed.

Lemma hist_entry xe ye pts k i bx by_ : nth_error (bin_tests xe) k = Some bx -> nth_error (bin_tests ye) i = Some by_ ->
  nth i (nth k (histogram2d xe ye pts) []) 0 = qsum (map snd (filter (fun p => (bx (fst (fst p)) && by_ (snd (fst p)))%bool) pts)).
Proof.
  intros Hx Hy. unfold histogram2d. 
  assert (Ex := map_nth_error (fun bx => map (fun by_ => qsum (map snd (filter (fun p => (bx (fst (fst p)) && by_ (snd (fst p)))%bool) pts))) (bin_tests ye)) _ _ Hx).
  rewrite (nth_error_nth _ _ _ Ex). apply nth_error_nth. exact (map_nth_error (fun by_ => qsum (map snd (filter (fun p => (bx (fst (fst p)) && by_ (snd (fst p)))%bool) pts))) _ _ Hy).
Qed.
Lemma entry_sum k (q : Q -> bool) : (k < nph * 2)%nat -> forall ts ws, 
  let p1 := bin_test_at (lin 0 2 (nph * 2)) (nph * 2) k in
  sum_of (map snd (filter (fun p => (p1 (fst (fst p)) && q (snd (fst p)))%bool) (combine (map (fun t => (ph t, ax t)) ts) ws))) +
  sum_of (map snd (filter (fun p => (p1 (fst (fst p)) && q (snd (fst p)))%bool) (combine (map (fun t => (ph t + 1, ax t)) ts) ws))) ==
  sum_of (map snd (filter (fun p => ((bin_of nph (fst (fst p)) =? Z.of_nat (k mod nph))%Z && q (snd (fst p)))%bool) (phased_events ts ws [f; fdot; fddot] ep ph0 ax))).
Proof.
  intros Hk ts ws p1. unfold phased_events. revert ws. induction ts as [|t ts IH]; intros [|x ws]; cbn [map combine filter]; try (cbn [map sum_of]; lra).
  specialize (IH ws). cbn [fst snd]. unfold p1 in *. assert (R := ph_range t). rewrite !phase_test by (try assumption; lra).
  assert (B0 : bin_of nph (frac (ph0 + turns [f; fdot; fddot] (t - ep))) = bin_of nph (ph t)) by (apply bin_proper; symmetry; apply ph_frac). rewrite B0.
  assert (B1 : bin_of nph (ph t + 1) = (bin_of nph (ph t) + Z.of_nat nph)%Z).
  { unfold bin_of. set (N := inject_Z (Z.of_nat nph)). 
    assert (F1 := Qfloor_le (ph t * N)). assert (F2 := Qlt_floor (ph t * N)). assert (F3 := Qfloor_le ((ph t + 1) * N)). assert (F4 := Qlt_floor ((ph t + 1) * N)).
    rewrite inject_Z_plus in F2, F4. change (inject_Z 1) with 1 in F2, F4. set (a := Qfloor (ph t * N)) in *. set (b := Qfloor ((ph t + 1) * N)) in *.
    assert (X : (ph t + 1) * N == ph t * N + N) by ring. rewrite X in F3, F4.
    assert (C1 : inject_Z b < inject_Z a + N + 1) by lra. assert (C2 : inject_Z a + N < inject_Z b + 1) by lra.
    unfold N in C1, C2. change 1 with (inject_Z 1) in C1, C2. rewrite <- !inject_Z_plus, <- Zlt_Qlt in C1, C2. lia. }
  assert (Rb := bin_range nph (ph t) Hph R). rewrite B1.
  assert (M : (k mod nph = if Nat.ltb k nph then k else k - nph)%nat).
  { destruct (Nat.ltb_spec k nph); [now apply Nat.mod_small|]. symmetry. apply (Nat.mod_unique k nph 1); lia. }
  assert (D : ((bin_of nph (ph t) =? Z.of_nat (k mod nph)) = ((bin_of nph (ph t) =? Z.of_nat k) || (bin_of nph (ph t) + Z.of_nat nph =? Z.of_nat k)))%Z%bool).
  { rewrite M. destruct (Nat.ltb_spec k nph).
    - replace (bin_of nph (ph t) + Z.of_nat nph =? Z.of_nat k)%Z with false by (symmetry; apply Z.eqb_neq; lia). now rewrite orb_false_r.
    - replace (bin_of nph (ph t) =? Z.of_nat k)%Z with false by (symmetry; apply Z.eqb_neq; lia). cbn [orb]. apply eq_true_iff_eq. rewrite !Z.eqb_eq. lia. }
  rewrite D. destruct (Z.eqb_spec (bin_of nph (ph t)) (Z.of_nat k)) as [E1|E1], (Z.eqb_spec (bin_of nph (ph t) + Z.of_nat nph) (Z.of_nat k)) as [E2|E2]; try lia; cbn [orb andb]; destruct (q (ax t)); cbn [map sum_of snd]; lra.
Qed.

Lemma phaseogram_main : exists m lo hi, phaseogram times f fdot fddot nph nt ph0 mjdref pepoch weights = Ok (m, linspace 0 2 (nph * 2), linspace lo hi nt) /\
  (forall t, In t times -> lo <= ax t <= hi) /\ (exists t, In t times /\ ax t = lo) /\ (exists t, In t times /\ ax t = hi) /\
  length m = (nph * 2)%nat /\ (forall row, In row m -> length row = nt) /\
  forall k i, (k < nph * 2)%nat -> (i < nt)%nat -> exists v, nth i (nth k m []) 0 == v /\
    weight_where (fun e => bin_of nph (fst e) = Z.of_nat (k mod nph) /\ time_bin lo hi nt i (snd e)) (phased_events times w [f; fdot; fddot] ep ph0 ax) v.
Proof.
  destruct phaseogram_run as (lo & hi & Hr & Hl & Hh & E). eexists. exists lo, hi. split; [exact E|]. split; [exact Hr|]. split; [exact Hl|]. split; [exact Hh|].
  split; [unfold histogram2d; rewrite map_length, tests_lin, map_length, seq_length; reflexivity|]. split.
  - intros row Hrow. unfold histogram2d in Hrow. apply in_map_iff in Hrow. destruct Hrow as (b & <- & _). rewrite map_length, tests_lin, map_length, seq_length. reflexivity.
  - intros k i Hk Hi.
    destruct (ww_filter (fun e : Q * Q => bin_of nph (fst e) = Z.of_nat (k mod nph) /\ time_bin lo hi nt i (snd e))
                (fun e => ((bin_of nph (fst e) =? Z.of_nat (k mod nph))%Z && bin_test_at (lin lo hi nt) nt i (snd e))%bool)
                (phased_events times w [f; fdot; fddot] ep ph0 ax)) as (v & W & Ev).
    { intros [a t] Ha. cbn [fst snd]. rewrite andb_true_iff, Z.eqb_eq. rewrite time_test; [reflexivity|exact Hnt|].
      unfold phased_events in Ha. apply in_map_iff in Ha. destruct Ha as ([[a' t'] x] & Eq & Ha). cbn in Eq. injection Eq as -> ->. apply in_combine_l, in_map_iff in Ha. destruct Ha as (s & Es & Hs). injection Es as _ <-. now apply Hr. }
    exists v. split; [|exact W]. rewrite Ev. erewrite hist_entry.
    2:{ rewrite tests_lin. apply map_nth_error. rewrite (nth_error_nth' _ 0%nat) by (now rewrite seq_length). rewrite seq_nth by exact Hk. reflexivity. }
    2:{ rewrite tests_lin. apply map_nth_error. rewrite (nth_error_nth' _ 0%nat) by (now rewrite seq_length). rewrite seq_nth by exact Hi. reflexivity. }
    rewrite <- sum_of_qsum, filter_app, map_app, sum_of_app. cbn [Nat.add]. apply (entry_sum k (bin_test_at (lin lo hi nt) nt i) Hk times w).
Qed.
(* every event is counted twice *)
Lemma phaseogram_total : exists m xe ye, phaseogram times f fdot fddot nph nt ph0 mjdref pepoch weights = Ok (m, xe, ye) /\ sum_of (map sum_of m) == 2 * sum_of w.
Proof.
  destruct phaseogram_run as (lo & hi & Hr & _ & _ & E). eexists. eexists. eexists. split; [exact E|].
  assert (Lw : length w = length times) by (unfold w, phase_weights; destruct weights; [apply map_length|contradiction|exact HW]).
  rewrite hist_total.
  - rewrite map_app, sum_of_app. assert (S : forall (g : Q -> Q * Q), map snd (combine (map g times) w) = w).
    { intros g. clear -Lw. revert Lw. generalize w. induction times as [|t ts IH]; intros [|x ws] L; try discriminate; [reflexivity|]. cbn. f_equal. apply IH. now injection L. }
    rewrite !S. ring.
  - intros [[a t] x] Hp. cbn [fst snd]. apply in_app_or in Hp.
    destruct Hp as [Hp|Hp]; apply in_combine_l, in_map_iff in Hp; destruct Hp as (s & Es & Hs); injection Es as <- <-; assert (R := ph_range s);
      (split; apply count_lin; [lia|lra|exact Hnt|now apply Hr]).
Qed.
(* the two turns are the same *)
Lemma phaseogram_periodic : exists m xe ye, phaseogram times f fdot fddot nph nt ph0 mjdref pepoch weights = Ok (m, xe, ye) /\
  forall k i, (k < nph)%nat -> (i < nt)%nat -> nth i (nth (k + nph) m []) 0 == nth i (nth k m []) 0.
Proof.
  destruct phaseogram_run as (lo & hi & Hr & _ & _ & E). eexists. eexists. eexists. split; [exact E|]. intros k i Hk Hi.
  assert (En : forall k, (k < nph * 2)%nat -> nth i (nth k (histogram2d (linspace 0 2 (nph * 2)) (linspace lo hi nt)
       (combine (map (fun t => (ph t, ax t)) times) w ++ combine (map (fun t => (ph t + 1, ax t)) times) w)) []) 0 ==
       sum_of (map snd (filter (fun p => ((bin_of nph (fst (fst p)) =? Z.of_nat (k mod nph))%Z && bin_test_at (lin lo hi nt) nt i (snd (fst p)))%bool) (phased_events times w [f; fdot; fddot] ep ph0 ax)))).
  { intros k' Hk'. erewrite hist_entry.
    2:{ rewrite tests_lin. apply map_nth_error. rewrite (nth_error_nth' _ 0%nat) by (now rewrite seq_length). rewrite seq_nth by exact Hk'. reflexivity. }
    2:{ rewrite tests_lin. apply map_nth_error. rewrite (nth_error_nth' _ 0%nat) by (now rewrite seq_length). rewrite seq_nth by exact Hi. reflexivity. }
    rewrite <- sum_of_qsum, filter_app, map_app, sum_of_app. cbn [Nat.add]. apply (entry_sum k' (bin_test_at (lin lo hi nt) nt i) Hk' times w). }
  rewrite !En by lia. replace ((k + nph) mod nph)%nat with (k mod nph)%nat; [reflexivity|]. rewrite <- (Nat.mod_add k 1 nph) by lia. f_equal. lia.
Qed.
End Phaseogram.

Lemma phaseogram_length_error times f fdot fddot nph nt ph0 mjdref pepoch l : times <> [] -> length l <> length times ->
  phaseogram times f fdot fddot nph nt ph0 mjdref pepoch (PArray l) = Err ValueError.
Proof.
  intros Hne Hl. unfold phaseogram. destruct (get_last_ne times Hne) as (x & ->). destruct times as [|t ts]; [congruence|]. cbn [get nth_error bind].
  apply Nat.eqb_neq in Hl. rewrite Hl. reflexivity.
Qed.
Lemma phaseogram_scalar_error times f fdot fddot nph nt ph0 mjdref pepoch c : times <> [] ->
  phaseogram times f fdot fddot nph nt ph0 mjdref pepoch (PScalar c) = Err ValueError.
Proof. intros Hne. unfold phaseogram. destruct (get_last_ne times Hne) as (x & ->). destruct times as [|t ts]; [congruence|]. reflexivity. Qed.
Lemma phaseogram_empty_error f fdot fddot nph nt ph0 mjdref pepoch w : phaseogram [] f fdot fddot nph nt ph0 mjdref pepoch w = Err IndexError.
Proof. reflexivity. Qed.
(* with mjdref and no pepoch the reference is not the middle of the observation *)
Lemma phaseogram_epoch_refuted : exists times f fdot nph nt r m m' xe ye,
  phaseogram times f fdot 0 nph nt 0 (Some r) None PNone = Ok (m, xe, ye) /\
  phaseogram times f fdot 0 nph nt 0 (Some r) (Some ((nth 0 times 0 + last times 0) / 2 / 86400 + r)) PNone = Ok (m', xe, ye) /\
  exists k i, ~ nth i (nth k m []) 0 == nth i (nth k m' []) 0.
Proof.
  exists [0; 1; 2; 3; 4], (1 # 4), (1 # 345600), 2%nat, 1%nat, 1. eexists. eexists. eexists. eexists.
  split; [vm_compute; reflexivity|]. split; [vm_compute; reflexivity|]. exists 0%nat, 0%nat. vm_compute. intros C. discriminate C.
Qed.
Lemma pdm_one_point nbin flux times good f fd w p : length flux = length times -> select good flux = [w] -> fold_pdm (pulse_phase (select good times) [f; fd] 0 true) [w] nbin = Ok p ->
  pdm_stat nbin flux times good f fd = Ok None.
Proof. intros L S P. unfold pdm_stat. rewrite L, Nat.eqb_refl, S, P. cbn [bind length Nat.eqb]. destruct (np_var [w]); reflexivity. Qed.
