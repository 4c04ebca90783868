(* P_dyn.v: proofs about M_dyn.v. *)
From Verif Require Import Np Lib M_utils M_dyn S_lc S_dyn P_seg_regions P_helpers.
From Coq Require Import Lqa Lia.
Open Scope Q_scope.

Lemma put_length {A} i (v : A) l : (i < length l)%nat -> length (put i v l) = length l.
Proof. intros H. unfold put. rewrite app_length. cbn [length]. rewrite firstn_length, skipn_length. lia. Qed.
Lemma put_nth {A} i (v : A) l j d : (i < length l)%nat -> nth j (put i v l) d = if Nat.eqb j i then v else nth j l d.
Proof.
  intros H. unfold put. destruct (Nat.eqb_spec j i) as [ -> |N].
  - rewrite app_nth2; rewrite firstn_length, Nat.min_l by lia; [|lia]. now rewrite Nat.sub_diag.
  - destruct (Nat.lt_ge_cases j i).
    + rewrite app_nth1 by (rewrite firstn_length; lia). rewrite <- (firstn_skipn i l) at 2. now rewrite app_nth1 by (rewrite firstn_length; lia).
    + rewrite app_nth2; rewrite firstn_length, Nat.min_l by lia; [|lia].
      destruct (j - i)%nat as [|k] eqn:E; [lia|]. cbn [nth]. rewrite <- (firstn_skipn (S i) l) at 2.
      rewrite app_nth2; rewrite firstn_length, Nat.min_l by lia; [|lia]. f_equal. lia.
Qed.
Lemma get_in {A} (l : list A) i d : (i < length l)%nat -> get l i = Ok (nth i l d).
Proof. intros H. unfold get. rewrite (nth_error_nth' l d H). reflexivity. Qed.
Lemma get_out {A} (l : list A) i : (length l <= i)%nat -> get l i = Err IndexError.
Proof. intros H. unfold get. rewrite (proj2 (nth_error_None l i) H). reflexivity. Qed.

Lemma table_nth L cols c : table L cols -> (c < length cols)%nat -> length (nth c cols []) = L.
Proof. intros T H. unfold table in T. rewrite Forall_forall in T. apply T. now apply nth_In. Qed.
Lemma table_put L cols c v : table L cols -> (c < length cols)%nat -> length v = L -> table L (put c v cols).
Proof.
  intros T H E. unfold table, put in *. apply Forall_app. split.
  - apply Forall_forall. intros x Hx. rewrite Forall_forall in T. apply T. rewrite <- (firstn_skipn c cols). apply in_or_app. now left.
  - constructor; [assumption|]. apply Forall_forall. intros x Hx. rewrite Forall_forall in T. apply T.
    rewrite <- (firstn_skipn (S c) cols). apply in_or_app. now right.
Qed.
Lemma sum_of_app a b : sum_of (a ++ b) == sum_of a + sum_of b.
Proof. induction a as [|x a IH]; cbn [app sum_of]; [ring|]. rewrite IH. ring. Qed.
Lemma run_sum_S cols c k f : run_sum cols c (S k) f == run_sum cols c k f + entry cols (c + k) f.
Proof. unfold run_sum. rewrite seq_S, map_app, sum_of_app. cbn. ring. Qed.
Lemma time_sum_S t c k : time_sum t c (S k) == time_sum t c k + nth (c + k) t 0.
Proof. unfold time_sum. rewrite seq_S, map_app, sum_of_app. cbn. ring. Qed.

(* what column c holds after the first i columns have been read *)
Definition after_reading (n : nat) (average : bool) (cols : list (list Q)) (i c f : nat) : Q :=
  if (Nat.eqb (c mod n) 0 && Nat.ltb c i)%bool then
    run_sum cols c (Nat.min n (i - c)) f / (if (average && Nat.leb (c + n) i)%bool then inject_Z (Z.of_nat n) else 1)
  else entry cols c f.

Section Loop.
Variables (n : nat) (average : bool) (L : nat) (time : list Q) (cols : list (list Q)).
Hypotheses (N2 : (2 <= n)%nat) (T : table L cols) (Ht : length time = length cols).

Definition inv (i : nat) (st : rstate) : Prop :=
  length (rs_cols st) = length cols /\ table L (rs_cols st) /\
  (forall c f, (c < length cols)%nat -> (f < L)%nat -> entry (rs_cols st) c f == after_reading n average cols i c f) /\
  ((i mod n <> 0)%nat -> rs_count st = (i mod n)%nat /\ rs_start st = (i / n * n)%nat /\ rs_time st == time_sum time (i / n * n) (i mod n)) /\
  rs_out st = map (fun j => (j * n)%nat) (seq 0 (i / n)) /\
  length (rs_times st) = (i / n)%nat /\
  (forall j, (j < i / n)%nat -> nth j (rs_times st) 0 == time_sum time (j * n) n / inject_Z (Z.of_nat n)).

Lemma nq : ~ inject_Z (Z.of_nat n) == 0.
Proof. unfold Qeq, inject_Z. cbn. lia. Qed.

Lemma next_div i : (S (i mod n) < n)%nat -> (S i / n = i / n /\ S i mod n = S (i mod n))%nat.
Proof.
  intros H. pose proof (Nat.div_mod i n ltac:(lia)) as E.
  assert (D : (S i / n = i / n)%nat). { symmetry. apply (Nat.div_unique _ _ _ (S (i mod n))); lia. }
  split; [assumption|]. symmetry. apply (Nat.mod_unique _ _ (i / n)); lia.
Qed.
Lemma next_div_full i : (S (i mod n) = n)%nat -> (S i / n = S (i / n) /\ S i mod n = 0)%nat.
Proof.
  intros H. pose proof (Nat.div_mod i n ltac:(lia)) as E.
  assert (D : (S i / n = S (i / n))%nat). { symmetry. apply (Nat.div_unique _ _ _ 0%nat); nia. }
  split; [assumption|]. symmetry. apply (Nat.mod_unique _ _ (S (i / n))); nia.
Qed.

(* the addition of column i to the start of its group *)
Lemma after_other i c f : (c <> i / n * n)%nat -> after_reading n average cols (S i) c f == after_reading n average cols i c f.
Proof.
  intros H. unfold after_reading. destruct (Nat.eqb_spec (c mod n) 0) as [M|M]; cbn [andb]; [|reflexivity].
  pose proof (Nat.div_mod i n ltac:(lia)) as E. pose proof (Nat.mod_upper_bound i n ltac:(lia)) as B.
  pose proof (Nat.div_mod c n ltac:(lia)) as Ec.
  assert (C : (c + n <= i \/ i < c)%nat).
  { destruct (Nat.lt_trichotomy (c / n) (i / n)) as [G|[G|G]]; [left; nia| exfalso; apply H; nia |right; nia]. }
  destruct C as [C|C].
  - rewrite (proj2 (Nat.ltb_lt c (S i))), (proj2 (Nat.ltb_lt c i)) by lia. rewrite !Nat.min_l by lia.
    now rewrite (proj2 (Nat.leb_le (c + n) (S i))), (proj2 (Nat.leb_le (c + n) i)) by lia.
  - assert (c <> i) by lia. now rewrite (proj2 (Nat.ltb_ge c (S i))), (proj2 (Nat.ltb_ge c i)) by lia.
Qed.
Lemma after_start i f : let c := (i / n * n)%nat in
  after_reading n average cols (S i) c f ==
  (run_sum cols c (S (i mod n)) f) / (if (average && Nat.eqb (S (i mod n)) n)%bool then inject_Z (Z.of_nat n) else 1).
Proof.
  intros c. unfold after_reading.
  pose proof (Nat.div_mod i n ltac:(lia)) as E. pose proof (Nat.mod_upper_bound i n ltac:(lia)) as B.
  replace (c mod n)%nat with 0%nat by (subst c; now rewrite Nat.mod_mul by lia). rewrite (proj2 (Nat.ltb_lt c (S i))) by (subst c; nia). cbn [Nat.eqb andb].
  replace (Nat.min n (S i - c)) with (S (i mod n)) by (subst c; nia).
  replace (Nat.leb (c + n) (S i)) with (Nat.eqb (S (i mod n)) n); [reflexivity|].
  apply eq_true_iff_eq. rewrite Nat.eqb_eq, Nat.leb_le. subst c. nia.
Qed.
Lemma before_start i f : (i mod n <> 0)%nat -> let c := (i / n * n)%nat in
  after_reading n average cols i c f == run_sum cols c (i mod n) f.
Proof.
  intros H c. unfold after_reading.
  pose proof (Nat.div_mod i n ltac:(lia)) as E. pose proof (Nat.mod_upper_bound i n ltac:(lia)) as B.
  replace (c mod n)%nat with 0%nat by (subst c; now rewrite Nat.mod_mul by lia). rewrite (proj2 (Nat.ltb_lt c i)) by (subst c; nia). cbn [Nat.eqb andb].
  replace (Nat.min n (i - c)) with (i mod n)%nat by (subst c; nia).
  rewrite (proj2 (Nat.leb_gt (c + n) i)) by (subst c; nia). rewrite andb_false_r. field.
Qed.
Lemma before_i i f : after_reading n average cols i i f == entry cols i f.
Proof. unfold after_reading. rewrite Nat.ltb_irrefl, andb_false_r. reflexivity. Qed.

Lemma add_arrays_ok a b : length a = L -> length b = L ->
  exists s, add_arrays a b = Ok s /\ length s = L /\ forall f, (f < L)%nat -> nth f s 0 = nth f a 0 + nth f b 0.
Proof.
  intros A B. unfold add_arrays. rewrite A, B, Nat.eqb_refl. eexists. split; [reflexivity|]. split.
  - rewrite map_length, combine_length. lia.
  - intros f Hf. rewrite (nth_indep _ _ ((fun p => fst p + snd p) (0, 0))) by (rewrite map_length, combine_length; lia).
    rewrite (map_nth (fun p => fst p + snd p)), combine_nth by lia. reflexivity.
Qed.

Lemma step_ok i st : (i < length cols)%nat -> inv i st -> exists st', rebin_step n average time st i = Ok st' /\ inv (S i) st'.
Proof.
  intros Hi (I1 & I2 & I3 & I4 & I5 & I6 & I7).
  pose proof (Nat.div_mod i n ltac:(lia)) as E. pose proof (Nat.mod_upper_bound i n ltac:(lia)) as B.
  unfold rebin_step. rewrite (get_in time i 0) by lia. cbn [bind]. rewrite (get_in (rs_cols st) i []) by lia. cbn [bind].
  set (c := (i / n * n)%nat) in *. assert (Hc : (c < length cols)%nat) by (subst c; nia).
  (* the state after the addition *)
  assert (X : exists st1, (if Nat.eqb (i mod n) 0 then Ok (mkRS (rs_cols st) 1 i (nth i time 0) (rs_out st) (rs_times st))
             else
               let! bin_counts := get (rs_cols st) (rs_start st) in
               let! sum := add_arrays bin_counts (nth i (rs_cols st) []) in
               Ok (mkRS (put (rs_start st) sum (rs_cols st)) (S (rs_count st)) (rs_start st) (rs_time st + nth i time 0) (rs_out st) (rs_times st))) = Ok st1 /\
             length (rs_cols st1) = length cols /\ table L (rs_cols st1) /\
             (forall k f, (k < length cols)%nat -> (f < L)%nat -> entry (rs_cols st1) k f ==
               if Nat.eqb k c then run_sum cols c (S (i mod n)) f else after_reading n average cols i k f) /\
             rs_count st1 = S (i mod n) /\ rs_start st1 = c /\ rs_time st1 == time_sum time c (S (i mod n)) /\
             rs_out st1 = rs_out st /\ rs_times st1 = rs_times st).
  { destruct (Nat.eqb_spec (i mod n) 0) as [Z|Z].
    - assert (Ec : c = i) by (subst c; nia). eexists. split; [reflexivity|]. cbn [rs_cols rs_count rs_start rs_time rs_out rs_times]. rewrite Z, Ec. repeat split; auto.
      + intros k f Hk Hf. destruct (Nat.eqb_spec k i) as [ -> |Nk].
        * rewrite I3 by lia. rewrite before_i. unfold run_sum. cbn. rewrite Nat.add_0_r. ring.
        * now apply I3.
      + unfold time_sum. cbn. rewrite Nat.add_0_r. ring.
    - destruct (I4 Z) as (J1 & J2 & J3). rewrite J2. rewrite (get_in (rs_cols st) c []) by lia. cbn [bind].
      destruct (add_arrays_ok (nth c (rs_cols st) []) (nth i (rs_cols st) [])) as (s & -> & Ls & Vs).
      { apply table_nth; [assumption|lia]. } { apply table_nth; [assumption|lia]. }
      cbn [bind]. eexists. split; [reflexivity|]. cbn [rs_cols rs_count rs_start rs_time rs_out rs_times].
      rewrite put_length by lia. repeat split; auto.
      + apply table_put; [assumption|lia|assumption].
      + intros k f Hk Hf. unfold entry. rewrite put_nth by lia. destruct (Nat.eqb_spec k c) as [ -> |Nk].
        * rewrite Vs by assumption. fold (entry (rs_cols st) c f). fold (entry (rs_cols st) i f). rewrite !I3 by lia.
          pose proof (before_start i f Z) as Q1. cbv zeta in Q1. fold c in Q1. rewrite Q1. rewrite before_i. rewrite run_sum_S.
          replace (c + i mod n)%nat with i by (subst c; nia). reflexivity.
        * now apply I3.
      + rewrite J3, time_sum_S. replace (c + i mod n)%nat with i by (subst c; nia). reflexivity. }
  destruct X as (st1 & -> & K1 & K2 & K3 & K4 & K5 & K6 & K7 & K8). cbn [bind]. rewrite K4, K5.
  destruct (Nat.eqb_spec (S (i mod n)) n) as [F|F].
  - (* the group is complete *)
    destruct (next_div_full i F) as [D1 D2].
    rewrite (get_in (rs_cols st1) c []) by lia. cbn [bind]. eexists. split; [reflexivity|].
    unfold inv. cbn [rs_cols rs_count rs_start rs_time rs_out rs_times]. rewrite D1, D2.
    split; [destruct average; [rewrite put_length by lia|]; assumption|].
    split. { destruct average; [|assumption]. apply table_put; [assumption|lia|]. rewrite map_length. apply table_nth; [assumption|lia]. }
    split.
    { intros k f Hk Hf. destruct (Nat.eq_dec k c) as [ -> |Nk].
      - pose proof (after_start i f) as Q1. cbv zeta in Q1. fold c in Q1. rewrite Q1. rewrite F, Nat.eqb_refl.
        specialize (K3 c f Hk Hf). rewrite Nat.eqb_refl, F in K3. destruct average; cbn [andb].
        + unfold entry. rewrite put_nth, Nat.eqb_refl by lia.
          rewrite (nth_indep _ 0 ((fun x => x / inject_Z (Z.of_nat n)) 0)) by (rewrite map_length, table_nth with (L := L); auto; lia).
          rewrite (map_nth (fun x => x / inject_Z (Z.of_nat n))). unfold entry in K3. rewrite K3. reflexivity.
        + rewrite K3. field.
      - rewrite (after_other i k f Nk). specialize (K3 k f Hk Hf). rewrite (proj2 (Nat.eqb_neq k c) Nk) in K3.
        rewrite <- K3. destruct average; [|reflexivity]. unfold entry. rewrite put_nth by lia.
        now rewrite (proj2 (Nat.eqb_neq k c) Nk). }
    split; [congruence|]. rewrite K7, K8, I5.
    split. { rewrite (seq_S (i / n) 0), map_app. reflexivity. }
    split; [rewrite app_length; cbn; lia|].
    intros j Hj. destruct (Nat.lt_ge_cases j (i / n)) as [Hlt|Hge].
    + rewrite app_nth1 by lia. now apply I7.
    + assert (j = (i / n)%nat) by lia. subst j. rewrite app_nth2 by lia. rewrite I6, Nat.sub_diag. cbn [nth].
      rewrite K6, F. reflexivity.
  - assert (F' : (S (i mod n) < n)%nat) by lia. destruct (next_div i F') as [D1 D2].
    eexists. split; [reflexivity|]. unfold inv. rewrite D1, D2, K7, K8.
    split; [assumption|]. split; [assumption|]. split.
    { intros k f Hk Hf. rewrite K3 by assumption. destruct (Nat.eqb_spec k c) as [ -> |Nk].
      - pose proof (after_start i f) as Q1. cbv zeta in Q1. fold c in Q1. rewrite Q1. rewrite (proj2 (Nat.eqb_neq _ _) F), andb_false_r. field.
      - symmetry. now apply after_other. }
    split; [intros _; now rewrite K4, K5|]. now repeat split.
Qed.

Lemma loop_ok k : forall i st, (i + k = length cols)%nat -> inv i st ->
  exists st', rebin_cols n average time st (seq i k) = Ok st' /\ inv (length cols) st'.
Proof.
  induction k as [|k IH]; intros i st E I; cbn [seq rebin_cols].
  - exists st. split; [reflexivity|]. now replace (length cols) with i by lia.
  - destruct (step_ok i st ltac:(lia) I) as (st1 & -> & I1). cbn [bind]. apply IH; [lia|assumption].
Qed.
Lemma inv0 : inv 0 (mkRS cols 0 0 0 [] []).
Proof.
  unfold inv. cbn [rs_cols rs_out rs_times]. rewrite Nat.div_0_l, Nat.mod_0_l by lia. repeat split; auto; try congruence.
  - intros c f Hc Hf. unfold after_reading. rewrite (proj2 (Nat.ltb_ge c 0)) by lia. now rewrite andb_false_r.
  - intros j Hj. lia.
Qed.
End Loop.

Lemma rebin_n_main d n average L : table L (d_cols d) -> length (d_time d) = length (d_cols d) -> (2 <= n)%nat ->
  exists new self, rebin_by_n_intervals d (Z.of_nat n) average = Ok (new, self) /\
  let N := length (d_cols d) in let q := inject_Z (Z.of_nat n) in
  (* the new spectrum *)
  length (d_cols new) = (N / n)%nat /\ table L (d_cols new) /\ length (d_time new) = (N / n)%nat /\ d_freq new = d_freq d /\
  d_dt new == q * d_dt d /\ d_m new == q * d_m d /\
  (forall j, (j < N / n)%nat -> nth j (d_time new) 0 == time_sum (d_time d) (j * n) n / q) /\
  (forall j f, (j < N / n)%nat -> (f < L)%nat -> entry (d_cols new) j f == run_sum (d_cols d) (j * n) n f / (if average then q else 1)) /\
  (* the old one *)
  length (d_cols self) = N /\ table L (d_cols self) /\ d_freq self = d_freq d /\ d_time self = d_time d /\ d_dt self = d_dt d /\ d_m self = d_m d /\
  (forall c f, (c < N)%nat -> (f < L)%nat -> (c mod n <> 0)%nat -> entry (d_cols self) c f == entry (d_cols d) c f) /\
  (forall c f, (c < N)%nat -> (f < L)%nat -> (c mod n = 0)%nat ->
     entry (d_cols self) c f == run_sum (d_cols d) c (Nat.min n (N - c)) f / (if (average && Nat.leb (c + n) N)%bool then q else 1)).
Proof.
  intros T Ht N2. unfold rebin_by_n_intervals.
  rewrite (proj2 (Z.eqb_neq _ _)), (proj2 (Z.ltb_ge _ _)) by lia. rewrite Nat2Z.id.
  destruct (loop_ok n average L (d_time d) (d_cols d) N2 Ht (length (d_cols d)) 0 _ ltac:(lia) (inv0 n average L (d_time d) (d_cols d) N2 T Ht))
    as (st & -> & I1 & I2 & I3 & I4 & I5 & I6 & I7). cbn [bind].
  set (N := length (d_cols d)) in *. pose proof (Nat.div_mod N n ltac:(lia)) as E.
  assert (R : exists new, map_result (get (rs_cols st)) (rs_out st) = Ok new /\ length new = (N / n)%nat /\
              forall j, (j < N / n)%nat -> nth j new [] = nth (j * n) (rs_cols st) []).
  { destruct (map_result_ok (get (rs_cols st)) (rs_out st)) as [new En].
    { intros a Ha. rewrite I5 in Ha. apply in_map_iff in Ha. destruct Ha as (j & <- & Hj). apply in_seq in Hj.
      eexists. apply get_in with (d := []). rewrite I1. nia. }
    exists new. split; [assumption|]. destruct (map_result_nth _ _ _ En) as [Ln Vn].
    rewrite I5, map_length, seq_length in Ln. split; [assumption|]. intros j Hj.
    destruct (Vn j (j * n)%nat) as (b & Eb & Gb).
    { rewrite I5. erewrite map_nth_error; [reflexivity|]. rewrite (nth_error_nth' _ 0%nat) by (rewrite seq_length; lia). now rewrite seq_nth by lia. }
    rewrite (nth_error_nth _ _ _ Eb). rewrite (get_in _ _ []) in Gb by (rewrite I1; nia). congruence. }
  destruct R as (new & -> & Ln & Vn). cbn [bind]. do 2 eexists. split; [reflexivity|]. cbv zeta. cbn [d_cols d_time d_freq d_dt d_m].
  split; [assumption|]. split.
  { apply Forall_forall. intros x Hx. destruct (In_nth _ _ [] Hx) as (j & Hj & <-). rewrite Ln in Hj. rewrite Vn by assumption.
    apply table_nth; [assumption|]. rewrite I1. nia. }
  split; [assumption|]. split; [reflexivity|]. split; [ring|]. split; [ring|]. split; [assumption|]. split.
  { intros j f Hj Hf. unfold entry at 1. rewrite Vn by assumption. fold (entry (rs_cols st) (j * n) f). rewrite I3; [|nia|assumption].
    unfold after_reading. rewrite Nat.mod_mul by lia. rewrite (proj2 (Nat.ltb_lt _ _)), (proj2 (Nat.leb_le _ _)) by nia.
    cbn [Nat.eqb andb]. rewrite andb_true_r. replace (Nat.min n (N - j * n)) with n by nia. reflexivity. }
  split; [assumption|]. split; [assumption|]. do 4 (split; [reflexivity|]). split.
  - intros c f Hc Hf M. rewrite I3 by assumption. unfold after_reading. rewrite (proj2 (Nat.eqb_neq _ _) M). reflexivity.
  - intros c f Hc Hf M. rewrite I3 by assumption. unfold after_reading. rewrite M, (proj2 (Nat.ltb_lt _ _) Hc). reflexivity.
Qed.
Lemma rebin_n_one d average : rebin_by_n_intervals d 1 average = Ok (d, d).
Proof. reflexivity. Qed.
Lemma rebin_n_small d n average : (n < 1)%Z -> rebin_by_n_intervals d n average = Err ValueError.
Proof. intros H. unfold rebin_by_n_intervals. rewrite (proj2 (Z.eqb_neq _ _)), (proj2 (Z.ltb_lt _ _)) by lia. reflexivity. Qed.
(* the original is changed, and a second call gives another answer *)
Lemma rebin_n_refuted : exists d new self new2 self2,
  table 1 (d_cols d) /\ length (d_time d) = length (d_cols d) /\
  rebin_by_n_intervals d 2 true = Ok (new, self) /\ ~ entry (d_cols self) 0 0 == entry (d_cols d) 0 0 /\
  rebin_by_n_intervals self 2 true = Ok (new2, self2) /\ ~ entry (d_cols new2) 0 0 == entry (d_cols new) 0 0.
Proof.
  exists (mkDyn [1] [0; 1] [[2]; [4]] 1 1). do 4 eexists.
  split; [repeat constructor|]. split; [reflexivity|]. split; [vm_compute; reflexivity|]. split; [vm_compute; discriminate|].
  split; [vm_compute; reflexivity|]. vm_compute; discriminate.
Qed.

(* ---- trace_maximum ---- *)
Lemma first_equal_spec v l : forall s, (exists x, In x l /\ x == v) ->
  exists k, first_equal s v l = Ok (s + k)%nat /\ (k < length l)%nat /\ nth k l 0 == v /\ forall j, (j < k)%nat -> ~ nth j l 0 == v.
Proof.
  induction l as [|a l IH]; intros s (x & Hx & Ex); [destruct Hx|]. cbn [first_equal].
  destruct (qeq a v) eqn:Q.
  - exists 0%nat. rewrite Nat.add_0_r. apply qeq_t in Q. split; [reflexivity|]. cbn [length nth]. split; [lia|]. split; [assumption|]. intros j Hj. lia.
  - destruct (IH (S s)) as (k & -> & K1 & K2 & K3).
    { destruct Hx as [ -> |Hx]; [|exists x; auto]. apply qeq_t in Ex. congruence. }
    exists (S k). rewrite Nat.add_succ_comm. split; [reflexivity|]. cbn [length nth]. split; [lia|]. split; [assumption|].
    intros [|j] Hj; cbn [nth]; [intros C; apply qeq_t in C; congruence|]. apply K3. lia.
Qed.
Lemma band_filter freq lo hi ps : length freq = length ps -> forall x,
  In x (map snd (filter (fun p => (qle (fst p) hi && qle lo (fst p))%bool) (combine freq ps))) <-> exists i, in_band freq lo hi i /\ x = nth i ps 0.
Proof.
  intros E x. rewrite in_map_iff. split.
  - intros ((f, p) & <- & H). apply filter_In in H. destruct H as [H B]. cbn [fst snd] in *.
    apply andb_prop in B. destruct B as [B1 B2]. apply qle_t in B1. apply qle_t in B2.
    destruct (In_nth _ _ (0, 0) H) as (i & Hi & Ei). rewrite combine_length in Hi. rewrite combine_nth in Ei by assumption.
    injection Ei as E1 E2. exists i. unfold in_band. subst. repeat split; auto. lia.
  - intros (i & (Hi & B1 & B2) & ->). exists (nth i freq 0, nth i ps 0). split; [reflexivity|]. apply filter_In. split.
    + rewrite <- combine_nth by assumption. apply nth_In. rewrite combine_length. lia.
    + cbn [fst]. now rewrite (proj2 (qle_t _ _) B1), (proj2 (qle_t _ _) B2).
Qed.
Lemma trace_column_main freq lo hi ps : length freq = length ps -> (exists i, in_band freq lo hi i) ->
  exists k v, trace_column freq lo hi ps = Ok k /\ band_maximum freq lo hi ps v /\ (k < length ps)%nat /\ nth k ps 0 == v /\
    (forall j, (j < k)%nat -> ~ nth j ps 0 == v) /\
    (* inside the band, unless an equal power precedes it outside *)
    ((forall j, (j < length ps)%nat -> ~ in_band freq lo hi j -> ~ nth j ps 0 == v) -> in_band freq lo hi k).
Proof.
  intros E (i0 & H0). unfold trace_column. rewrite E, Nat.eqb_refl. cbn [negb].
  pose proof (band_filter freq lo hi ps E) as F. set (l := map snd _) in *.
  destruct (qmax_list_ok l) as (m & -> & M1 & M2).
  { intros C. assert (In (nth i0 ps 0) l) by (apply F; exists i0; auto). rewrite C in *. contradiction. }
  cbn [bind]. apply F in M1. destruct M1 as (i1 & B1 & E1).
  destruct (first_equal_spec m ps 0) as (k & -> & K1 & K2 & K3).
  { exists (nth i1 ps 0). split; [|now rewrite E1]. apply nth_In. rewrite <- E. apply B1. }
  exists k, m. split; [reflexivity|]. split; [split; [exists i1; auto|]|].
  { intros j Hj. apply M2. apply F. exists j. auto. }
  split; [assumption|]. split; [assumption|]. split; [assumption|].
  intros H. destruct (Qlt_le_dec (nth k freq 0) lo) as [G|G];
    [exfalso; apply (H k K1); [intros (_ & C & _); lra|assumption]|].
  destruct (Qlt_le_dec hi (nth k freq 0)) as [G2|G2]; [exfalso; apply (H k K1); [intros (_ & _ & C); lra|assumption]|].
  split; [lia|]. split; assumption.
Qed.
Lemma trace_column_empty freq lo hi ps : length freq = length ps -> (forall i, ~ in_band freq lo hi i) -> trace_column freq lo hi ps = Err ValueError.
Proof.
  intros E H. unfold trace_column. rewrite E, Nat.eqb_refl. cbn [negb].
  pose proof (band_filter freq lo hi ps E) as F. set (l := map snd _) in *. destruct l as [|a l]; [reflexivity|].
  destruct (proj1 (F a) (or_introl eq_refl)) as (i & Hi & _). destruct (H i Hi).
Qed.
Lemma trace_main d lo hi : table (length (d_freq d)) (d_cols d) -> (exists i, in_band (d_freq d) lo hi i) ->
  exists r, trace_maximum d (Some lo) (Some hi) = Ok r /\ length r = length (d_cols d) /\
  forall c, (c < length (d_cols d))%nat -> exists v,
    band_maximum (d_freq d) lo hi (nth c (d_cols d) []) v /\ (nth c r 0 < length (d_freq d))%nat /\
    entry (d_cols d) c (nth c r 0%nat) == v /\
    (forall j, (j < nth c r 0)%nat -> ~ entry (d_cols d) c j == v) /\
    ((forall j, (j < length (d_freq d))%nat -> ~ in_band (d_freq d) lo hi j -> ~ entry (d_cols d) c j == v) ->
      in_band (d_freq d) lo hi (nth c r 0%nat)).
Proof.
  intros T H. unfold trace_maximum. cbn [bind].
  assert (G : forall c, In c (d_cols d) -> length (d_freq d) = length c) by (intros c Hc; unfold table in T; rewrite Forall_forall in T; symmetry; auto).
  destruct (map_result_ok (trace_column (d_freq d) lo hi) (d_cols d)) as [r Er].
  { intros c Hc. destruct (trace_column_main (d_freq d) lo hi c (G c Hc) H) as (k & v & -> & _). eexists. reflexivity. }
  exists r. split; [assumption|]. destruct (map_result_nth _ _ _ Er) as [Ln Vn]. split; [assumption|]. intros c Hc.
  destruct (Vn c (nth c (d_cols d) [])) as (k & Ek & Gk). { now apply nth_error_nth'. }
  rewrite (nth_error_nth _ _ _ Ek). pose proof (nth_In _ [] Hc) as Hin. pose proof (G _ Hin) as GL.
  destruct (trace_column_main (d_freq d) lo hi _ GL H) as (k' & v & E' & V1 & V2 & V3 & V4 & V5).
  rewrite Gk in E'. injection E' as <-. exists v. unfold entry. rewrite GL. repeat split; auto; apply V1 || apply V5; assumption.
Qed.
Lemma trace_empty d lo hi : table (length (d_freq d)) (d_cols d) -> d_cols d <> [] -> (forall i, ~ in_band (d_freq d) lo hi i) ->
  trace_maximum d (Some lo) (Some hi) = Err ValueError.
Proof.
  intros T N H. unfold trace_maximum. cbn [bind]. destruct (d_cols d) as [|c l]; [congruence|]. cbn [map_result].
  rewrite trace_column_empty; auto. symmetry. unfold table in T. now apply Forall_inv in T.
Qed.
(* the default limits are the whole range *)
Lemma trace_default d : d_freq d <> [] -> exists lo hi,
  trace_maximum d None None = trace_maximum d (Some lo) (Some hi) /\ forall i, (i < length (d_freq d))%nat -> in_band (d_freq d) lo hi i.
Proof.
  intros N. unfold trace_maximum. destruct (qmin_list_ok _ N) as (lo & -> & _ & L2). destruct (qmax_list_ok _ N) as (hi & -> & _ & H2).
  exists lo, hi. split; [reflexivity|]. intros i Hi. split; [assumption|]. split; [apply L2|apply H2]; now apply nth_In.
Qed.
Lemma trace_refuted : exists d lo hi i, table (length (d_freq d)) (d_cols d) /\ (exists k, in_band (d_freq d) lo hi k) /\
  trace_maximum d (Some lo) (Some hi) = Ok [i] /\ ~ in_band (d_freq d) lo hi i.
Proof.
  exists (mkDyn [1; 2; 3] [0] [[5; 1; 5]] 1 1), 2, 3, 0%nat. split; [repeat constructor|]. split.
  { exists 1%nat. split; [cbn; lia|]. cbn. split; vm_compute; discriminate. }
  split; [vm_compute; reflexivity|]. intros (_ & C & _). vm_compute in C. now apply C.
Qed.
