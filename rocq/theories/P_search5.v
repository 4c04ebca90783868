(* P_search5.v: proofs about search_best_peaks. *)
From Coq Require Import Reals.
From Verif Require Import Np Lib S_seg M_seg P_seg_regions M_gti M_utils P_helpers M_search S_search S_search2.
From Coq Require Import List Bool Arith Permutation Lia.
Import ListNotations.
Open Scope Q_scope.

Lemma qargmax_from_spec l : forall pre best bv, (best < length pre)%nat -> nth best pre 0 = bv ->
  (forall j, (j < length pre)%nat -> nth j pre 0 <= bv) -> (forall j, (j < best)%nat -> nth j pre 0 < bv) ->
  let r := qargmax_from best bv (length pre) l in
  (r < length (pre ++ l))%nat /\ (forall j, (j < length (pre ++ l))%nat -> nth j (pre ++ l) 0 <= nth r (pre ++ l) 0) /\ (forall j, (j < r)%nat -> nth j (pre ++ l) 0 < nth r (pre ++ l) 0).
Proof.
  induction l as [|a l IH]; intros pre best bv Hb Eb Hle Hlt; cbn [qargmax_from].
  - rewrite app_nil_r. split; [exact Hb|]. rewrite Eb. split; assumption.
  - replace (pre ++ a :: l) with ((pre ++ [a]) ++ l) by (now rewrite <- app_assoc).
    replace (S (length pre)) with (length (pre ++ [a])) by (rewrite app_length; cbn; lia).
    destruct (qlt bv a) eqn:E; qb; apply IH; rewrite ?app_length; cbn [length]; try lia.
    + rewrite app_nth2 by lia. now rewrite Nat.sub_diag.
    + intros j Hj. destruct (Nat.eq_dec j (length pre)) as [->|Hne]; [rewrite app_nth2, Nat.sub_diag by lia; cbn; lra|]. rewrite app_nth1 by lia. specialize (Hle j ltac:(lia)). lra.
    + intros j Hj. rewrite app_nth1 by lia. specialize (Hle j ltac:(lia)). lra.
    + rewrite app_nth1 by lia. exact Eb.
    + intros j Hj. destruct (Nat.eq_dec j (length pre)) as [->|Hne]; [rewrite app_nth2, Nat.sub_diag by lia; cbn; lra|]. rewrite app_nth1 by lia. apply Hle. lia.
    + intros j Hj. rewrite app_nth1 by lia. now apply Hlt.
Qed.
Lemma qargmax_spec l : l <> [] -> exists i, qargmax l = Ok i /\ (i < length l)%nat /\ (forall j, (j < length l)%nat -> nth j l 0 <= nth i l 0) /\ (forall j, (j < i)%nat -> nth j l 0 < nth i l 0).
Proof.
  intros H. destruct l as [|a l]; [congruence|]. cbn [qargmax]. eexists. split; [reflexivity|]. apply (qargmax_from_spec l [a] 0 a); cbn [length nth]; [lia|reflexivity| |intros; lia].
  intros [|j] Hj; [cbn; lra|lia].
Qed.
Lemma get_nth {A} (d : A) l i : (i < length l)%nat -> get l i = Ok (nth i l d).
Proof. intros H. unfold get. rewrite (nth_error_nth' l d H). reflexivity. Qed.
Lemma nth_slice {A} (d : A) l a b i : (a <= b <= length l)%nat -> (i < b - a)%nat -> nth i (slice l a b) d = nth (a + i) l d.
Proof.
  intros H Hi. unfold slice. rewrite <- (firstn_skipn a l) at 2. rewrite app_nth2; rewrite firstn_length_le by lia; [|lia].
  replace (a + i - a)%nat with i by lia. set (m := skipn a l). clearbody m. revert m i Hi. induction (b - a)%nat as [|n IH]; intros m i Hi; [lia|].
  destruct m as [|x m]; [now destruct i|]. destruct i as [|i]; [reflexivity|]. cbn. apply IH. lia.
Qed.
Lemma slice_len {A} (l : list A) a b : (a <= b <= length l)%nat -> length (slice l a b) = (b - a)%nat.
Proof. intros H. unfold slice. rewrite firstn_length, skipn_length. lia. Qed.

Lemma peak_ok x stat a b : (a < b <= length stat)%nat -> length x = length stat ->
  exists i, peak_of x stat (a, b) = Ok (nth i x 0, nth i stat 0) /\ first_maximum stat a b i.
Proof.
  intros H L. unfold peak_of. cbn [fst snd]. assert (Ls := slice_len stat a b ltac:(lia)). assert (Lx := slice_len x a b ltac:(lia)).
  destruct (qargmax_spec (slice stat a b)) as (i & E & Hi & H1 & H2).
  { intros C. rewrite C in Ls. cbn in Ls. lia. }
  rewrite E. cbn [bind]. rewrite !(get_nth 0) by lia. cbn [bind]. exists (a + i)%nat.
  rewrite !nth_slice by lia. split; [reflexivity|]. rewrite Ls in *. split; [lia|]. split.
  - intros j Hj. specialize (H1 (j - a)%nat ltac:(lia)). rewrite !nth_slice in H1 by lia. replace (a + (j - a))%nat with j in H1 by lia. exact H1.
  - intros j Hj. specialize (H2 (j - a)%nat ltac:(lia)). rewrite !nth_slice in H2 by lia. replace (a + (j - a))%nat with j in H2 by lia. exact H2.
Qed.
Lemma map_result_rel {A B} (f : A -> result B) (R : A -> B -> Prop) l : (forall a, In a l -> exists b, f a = Ok b /\ R a b) -> exists r, map_result f l = Ok r /\ Forall2 R l r.
Proof.
  induction l as [|a l IH]; intros H; [exists []; split; [reflexivity|constructor]|]. destruct (H a (or_introl eq_refl)) as (b & E & Hr).
  destruct IH as (r & Er & F); [intros; apply H; now right|]. exists (b :: r). cbn. rewrite E. cbn [bind]. rewrite Er. cbn [bind]. split; [reflexivity|now constructor].
Qed.
Lemma map_result_get {A} (d : A) (l : list A) order : (forall i, In i order -> (i < length l)%nat) -> map_result (get l) order = Ok (map (fun i => nth i l d) order).
Proof.
  induction order as [|i order IH]; intros H; [reflexivity|]. cbn. rewrite (get_nth d) by (apply H; now left). cbn [bind]. rewrite IH by (intros; apply H; now right). reflexivity.
Qed.
Lemma map_nth_seq {A} (d : A) l : map (fun i => nth i l d) (seq 0 (length l)) = l.
Proof.
  induction l as [|a l IH]; [reflexivity|]. cbn [length seq map nth]. f_equal. rewrite <- seq_shift, map_map. exact IH.
Qed.
Lemma forall2_nth {A B} (R : A -> B -> Prop) da db l l' : Forall2 R l l' -> forall i, (i < length l)%nat -> R (nth i l da) (nth i l' db).
Proof. induction 1; intros i Hi; [cbn in Hi; lia|]. destruct i; [assumption|]. apply IHForall2. cbn in Hi. lia. Qed.
Lemma nth_map' {A B} (f : A -> B) l i d d' : (i < length l)%nat -> nth i (map f l) d' = f (nth i l d).
Proof. intros H. rewrite (nth_indep _ d' (f d)) by (now rewrite map_length). apply map_nth. Qed.

Lemma peaks_main argsort x stat thr : sorts argsort -> length x = length stat -> stat <> [] ->
  exists regions bx bs, search_best_peaks argsort x stat thr = Ok (bx, bs) /\
    separated_ranges regions /\ (forall k, in_ranges regions k <-> (k < length stat)%nat /\ thr <= nth k stat 0) /\
    length bx = length regions /\ length bs = length regions /\
    (exists order, Permutation order regions /\ Forall2 (is_peak x stat) order (combine bx bs)) /\
    (forall i j, (i < j < length bs)%nat -> nth j bs 0 <= nth i bs 0).
Proof.
  intros Hs L Hne. destruct (contiguous_final (map (fun s => qle thr s) stat)) as (l & E & Hl & Hin & _); [destruct stat; [congruence|discriminate]|].
  assert (Hin' : forall k, in_ranges l k <-> (k < length stat)%nat /\ thr <= nth k stat 0).
  { intros k. rewrite Hin. split.
    - intros H. assert (K : (k < length stat)%nat) by (rewrite <- (map_length (fun s => qle thr s)); apply nth_error_Some; now rewrite H). split; [exact K|].
      rewrite nth_error_map, (nth_error_nth' stat 0 K) in H. cbn in H. injection H as H. qb. exact H.
    - intros [K H]. rewrite nth_error_map, (nth_error_nth' stat 0 K). cbn. f_equal. apply qle_t. exact H. }
  unfold search_best_peaks. rewrite E. cbn [bind]. destruct l as [|r0 l0] eqn:El.
  { exists [], [], []. split; [reflexivity|]. split; [exact Hl|]. split; [exact Hin'|]. split; [reflexivity|]. split; [reflexivity|]. split; [|cbn; intros; lia].
    exists []. split; constructor. }
  rewrite <- El in *. clear El r0 l0.
  destruct (map_result_rel (peak_of x stat) (is_peak x stat) l) as (best & Eb & Fb).
  { intros [a b] Hr. assert (A := proj1 Hl a b Hr). assert (B : (b <= length stat)%nat).
    { assert (C : in_ranges l (b - 1)) by (exists a, b; split; [exact Hr|lia]). apply Hin' in C. lia. }
    destruct (peak_ok x stat a b ltac:(lia) L) as (i & Ep & Hi). eexists. split; [exact Ep|]. exists i. split; [exact Hi|reflexivity]. }
  rewrite Eb. cbn [bind]. set (order := rev (argsort (map snd best))). destruct (Hs (map snd best)) as [Hp Hord]. rewrite map_length in Hp, Hord.
  assert (Po : Permutation order (seq 0 (length best))) by (unfold order; etransitivity; [symmetry; apply Permutation_rev|exact Hp]).
  assert (Io : forall i, In i order -> (i < length best)%nat) by (intros i Hi; apply (Permutation_in _ Po), in_seq in Hi; lia).
  assert (Lb : length l = length best) by (clear -Fb; induction Fb; cbn; congruence).
  rewrite !(map_result_get 0) by (rewrite map_length; exact Io). cbn [bind].
  exists l. eexists. eexists. split; [reflexivity|]. split; [exact Hl|]. split; [exact Hin'|].
  assert (Lo : length order = length l) by (rewrite (Permutation_length Po), seq_length; symmetry; exact Lb).
  split; [now rewrite map_length|]. split; [now rewrite map_length|]. split.
  - exists (map (fun i => nth i l (0, 0)%nat) order). split.
    + transitivity (map (fun i => nth i l (0, 0)%nat) (seq 0 (length best))); [now apply Permutation_map|]. rewrite <- Lb, map_nth_seq. reflexivity.
    + clear -Fb Io Lb. induction order as [|i order IH]; [constructor|]. cbn [map combine]. constructor; [|apply IH; intros; apply Io; now right].
      assert (Hi := Io i (or_introl eq_refl)). assert (F := forall2_nth _ (0, 0)%nat (0, 0) _ _ Fb i ltac:(lia)).
      rewrite !(nth_map' _ _ _ (0, 0)) by exact Hi. rewrite <- surjective_pairing. exact F.
  - intros i j Hij. rewrite map_length in Hij. assert (La : length (argsort (map snd best)) = length best) by (rewrite (Permutation_length Hp), seq_length; reflexivity).
    rewrite !(nth_map' _ _ _ 0%nat) by lia. unfold order. assert (Lr : length order = length best) by lia. rewrite !rev_nth by lia.
    apply Hord. lia.
Qed.
Lemma peaks_first argsort x stat thr : sorts argsort -> length x = length stat -> (exists k, (k < length stat)%nat /\ thr <= nth k stat 0) ->
  exists bx bs, search_best_peaks argsort x stat thr = Ok (bx, bs) /\ bs <> [] /\ (forall k, (k < length stat)%nat -> nth k stat 0 <= nth 0 bs 0) /\
    exists i, (i < length stat)%nat /\ nth 0 bs 0 = nth i stat 0 /\ nth 0 bx 0 = nth i x 0.
Proof.
  intros Hs L (k0 & K0 & T0). destruct (peaks_main argsort x stat thr Hs L) as (reg & bx & bs & E & Hsep & Hin & Lx & Ls & (order & Po & F) & Hd).
  { intros ->. cbn in K0. lia. }
  exists bx, bs. split; [exact E|].
  assert (R : forall k, (k < length stat)%nat -> thr <= nth k stat 0 -> exists i, (i < length bs)%nat /\ nth k stat 0 <= nth i bs 0).
  { intros k Hk Tk. destruct (proj2 (Hin k) (conj Hk Tk)) as (a & b & Hab & Hr). apply (Permutation_in _ (Permutation_sym Po)) in Hab.
    destruct (In_nth _ _ (0, 0)%nat Hab) as (i & Hi & Ei). exists i. assert (Lo := Permutation_length Po). split; [lia|].
    assert (P := forall2_nth _ (0, 0)%nat (0, 0) _ _ F i Hi). rewrite Ei in P. destruct P as (m & (_ & Hm & _) & Ep). cbn [fst snd] in Hm. specialize (Hm k ltac:(lia)).
    rewrite combine_nth in Ep by lia. injection Ep as _ ->. exact Hm. }
  destruct (R k0 K0 T0) as (i0 & Hi0 & _).
  assert (Nb : bs <> []) by (intros ->; cbn in Hi0; lia).
  assert (Top : forall i, (i < length bs)%nat -> nth i bs 0 <= nth 0 bs 0) by (intros [|i] Hi; [lra|apply Hd; lia]).
  split; [exact Nb|]. split.
  - intros k Hk. destruct (Qlt_le_dec (nth k stat 0) thr) as [C|C].
    + destruct (R k0 K0 T0) as (i & Hi & Hle). specialize (Top i Hi). lra.
    + destruct (R k Hk C) as (i & Hi & Hle). specialize (Top i Hi). lra.
  - assert (Lo := Permutation_length Po). assert (P := forall2_nth _ (0, 0)%nat (0, 0) _ _ F 0%nat ltac:(lia)). destruct P as (m & (Hm & _) & Ep).
    exists m. rewrite combine_nth in Ep by lia. injection Ep as -> ->. split; [|split; reflexivity].
    assert (C : in_ranges reg (snd (nth 0 order (0, 0)%nat) - 1)).
    { exists (fst (nth 0 order (0, 0)%nat)), (snd (nth 0 order (0, 0)%nat)). split; [|lia]. rewrite <- surjective_pairing. apply (Permutation_in _ Po). apply nth_In. lia. }
    apply Hin in C. lia.
Qed.
Lemma peaks_none argsort x stat thr : stat <> [] -> (forall k, (k < length stat)%nat -> nth k stat 0 < thr) -> search_best_peaks argsort x stat thr = Ok ([], []).
Proof.
  intros Hne H. destruct (contiguous_final (map (fun s => qle thr s) stat)) as (l & E & Hl & Hin & _); [destruct stat; [congruence|discriminate]|].
  unfold search_best_peaks. rewrite E. cbn [bind]. destruct l as [|[a b] l]; [reflexivity|]. exfalso.
  assert (A := proj1 Hl a b (or_introl eq_refl)). assert (C : in_ranges ((a, b) :: l) a) by (exists a, b; split; [now left|lia]). apply Hin in C.
  assert (K : (a < length stat)%nat) by (rewrite <- (map_length (fun s => qle thr s)); apply nth_error_Some; now rewrite C).
  rewrite nth_error_map, (nth_error_nth' stat 0 K) in C. cbn in C. injection C as C. qb. specialize (H a K). lra.
Qed.
Lemma peaks_empty argsort x thr : search_best_peaks argsort x [] thr = Err IndexError.
Proof. reflexivity. Qed.

(* a sort *)
Definition argsort_ex (l : list Q) : list nat := map snd (isort_by fst (combine l (seq 0 (length l)))).
Lemma argsort_ex_sorts : sorts argsort_ex.
Proof.
  intros l. unfold argsort_ex. set (c := combine l (seq 0 (length l))). assert (P := isort_by_perm fst c).
  assert (E : map snd c = seq 0 (length l)).
  { unfold c. clear. generalize 0%nat. induction l as [|a l IH]; intros k; [reflexivity|]. cbn. now rewrite IH. }
  split; [rewrite <- E; now apply Permutation_map|].
  assert (Lc : length (isort_by fst c) = length l) by (rewrite (Permutation_length P), <- (map_length snd), E, seq_length; reflexivity).
  assert (V : forall i, (i < length l)%nat -> nth (nth i (map snd (isort_by fst c)) 0%nat) l 0 = fst (nth i (isort_by fst c) (0, 0%nat))).
  { intros i Hi. rewrite (nth_map' _ _ _ (0, 0%nat)) by (now rewrite Lc). assert (I : In (nth i (isort_by fst c) (0, 0%nat)) c) by (apply (Permutation_in _ P), nth_In; now rewrite Lc).
    destruct (nth i (isort_by fst c) (0, 0%nat)) as [x n]. cbn [fst snd]. unfold c in I. destruct (In_nth _ _ (0, 0%nat) I) as (j & Hj & Ej). rewrite combine_length, seq_length, Nat.min_id in Hj.
    rewrite combine_nth in Ej by (now rewrite seq_length). injection Ej as <- <-. rewrite seq_nth by exact Hj. reflexivity. }
  intros i j Hij. rewrite !V by lia. assert (S := isort_by_sorted fst c). apply (proj1 (ss_nth _ _) S i j); [lia| |]; apply nth_error_nth'; lia.
Qed.
