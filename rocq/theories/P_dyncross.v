(* Proofs about dynamical cross spectra *)
From Verif Require Import Np Lib M_dyncross S_dyncross.
From Coq Require Import QArith List Bool Lia.
Import ListNotations.
Open Scope Q_scope.

Lemma skipped_iff f : skipped f = false <-> has_signal f.
Proof.
  destruct f as [|l|l e]; cbn; [split; [discriminate|tauto]| |tauto].
  induction l as [|v l IH]; cbn; [split; [discriminate|intros (v & [] & _)]|].
  destruct (qeq v 0) eqn:E; cbn.
  - rewrite IH. apply qeq_t in E. split; intros (u & I & N); exists u; [split; [now right|exact N]|]. destruct I as [->|I]; [contradiction|now split].
  - split; [intros _|reflexivity]. exists v. split; [now left|]. intros Z. apply qeq_t in Z. congruence.
Qed.
Lemma kept_iff p : kept p = true <-> has_signal (fst p) /\ has_signal (snd p).
Proof. unfold kept. rewrite negb_true_iff, orb_false_iff, !skipped_iff. reflexivity. Qed.

Section P.
Context {C : Type} (spectrum : flux -> flux -> C) (seg : Q).
Lemma columns_all segs : exists l, columns spectrum seg segs l.
Proof.
  induction segs as [|[ [s a] b] r (l & H)]; [exists []; constructor|]. destruct (kept (a, b)) eqn:K.
  - apply kept_iff in K. exists ((spectrum a b, s + (1 # 2) * seg) :: l). now constructor.
  - exists l. apply no_signal; [|exact H]. intros N. assert (kept (a, b) = true) by (now apply kept_iff). congruence.
Qed.
Lemma columns_spectra segs l : columns spectrum seg segs l ->
  cs_all spectrum (map (fun t => snd (fst t)) segs) (map snd segs) = map fst l.
Proof.
  induction 1 as [|s a b r l Ha Hb _ IH|s a b r l N _ IH]; [reflexivity| |]; unfold cs_all in *; cbn [map combine filter fst snd].
  - assert (K : kept (a, b) = true) by (now apply kept_iff). rewrite K. cbn. now rewrite IH.
  - destruct (kept (a, b)) eqn:K; [apply kept_iff in K; contradiction|exact IH].
Qed.
Lemma columns_count segs l : columns spectrum seg segs l -> (length l <= length segs)%nat /\
  (length l = length segs <-> Forall (fun t => has_signal (snd (fst t)) /\ has_signal (snd t)) segs).
Proof.
  induction 1 as [|s a b r l Ha Hb _ (IH1 & IH2)|s a b r l N _ (IH1 & IH2)]; cbn [length].
  - split; [lia|]. split; [constructor|reflexivity].
  - split; [lia|]. split.
    + intros E. constructor; [now split|]. apply IH2. lia.
    + intros F. inversion F; subst. f_equal. now apply IH2.
  - split; [lia|]. split; [lia|]. intros F. inversion F as [|t ts Ht Hts]; subst. cbn in Ht. contradiction.
Qed.
Lemma columns_times segs l : columns spectrum seg segs l -> Forall (fun t => has_signal (snd (fst t)) /\ has_signal (snd t)) segs ->
  map snd l = map (fun s => s + (1 # 2) * seg) (map (fun t => fst (fst t)) segs).
Proof.
  induction 1 as [|s a b r l Ha Hb _ IH|s a b r l N _ IH]; intros F; inversion F as [|t ts Ht Hts]; subst; cbn.
  - reflexivity.
  - f_equal. now apply IH.
  - cbn in Ht. contradiction.
Qed.

(* what is returned: the right columns; the times of all segments *)
Lemma matrix_result segs l cols times : columns spectrum seg segs l ->
  make_cross_matrix spectrum seg (map (fun t => fst (fst t)) segs) (map (fun t => snd (fst t)) segs) (map snd segs) = Some (cols, times) ->
  cols = map fst l /\ length times = length segs /\ ((length cols = length times) <-> Forall (fun t => has_signal (snd (fst t)) /\ has_signal (snd t)) segs) /\
  (Forall (fun t => has_signal (snd (fst t)) /\ has_signal (snd t)) segs -> combine cols times = l).
Proof.
  intros H E. unfold make_cross_matrix in E. rewrite (columns_spectra _ _ H) in E.
  assert (Ec : cols = map fst l /\ times = map (fun s => s + (1 # 2) * seg) (map (fun t => fst (fst t)) segs)).
  { destruct (map fst l) as [|c r] eqn:M; [discriminate|]. injection E as <- <-. now split. }
  destruct Ec as (-> & ->). rewrite !map_length. destruct (columns_count _ _ H) as (L & I).
  split; [reflexivity|]. split; [reflexivity|]. split; [exact I|].
  intros F. rewrite <- (columns_times _ _ H F). clear. induction l as [|(c, t) l IH]; cbn; [reflexivity|now f_equal].
Qed.
Lemma matrix_none segs l : columns spectrum seg segs l ->
  (make_cross_matrix spectrum seg (map (fun t => fst (fst t)) segs) (map (fun t => snd (fst t)) segs) (map snd segs) = None <-> l = []).
Proof.
  intros H. unfold make_cross_matrix. rewrite (columns_spectra _ _ H). destruct l as [|p l]; cbn; split; try reflexivity; discriminate.
Qed.
End P.
