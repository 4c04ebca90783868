(* P_mtaper.v: proofs about multitaper.py. *)
From Verif Require Import Np S_gti M_gti M_utils M_base M_lc Cplx M_fourier M_exvar M_mtaper S_fourier S_mtaper P_exvar P_dft P_timmer.
From Coq Require Import Reals List Arith ZArith Bool Lia Lra.
Import ListNotations.
Open Scope R_scope.

Lemma sum_combine {A B} (f : A -> B -> R) a b da db : length a = length b ->
  rlsum (map (fun p => f (fst p) (snd p)) (combine a b)) = rs (length a) (fun i => f (nth i a da) (nth i b db)).
Proof.
  revert b. induction a as [|x a IH]; intros [|y b] H; try discriminate; [reflexivity|]. cbn [length] in *. rewrite rs_first. cbn [combine map nth fst snd].
  change (rlsum (?q :: ?r)) with (q + rlsum r). f_equal. apply IH. lia.
Qed.
Lemma norm_scaled x w : cnorm2 (cmul x (rtoc w)) = w * w * cnorm2 x.
Proof. unfold cnorm2, cmul, rtoc. cbn [re im fst snd]. ring. Qed.
Lemma psd_exact col w : length col = length w -> rs (length w) (fun k => nth k w 0 * nth k w 0) <> 0 ->
  psd_from_freq_response col w = Some (weighted_mean (length w) (fun k => nth k w 0 * nth k w 0) (fun k => 2 * cnorm2 (nth k col c0))).
Proof.
  intros L N. unfold psd_from_freq_response. rewrite (rs_nth_seq w 0). rewrite fdiv_some by exact N. f_equal.
  rewrite (sum_combine (fun x w => cnorm2 (cmul x (rtoc w))) col w c0 0 L), L. unfold weighted_mean.
  rewrite (rs_ext _ (fun i => cnorm2 (cmul (nth i col c0) (rtoc (nth i w 0)))) (fun k => nth k w 0 * nth k w 0 * cnorm2 (nth k col c0))) by (intros i Hi; apply norm_scaled).
  rewrite (rs_ext _ (fun k => nth k w 0 * nth k w 0 * (2 * cnorm2 (nth k col c0))) (fun k => (nth k w 0 * nth k w 0 * cnorm2 (nth k col c0)) * 2)) by (intros; ring).
  rewrite rs_scal. field. exact N.
Qed.
Lemma psd_nan col w : (forall x, In x w -> x = 0) -> psd_from_freq_response col w = None.
Proof.
  intros H. unfold psd_from_freq_response. replace (rlsum (map (fun w => w * w) w)) with 0; [now rewrite fdiv_none|].
  induction w as [|x w IH]; [reflexivity|]. cbn [map]. change (rlsum (?q :: ?r)) with (q + rlsum r). rewrite <- IH by (intros y Hy; apply H; now right). rewrite (H x) by now left. ring.
Qed.
Lemma wsum_pos w : (exists k, (k < length w)%nat /\ nth k w 0 <> 0) -> 0 < rs (length w) (fun k => nth k w 0 * nth k w 0).
Proof.
  intros (k & Hk & N). assert (A : forall i, (i < length w)%nat -> 0 <= nth i w 0 * nth i w 0) by (intros; apply Rle_0_sqr).
  destruct (rs_nonneg _ _ A) as [P|P]; [exact P|]. exfalso. apply N. assert (Z : nth k w 0 * nth k w 0 = 0).
  { assert (G : forall n f, (forall i, (i < n)%nat -> 0 <= f i) -> rs n f = 0 -> forall i, (i < n)%nat -> f i = 0).
    { induction n as [|n IH]; intros f F E i Hi; [lia|]. rewrite rs_S in E. assert (0 <= rs n f) by (apply rs_nonneg; intros; apply F; lia). pose proof (F n ltac:(lia)).
      destruct (Nat.eq_dec i n) as [->|D]; [lra|]. apply (IH f); [intros; apply F; lia|lra|lia]. }
    apply (G _ _ A (eq_sym P) k Hk). }
  nra.
Qed.
Lemma mean_between n w f lo hi : (forall k, (k < n)%nat -> 0 <= w k) -> 0 < rs n w -> (forall k, (k < n)%nat -> lo <= f k <= hi) -> lo <= weighted_mean n w f <= hi.
Proof.
  intros W P F. unfold weighted_mean. assert (A : lo * rs n w <= rs n (fun k => w k * f k) <= hi * rs n w).
  { rewrite <- !rs_scal_l. split; apply rs_le; intros k Hk; specialize (W k Hk); destruct (F k Hk); nra. }
  split; apply (Rmult_le_reg_r (rs n w)); try exact P; unfold Rdiv; rewrite Rmult_assoc, Rinv_l by lra; lra.
Qed.
Lemma psd_between col w lo hi : length col = length w -> (exists k, (k < length w)%nat /\ nth k w 0 <> 0) -> (forall k, (k < length col)%nat -> lo <= 2 * cnorm2 (nth k col c0) <= hi) ->
  exists p, psd_from_freq_response col w = Some p /\ lo <= p <= hi.
Proof.
  intros L N B. pose proof (wsum_pos w N) as P. rewrite psd_exact by (try exact L; lra). eexists. split; [reflexivity|]. apply mean_between; [intros; apply Rle_0_sqr|exact P|]. intros k Hk. apply B. lia.
Qed.
Lemma psd_weights_scaled col w c : c <> 0 -> length col = length w -> psd_from_freq_response col (map (fun x => c * x) w) = psd_from_freq_response col w.
Proof.
  intros C L. unfold psd_from_freq_response. rewrite map_map. rewrite (rlsum_map (fun x => c * x * (c * x)) (fun x => x * x * (c * c))) by (intros; ring). rewrite rlsum_map_scal.
  rewrite (sum_combine (fun x w => cnorm2 (cmul x (rtoc w))) col (map (fun x => c * x) w) c0 0) by now rewrite map_length.
  rewrite (sum_combine (fun x w => cnorm2 (cmul x (rtoc w))) col w c0 0 L).
  rewrite (rs_ext _ _ (fun i => cnorm2 (cmul (nth i col c0) (rtoc (nth i w 0))) * (c * c))).
  2:{ intros i Hi. rewrite (nth_map_lt2 (fun x => c * x) w i 0) by lia. rewrite !norm_scaled. ring. }
  rewrite rs_scal. set (s := rlsum _). destruct (Req_dec s 0) as [E|E].
  - rewrite E, Rmult_0_l, !fdiv_none. reflexivity.
  - rewrite !fdiv_some by (repeat apply Rmult_integral_contrapositive_currified; assumption). f_equal. field. split; assumption.
Qed.
Lemma psd_data_scaled col w c : length col = length w -> psd_from_freq_response (map (fun x => cscal x c) col) w = flet p := psd_from_freq_response col w in Some (c * c * p).
Proof.
  intros L. unfold psd_from_freq_response. rewrite (sum_combine (fun x w => cnorm2 (cmul x (rtoc w))) (map (fun x => cscal x c) col) w c0 0) by now rewrite map_length.
  rewrite (sum_combine (fun x w => cnorm2 (cmul x (rtoc w))) col w c0 0 L). rewrite map_length.
  rewrite (rs_ext _ _ (fun i => (c * c) * cnorm2 (cmul (nth i col c0) (rtoc (nth i w 0))))).
  2:{ intros i Hi. rewrite (nth_map_lt2 (fun x => cscal x c) col i c0) by lia. unfold cnorm2, cmul, cscal, rtoc. cbn [re im fst snd]. ring. }
  rewrite rs_scal_l. destruct (fdiv 2 _); [|reflexivity]. f_equal. ring.
Qed.
Lemma psd_one x w : w <> 0 -> psd_from_freq_response [x] [w] = Some (2 * cnorm2 x).
Proof.
  intros W. rewrite psd_exact; [|reflexivity|cbn [length]; rewrite rs_S, rs_0; cbn [nth]; rewrite Rplus_0_l; apply Rmult_integral_contrapositive_currified; exact W]. f_equal. unfold weighted_mean. cbn [length]. rewrite !rs_S, !rs_0. cbn [nth]. field. exact W.
Qed.

(* ---- selected tapers ---- *)
Lemma argmax_loop l i best m : (best < i)%nat -> let j := argmax_from i best m l in
  (j = best /\ (forall k, (k < length l)%nat -> nth k l 0 <= m)) \/
  (exists k, (k < length l)%nat /\ j = (i + k)%nat /\ m < nth k l 0 /\ (forall q, (q < k)%nat -> nth q l 0 < nth k l 0) /\ (forall q, (q < length l)%nat -> nth q l 0 <= nth k l 0)).
Proof.
  revert i best m. induction l as [|x l IH]; intros i best m B; cbn [argmax_from]; [left; split; [reflexivity|cbn; intros; lia]|].
  destruct (Rlt_dec m x) as [L|L].
  - right. destruct (IH (S i) i x ltac:(lia)) as [[E F]|(k & Hk & E & G & H1 & H2)].
    + exists 0%nat. cbn [length nth]. split; [lia|]. split; [rewrite E; lia|]. split; [exact L|]. split; [intros; lia|]. intros [|q] Hq; [lra|]. cbn. apply F. lia.
    + exists (S k). cbn [length nth]. split; [lia|]. split; [rewrite E; lia|]. split; [lra|]. split; [intros [|q] Hq; [exact G|apply H1; lia]|]. intros [|q] Hq; [cbn; lra|apply H2; lia].
  - destruct (IH (S i) best m ltac:(lia)) as [[E F]|(k & Hk & E & G & H1 & H2)].
    + left. split; [exact E|]. intros [|k] Hk; cbn [nth length] in *; [lra|apply F; lia].
    + right. exists (S k). cbn [length nth]. split; [lia|]. split; [rewrite E; lia|]. split; [exact G|]. split; [intros [|q] Hq; [lra|apply H1; lia]|]. intros [|q] Hq; [cbn; lra|apply H2; lia].
Qed.
Lemma argmax_ok l : l <> [] -> exists j, argmax l = Ok j /\ (j < length l)%nat /\ (forall q, (q < length l)%nat -> nth q l 0 <= nth j l 0) /\ (forall q, (q < j)%nat -> nth q l 0 < nth j l 0).
Proof.
  destruct l as [|x l]; [congruence|]. intros _. unfold argmax. exists (argmax_from 1 0 x l). split; [reflexivity|].
  destruct (argmax_loop l 1 0 x ltac:(lia)) as [[E F]|(k & Hk & E & G & H1 & H2)]; rewrite E.
  - cbn [length nth]. split; [lia|]. split; [|intros; lia]. intros [|q] Hq; [lra|apply F; lia].
  - cbn [length nth plus]. split; [lia|]. split; [intros [|q] Hq; [cbn; lra|apply H2; lia]|]. intros [|q] Hq; [exact G|apply H1; lia].
Qed.
Lemma select_low te : (exists p, In p te /\ 9 / 10 < snd p) -> select_tapers true te = Ok (filter (fun p => if Rlt_dec (9 / 10) (snd p) then true else false) te).
Proof.
  intros (p & I & P). unfold select_tapers. change (fun p => above (snd p)) with (fun p : list R * R => if Rlt_dec (9 / 10) (snd p) then true else false).
  destruct (filter _ te) as [|q l] eqn:E; [|reflexivity]. exfalso. assert (F : In p (filter (fun p => if Rlt_dec (9 / 10) (snd p) then true else false) te)) by (apply filter_In; split; [exact I|]; destruct (Rlt_dec (9 / 10) (snd p)); [reflexivity|contradiction]).
  rewrite E in F. destruct F.
Qed.
Lemma select_none te : te <> [] -> (forall p, In p te -> snd p <= 9 / 10) -> exists j, (j < length te)%nat /\ select_tapers true te = Ok [nth j te ([], 0)] /\
  (forall q, (q < length te)%nat -> snd (nth q te ([], 0)) <= snd (nth j te ([], 0))).
Proof.
  intros N H. unfold select_tapers. replace (filter (fun p => above (snd p)) te) with (@nil (list R * R)).
  - destruct (argmax_ok (map snd te)) as (j & E & L & M & _); [destruct te; [congruence|discriminate]|]. rewrite map_length in *. exists j. split; [exact L|]. rewrite E. cbn [bind]. split; [reflexivity|].
    intros q Hq. specialize (M q Hq). rewrite !(nth_map_lt2 snd te _ ([], 0)) in M by assumption. exact M.
  - symmetry. clear N. induction te as [|p te IH]; [reflexivity|]. cbn [filter]. unfold above at 1. destruct (Rlt_dec (9 / 10) (snd p)) as [B|B]; [pose proof (H p ltac:(now left)); lra|]. apply IH. intros q Hq. apply H. now right.
Qed.
Lemma select_all te : select_tapers false te = Ok te.
Proof. reflexivity. Qed.
