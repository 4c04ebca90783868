(* P_mask.v: proofs about the stored GTI mask. *)
From Verif Require Import Np Lib S_gti S_seg S_base S_mask M_gti M_seg M_base M_mask P_gti_cross P_gti_final P_seg_cut P_seg_mask P_base.
From Coq Require Import Lqa.
Open Scope Q_scope.

Lemma make_right numba s : usable_times (t_time s) (t_dt s) -> (forall g, t_gti s = Some g -> usable numba (t_time s) (t_dt s) g) ->
  exists m, make_mask numba s = Ok m /\ right_mask (t_time s) (t_dt s) (t_gti s) m.
Proof.
  intros (N & I & D) U. unfold make_mask, right_mask. destruct (t_gti s) as [g|].
  - destruct (U g eq_refl) as (Ng & W & G & H).
    destruct (mask_ok numba (t_time s) g (t_dt s) N I Ng W) as (m & new & E & F).
    + destruct G as [G|G]; [left|right; split]; assumption.
    + assumption.
    + rewrite E. exists m. split; [reflexivity|exact F].
  - eexists. split; [reflexivity|]. split; [apply map_length|]. intros b H. apply in_map_iff in H. destruct H as (t & <- & _). reflexivity.
Qed.

Lemma get_first (l : list Q) : l <> [] -> exists a, get l 0 = Ok a /\ nth_error l 0 = Some a.
Proof. destruct l as [|a l]; [congruence|]. intros _. exists a. split; reflexivity. Qed.

(* All samples are inside the default GTIs. *)
Lemma all_inside time d a b : nondecreasing time -> 0 <= d -> nth_error time 0 = Some a -> nth_error time (length time - 1) = Some b ->
  forall t, In t time -> a <= t <= b.
Proof.
  intros I D A B t H. apply In_nth_error in H. destruct H as (i & H). assert (L : (i < length time)%nat) by (apply nth_error_Some; congruence). split.
  - destruct i as [|i]; [rewrite A in H; injection H as <-; apply Qle_refl|]. apply (I 0%nat (S i)); [lia|assumption|assumption].
  - destruct (Nat.eq_dec i (length time - 1)) as [->|K]; [rewrite B in H; injection H as <-; apply Qle_refl|]. apply (I i (length time - 1)%nat); [lia|assumption|assumption].
Qed.
Lemma default_right time d a b m : nondecreasing time -> 0 <= d -> nth_error time 0 = Some a -> nth_error time (length time - 1) = Some b ->
  right_mask time d None m -> right_mask time d (Some [(a - d / 2, b + d / 2)]) m.
Proof.
  intros I D A B (L & T). split; [assumption|]. intros i t H. split.
  - intros _. exists (a - d / 2), (b + d / 2). split; [left; reflexivity|]. destruct (all_inside time d a b I D A B t (nth_error_In _ _ H)). lra.
  - intros _. assert (Li : (i < length m)%nat) by (rewrite L; apply nth_error_Some; congruence).
    destruct (nth_error m i) as [x|] eqn:E; [|apply nth_error_None in E; lia]. rewrite (T x (nth_error_In _ _ E)). reflexivity.
Qed.
Lemma default_usable numba time d a b : nondecreasing time -> 0 <= d -> nth_error time 0 = Some a -> nth_error time (length time - 1) = Some b ->
  usable numba time d [(a - d / 2, b + d / 2)].
Proof.
  intros I D A B. pose proof (fun t => all_inside time d a b I D A B t) as K. destruct (K a (nth_error_In _ _ A)) as (_ & Ka). assert (Dh : 0 <= d / 2) by (apply Qle_shift_div_l; lra).
  split; [discriminate|]. split; [|split].
  - split; [intros x y [H|[]]; injection H as <- <-; lra|]. intros i j x y z w L H1 H2. exfalso. destruct j as [|[|j]]; [lia|discriminate|discriminate].
  - right. intros i j x y z w L H1 H2. exfalso. destruct j as [|[|j]]; [lia|discriminate|discriminate].
  - right. intros x y [H|[]]. injection H as <- <-. exists a. split; [exact (nth_error_In _ _ A)|]. split; lra.
Qed.
Lemma last_ok (l : list Q) : l <> [] -> exists b, get_last l = Ok b /\ nth_error l (length l - 1) = Some b.
Proof.
  intros N. destruct (exists_last N) as (l' & b & ->). exists b. unfold get_last. rewrite rev_app_distr. split; [reflexivity|].
  rewrite app_length. simpl. replace (length l' + 1 - 1)%nat with (length l') by lia. rewrite nth_error_app2, Nat.sub_diag by lia. reflexivity.
Qed.

(* Operations after which a stored mask is still right. *)
Inductive tame (numba : bool) (time : list Q) (d : Q) : op -> Prop :=
  | tame_mask : tame numba time d ReadMask
  | tame_gti : tame numba time d ReadGti
  | tame_write g : usable numba time d g -> tame numba time d (WriteGti (Some g)).
Definition sound numba time d s := t_time s = time /\ t_dt s = d /\ (forall g, t_gti s = Some g -> usable numba time d g) /\
  forall m, t_mask s = Some m -> right_mask time d (t_gti s) m.
Lemma read_sound numba time d s : usable_times time d -> sound numba time d s ->
  exists m s', read_mask numba s = Ok (m, s') /\ right_mask time d (t_gti s) m /\ sound numba time d s' /\ t_gti s' = t_gti s.
Proof.
  intros U (T & D & G & M). unfold read_mask. destruct (t_mask s) as [m|] eqn:E.
  - exists m, s. split; [reflexivity|]. split; [exact (M m eq_refl)|]. split; [|reflexivity]. split; [exact T|]. split; [exact D|]. split; [exact G|]. rewrite E. exact M.
  - destruct (make_right numba s) as (m & E1 & R); [rewrite T, D; assumption|rewrite T, D; assumption|]. rewrite E1.
    exists m. eexists. rewrite T, D in R. split; [reflexivity|]. split; [exact R|]. split; [|reflexivity]. split; [exact T|]. split; [exact D|]. split; [exact G|].
    intros m' H. injection H as <-. exact R.
Qed.
Lemma step_sound numba time d s o : usable_times time d -> tame numba time d o -> sound numba time d s ->
  exists s', step numba s o = Ok s' /\ sound numba time d s'.
Proof.
  intros U H K. destruct H as [| |g H].
  - destruct (read_sound numba time d s U K) as (m & s' & E & _ & S' & _). exists s'. simpl. rewrite E. split; [reflexivity|assumption].
  - destruct K as (T & D & G & M). destruct U as (N & I & P). simpl. unfold read_gti. destruct (t_gti s) as [g|] eqn:E.
    + exists s. split; [reflexivity|]. unfold sound. rewrite E. auto.
    + subst time d. destruct (get_first _ N) as (a & A1 & A2). destruct (last_ok _ N) as (b & B1 & B2). rewrite A1. cbn [bind]. rewrite B1. cbn [bind].
      eexists. split; [reflexivity|]. split; [reflexivity|]. split; [reflexivity|]. split.
      * intros g H. injection H as <-. apply default_usable; assumption.
      * intros m H. apply default_right; try assumption. apply M. exact H.
  - destruct K as (T & D & G & M). exists (write_gti (Some g) s). split; [reflexivity|]. split; [exact T|]. split; [exact D|]. split.
    + intros g' E. injection E as <-. exact H.
    + intros m E. discriminate E.
Qed.
Lemma run_sound numba time d os : usable_times time d -> Forall (tame numba time d) os -> forall s, sound numba time d s ->
  exists s', run numba os s = Ok s' /\ sound numba time d s'.
Proof.
  intros U. induction 1 as [|o os H _ IH]; intros s K; [exists s; split; [reflexivity|assumption]|].
  destruct (step_sound numba time d s o U H K) as (s1 & E & K1). simpl. rewrite E. apply IH, K1.
Qed.
Lemma mask_right numba time d g os : usable_times time d -> (forall g0, g = Some g0 -> usable numba time d g0) -> Forall (tame numba time d) os ->
  exists s m s', run numba os (new_series time d g) = Ok s /\ read_mask numba s = Ok (m, s') /\
    t_time s = time /\ t_dt s = d /\ right_mask time d (t_gti s) m.
Proof.
  intros U G H. destruct (run_sound numba time d os U H (new_series time d g)) as (s & E & K).
  - split; [reflexivity|]. split; [reflexivity|]. split; [exact G|]. intros m E. discriminate E.
  - destruct (read_sound numba time d s U K) as (m & s' & E1 & R & _ & _). destruct K as (T & D & _). exists s, m, s'. auto.
Qed.
(* Which GTIs are recorded: those written last. *)
Lemma write_gti_recorded numba g os s s' : Forall (fun o => o = ReadMask \/ o = ReadGti) os -> run numba os (write_gti (Some g) s) = Ok s' ->
  t_gti s' = Some g.
Proof.
  intros H. assert (K : t_gti (write_gti (Some g) s) = Some g) by reflexivity. revert K. generalize (write_gti (Some g) s). clear s.
  induction H as [|o os H _ IH]; intros s K E; [injection E as <-; exact K|]. destruct H as [->| ->]; simpl in E.
  - unfold read_mask in E. destruct (t_mask s) as [m|]; [apply (IH s K E)|]. destruct (make_mask numba s) as [m|e]; [|discriminate E]. cbn [bind snd] in E. eapply IH; [|exact E]; exact K.
  - unfold read_gti in E. rewrite K in E. cbn [bind snd] in E. apply (IH s K E).
Qed.
(* Reading the mask twice gives the same. *)
Lemma read_twice numba s m s' : read_mask numba s = Ok (m, s') -> read_mask numba s' = Ok (m, s').
Proof.
  unfold read_mask. destruct (t_mask s) as [x|] eqn:E.
  - intros H. injection H as -> <-. rewrite E. reflexivity.
  - destruct (make_mask numba s) as [x|e]; [|discriminate]. cbn [bind]. intros H. injection H as -> <-. reflexivity.
Qed.

(* Other operations leave the stored mask as it is, whatever they change. *)
Lemma stale numba s m s1 o s2 : read_mask numba s = Ok (m, s1) -> step numba s1 o = Ok s2 -> (forall g, o <> WriteGti (Some g)) -> read_mask numba s2 = Ok (m, s2).
Proof.
  intros H E N. assert (M : t_mask s1 = Some m).
  { unfold read_mask in H. destruct (t_mask s) as [x|] eqn:F; [injection H as -> <-; exact F|]. destruct (make_mask numba s) as [x|e]; [|discriminate H]. cbn [bind] in H. injection H as -> <-. reflexivity. }
  assert (M2 : t_mask s2 = Some m).
  { destruct o as [| |[g|]|v|d|v g]; simpl in E.
    - unfold read_mask in E. rewrite M in E. injection E as <-. exact M.
    - unfold read_gti in E. destruct (t_gti s1); [injection E as <-; exact M|]. destruct (get (t_time s1) 0); [|discriminate E]. destruct (get_last (t_time s1)); [|discriminate E].
      injection E as <-. exact M.
    - exfalso. exact (N g eq_refl).
    - injection E as <-. exact M.
    - unfold write_time in E. destruct (negb _); [discriminate E|]. injection E as <-. exact M.
    - injection E as <-. exact M.
    - unfold simulate_into, write_time in E. destruct (negb _); [discriminate E|]. injection E as <-. exact M. }
  unfold read_mask. rewrite M2. reflexivity.
Qed.
Lemma time_length numba s v : length v <> length (t_time s) -> step numba s (WriteTime v) = Err ValueError /\ forall g, step numba s (Simulate v g) = Err ValueError.
Proof. intros H. apply Nat.eqb_neq in H. simpl. unfold simulate_into, write_time. rewrite H. split; reflexivity. Qed.
Lemma time_written numba s v s' : step numba s (WriteTime v) = Ok s' -> t_time s' = v /\ length v = length (t_time s) /\ t_gti s' = t_gti s /\ t_dt s' = t_dt s.
Proof.
  simpl. unfold write_time. destruct (Nat.eqb _ _) eqn:E; [|discriminate]. intros H. injection H as <-. apply Nat.eqb_eq in E. simpl. auto.
Qed.
Lemma simulated numba s v g s' : step numba s (Simulate v g) = Ok s' -> t_time s' = v /\ t_gti s' = Some g /\ t_dt s' = t_dt s.
Proof. simpl. unfold simulate_into, write_time. destruct (negb _); [discriminate|]. intros H. injection H as <-. simpl. auto. Qed.
Lemma cleared numba s s' : step numba s (WriteGti None) = Ok s' -> t_time s' = t_time s /\ t_gti s' = None /\ t_dt s' = t_dt s.
Proof. intros H. injection H as <-. simpl. auto. Qed.
Lemma dt_written numba s d s' : step numba s (WriteDt d) = Ok s' -> t_time s' = t_time s /\ t_gti s' = t_gti s /\ t_dt s' = d.
Proof. intros H. injection H as <-. simpl. auto. Qed.
Lemma default_read s g s' : t_gti s = None -> read_gti s = Ok (g, s') ->
  exists a b, nth_error (t_time s) 0 = Some a /\ nth_error (t_time s) (length (t_time s) - 1) = Some b /\ g = [(a - t_dt s / 2, b + t_dt s / 2)] /\ t_gti s' = Some g /\ t_mask s' = t_mask s.
Proof.
  intros N. unfold read_gti. rewrite N. destruct (t_time s) as [|t l] eqn:T; [discriminate|]. destruct (last_ok (t :: l)) as (b & B1 & B2); [discriminate|].
  rewrite B1. cbn [bind get nth_error]. intros H. injection H as <- <-. exists t, b. simpl. auto.
Qed.

(* Witnesses: a mask has been read, then the GTIs are removed, or times or bin widths are replaced, or events are simulated. *)
Definition w_start : tstate := new_series [1; 2; 3] 1 (Some [(1 # 2, 5 # 2)]).
Definition wrong_after (numba : bool) (s : tstate) (os : list op) : Prop :=
  exists s' m s'', run numba os s = Ok s' /\ read_mask numba s' = Ok (m, s'') /\ ~ right_mask (t_time s') (t_dt s') (t_gti s') m.
Lemma not_flagged g tol d time m i t : nth_error time i = Some t -> nth_error m i = Some true -> ~ bin_in g tol d t -> ~ flags (bin_in g tol d) time m.
Proof. intros H M N (_ & F). apply N, (F i t H), M. Qed.
Lemma not_unflagged g tol d time m i t : nth_error time i = Some t -> nth_error m i <> Some true -> bin_in g tol d t -> ~ flags (bin_in g tol d) time m.
Proof. intros H M N (_ & F). apply M, (F i t H), N. Qed.
Lemma none_refuted : exists numba s os, wrong_after numba s (ReadMask :: os) /\ os = [WriteGti None].
Proof.
  exists false, w_start, [WriteGti None]. split; [|reflexivity]. do 3 eexists. split; [vm_compute; reflexivity|]. split; [vm_compute; reflexivity|].
  intros (_ & H). specialize (H false ltac:(simpl; auto)). discriminate H.
Qed.
Lemma time_refuted : exists numba s v, wrong_after numba s [ReadMask; WriteTime v].
Proof.
  exists false, w_start, [11; 12; 13]. do 3 eexists. split; [vm_compute; reflexivity|]. split; [vm_compute; reflexivity|]. cbn [t_time t_dt t_gti right_mask].
  apply (not_flagged _ _ _ _ _ 0 11); [reflexivity|reflexivity|]. intros (a & b & [H|[]] & H1 & H2). injection H as <- <-. apply Qle_bool_iff in H1, H2. vm_compute in H1, H2. discriminate.
Qed.
Lemma dt_refuted : exists numba s d, wrong_after numba s [ReadMask; WriteDt d].
Proof.
  exists false, w_start, 2. do 3 eexists. split; [vm_compute; reflexivity|]. split; [vm_compute; reflexivity|]. cbn [t_time t_dt t_gti right_mask].
  apply (not_flagged _ _ _ _ _ 0 1); [reflexivity|reflexivity|]. intros (a & b & [H|[]] & H1 & H2). injection H as <- <-. apply Qle_bool_iff in H1, H2. vm_compute in H1, H2. discriminate.
Qed.
Lemma simulate_refuted : exists numba s v g, wrong_after numba s [ReadMask; Simulate v g] /\ forall t, In t v -> bin_in g 0 0 t.
Proof.
  exists false, (new_series [1; 2; 3] 0 (Some [(1 # 2, 5 # 2)])), [4; 5; 6], [(0, 10)]. split.
  - do 3 eexists. split; [vm_compute; reflexivity|]. split; [vm_compute; reflexivity|]. cbn [t_time t_dt t_gti right_mask].
    apply (not_unflagged _ _ _ _ _ 2 6); [reflexivity|discriminate|]. exists 0, 10. split; [left; reflexivity|]. split; apply Qle_bool_iff; reflexivity.
  - intros t [<-|[<-|[<-|[]]]]; exists 0, 10; (split; [left; reflexivity|]); split; apply Qle_bool_iff; reflexivity.
Qed.
(* Simulating into a list of events that has another number of events fails. *)
Lemma simulate_again_refuted : exists numba s v g, step numba s (Simulate v g) = Err ValueError /\ v <> [] /\ t_time s <> [].
Proof. exists false, w_start, [4; 5], [(0, 10)]. split; [reflexivity|]. split; discriminate. Qed.
