(* P_als3.v: the baseline of a light curve with good time intervals. *)
From Verif Require Import Np Cplx M_gti M_seg M_base M_als S_als P_als P_als2.
From Coq Require Import Reals List Arith Bool QArith Lia Lra.
Import ListNotations.
Open Scope R_scope.

Lemma put_len {A} (l : list A) : forall m v, length (put l m v) = length l.
Proof. induction l as [|a l IH]; intros [|[] m] v; simpl; auto. destruct v; simpl; rewrite IH; reflexivity. Qed.
Lemma put_other {A} (d : A) (l : list A) : forall m v i, nth i m false = false -> nth i (put l m v) d = nth i l d.
Proof.
  induction l as [|a l IH]; intros [|[] m] v i H; try reflexivity.
  - destruct i; [discriminate|]. destruct v; simpl; apply IH; exact H.
  - destruct i; [reflexivity|]. simpl. apply IH. exact H.
Qed.
Lemma put_select {A} (l : list A) : forall m v, length (select l m) = length v -> select (put l m v) m = v.
Proof.
  induction l as [|a l IH]; intros [|[] m] v H; simpl in *; try (destruct v; [reflexivity|discriminate]).
  - destruct v as [|x v]; [discriminate|]. simpl. f_equal. apply IH. simpl in H. lia.
  - apply IH, H.
Qed.
Lemma select_length {A B} (l : list A) : forall (l' : list B) m, length l = length l' -> length (select l m) = length (select l' m).
Proof. induction l as [|a l IH]; intros [|b l'] [|[] m] H; simpl in *; try discriminate; auto. Qed.
(* values placed on other points leave a selection alone *)
Lemma put_apart {A} (l : list A) : forall m m' v, apart m m' -> select (put l m' v) m = select l m.
Proof.
  induction l as [|a l IH]; intros [|b m] [|b' m'] v H; try reflexivity; [destruct b'; [destruct v|]; reflexivity|].
  assert (H' : apart m m') by (intros i Hi; exact (H (S i) Hi)). pose proof (H 0%nat) as H0. simpl in H0.
  destruct b, b'; simpl; [discriminate (H0 eq_refl)| | |].
  - f_equal. apply IH, H'.
  - destruct v; simpl; apply IH, H'.
  - apply IH, H'.
Qed.

Section L.
Variables (numba : bool) (solve : solver) (mad fit : list R -> R) (times : list Q) (counts : list R) (dt : Q) (lam p : R) (niter : nat) (oc : bool).
Local Notation mask g := (create_gti_mask numba times [g] (0, 0)%Q 0%Q (Some dt) gti_eps).
Local Notation loop := (baseline_loop numba solve mad fit times counts dt lam p niter oc).

Lemma loop_len gti : forall acc b, loop acc gti = Ok b -> length b = length acc.
Proof.
  induction gti as [|g gti IH]; simpl; intros acc b H; [injection H as <-; reflexivity|]. unfold baseline_one, bind in H.
  destruct (mask g); [|discriminate]. destruct (baseline_als _ _ _ _ _ _ _ _); [|discriminate].
  apply IH in H. rewrite H, put_len. reflexivity.
Qed.
Lemma loop_outside gti i : forall acc b, loop acc gti = Ok b -> (forall g m, In g gti -> mask g = Ok m -> nth i (fst m) false = false) -> nth i b 0 = nth i acc 0.
Proof.
  induction gti as [|g gti IH]; simpl; intros acc b H O; [injection H as <-; reflexivity|]. unfold baseline_one, bind in H.
  destruct (create_gti_mask numba times [g] (0, 0)%Q 0%Q (Some dt) gti_eps) as [m|] eqn:M; [|discriminate]. destruct (baseline_als _ _ _ _ _ _ _ _); [|discriminate].
  rewrite (IH _ _ H) by (intros g' m' I; apply O; right; exact I). apply put_other. apply (O g m); [left; reflexivity|exact M].
Qed.
Lemma loop_select gti m : forall acc b, loop acc gti = Ok b -> (forall g m', In g gti -> mask g = Ok m' -> apart m (fst m')) -> select b m = select acc m.
Proof.
  induction gti as [|g gti IH]; simpl; intros acc b H O; [injection H as <-; reflexivity|]. unfold baseline_one, bind in H.
  destruct (create_gti_mask numba times [g] (0, 0)%Q 0%Q (Some dt) gti_eps) as [m'|] eqn:M; [|discriminate]. destruct (baseline_als _ _ _ _ _ _ _ _); [|discriminate].
  rewrite (IH _ _ H) by (intros g' m'' I; apply O; right; exact I). apply put_apart. apply (O g m'); [left; reflexivity|exact M].
Qed.
Lemma loop_app gti1 gti2 : forall acc b, loop acc (gti1 ++ gti2) = Ok b -> exists acc', loop acc gti1 = Ok acc' /\ loop acc' gti2 = Ok b.
Proof.
  induction gti1 as [|g gti1 IH]; simpl; intros acc b H; [exists acc; auto|]. unfold bind in *.
  destruct (baseline_one _ _ _ _ _ _ _ _ _ _ _ _ _) as [acc1|]; [|discriminate]. apply IH, H.
Qed.

Lemma lc_outside gti b i : lc_baseline numba solve mad fit times counts dt gti lam p niter oc = Ok b ->
  length b = length times /\ ((forall g m, In g gti -> mask g = Ok m -> nth i (fst m) false = false) -> nth i b 0 = 0).
Proof.
  intro H. split; [rewrite (loop_len gti _ _ H), map_length; reflexivity|]. intro O. rewrite (loop_outside gti i _ _ H O).
  clear. revert i. induction times; intros [|i]; simpl; auto.
Qed.
Lemma lc_inside gti1 g gti2 b : lc_baseline numba solve mad fit times counts dt (gti1 ++ g :: gti2) lam p niter oc = Ok b -> length counts = length times ->
  exists m r, mask g = Ok m /\ baseline_als solve mad fit (select counts (fst m)) (Some lam) (Some p) niter oc = Ok r /\
    (length (snd r) = length (select counts (fst m)) -> (forall g' m', In g' gti2 -> mask g' = Ok m' -> apart (fst m) (fst m')) -> select b (fst m) = snd r).
Proof.
  intros H L. apply (loop_app gti1 (g :: gti2)) in H. destruct H as (acc & H1 & H2). simpl in H2. unfold baseline_one, bind in H2.
  destruct (mask g) as [m|] eqn:M; [|discriminate].
  destruct (baseline_als solve mad fit (select counts (fst m)) (Some lam) (Some p) niter oc) as [r|] eqn:B; [|discriminate].
  exists m, r. split; [reflexivity|]. split; [exact B|]. intros Hr O. rewrite (loop_select gti2 (fst m) _ _ H2 O). apply put_select.
  rewrite Hr. apply select_length. rewrite (loop_len gti1 _ _ H1), map_length. symmetry. exact L.
Qed.
(* an interval with fewer than two bins stops everything *)
Lemma lc_short gti1 g gti2 m : mask g = Ok m -> (length (select counts (fst m)) < 2)%nat ->
  exists e, lc_baseline numba solve mad fit times counts dt (gti1 ++ g :: gti2) lam p niter oc = Err e.
Proof.
  intros M S. destruct (lc_baseline numba solve mad fit times counts dt (gti1 ++ g :: gti2) lam p niter oc) as [b|e] eqn:H; [|eauto]. exfalso.
  apply (loop_app gti1 (g :: gti2)) in H. destruct H as (acc & _ & H2). simpl in H2. unfold baseline_one, bind in H2.
  rewrite M in H2. unfold baseline_als, bind in H2. rewrite als_short in H2 by exact S. discriminate.
Qed.
End L.

(* two intervals, the second has one bin *)
Lemma short_witness solve mad fit : exists times counts gti m1 m2 n1 n2, create_gti_mask true times [nth 0 gti (0, 0)%Q] (0, 0)%Q 0%Q (Some 1%Q) gti_eps = Ok (m1, n1) /\
  create_gti_mask true times [nth 1 gti (0, 0)%Q] (0, 0)%Q 0%Q (Some 1%Q) gti_eps = Ok (m2, n2) /\ m1 = [true; true; true; false; false] /\ m2 = [false; false; false; false; true] /\ length gti = 2%nat /\
  length counts = length times /\ lc_baseline true solve mad fit times counts 1%Q gti 100 (1 / 1000) 10 false = Err ValueError.
Proof.
  exists [1 # 2; 3 # 2; 5 # 2; 7 # 2; 9 # 2]%Q, [1; 2; 1; 1; 3], [(0, 3); (4, 5)]%Q.
  do 4 eexists. split; [vm_compute; reflexivity|]. split; [vm_compute; reflexivity|]. split; [reflexivity|]. split; [reflexivity|]. split; [reflexivity|]. split; [reflexivity|].
  unfold lc_baseline. cbn [baseline_loop]. unfold baseline_one, bind.
  match goal with |- context [create_gti_mask true ?t ?g ?s ?q ?d ?e] => let v := eval vm_compute in (create_gti_mask true t g s q d e) in replace (create_gti_mask true t g s q d e) with v by (vm_compute; reflexivity) end.
  cbn [fst select]. unfold baseline_als at 1, bind. unfold als at 1. cbn [length Nat.ltb Nat.leb Nat.eqb].
  match goal with |- context [create_gti_mask true ?t ?g ?s ?q ?d ?e] => let v := eval vm_compute in (create_gti_mask true t g s q d e) in replace (create_gti_mask true t g s q d e) with v by (vm_compute; reflexivity) end.
  reflexivity.
Qed.
