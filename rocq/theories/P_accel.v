(* P_accel.v: proofs about the search for accelerated pulsations. *)
From Verif Require Import Np Lib M_utils M_seg M_base M_stats M_espec Cplx M_fourier M_accel S_fourier S_accel P_dft P_norm P_seg_cut P_lc_make.
From Coq Require Import QArith Qreals Lqa Reals List Arith ZArith Permutation Lra Lia.
Import ListNotations.
Open Scope R_scope.

(* ---- lists ---- *)
Lemma select_map {A B} (f : A -> B) (b : A -> bool) l : select (map f l) (map b l) = map f (filter b l).
Proof. induction l as [|a l IH]; [reflexivity|]. cbn. destruct (b a); cbn; now rewrite IH. Qed.
Lemma combine_map2 {A B C} (f : A -> B) (g : A -> C) l : combine (map f l) (map g l) = map (fun x => (f x, g x)) l.
Proof. induction l as [|a l IH]; [reflexivity|]. cbn. now rewrite IH. Qed.
Lemma filter_of_map {A B} (f : A -> B) (b : B -> bool) l : filter b (map f l) = map f (filter (fun x => b (f x)) l).
Proof. induction l as [|a l IH]; [reflexivity|]. cbn. destruct (b (f a)); cbn; now rewrite IH. Qed.
Lemma map_result_pure {A B} (f : A -> B) l : map_result (fun x => Ok (f x)) l = Ok (map f l).
Proof. induction l as [|a l IH]; [reflexivity|]. cbn. now rewrite IH. Qed.
Lemma map_result_ext {A B} (f g : A -> result B) l : (forall x, In x l -> f x = g x) -> map_result f l = map_result g l.
Proof. induction l as [|a l IH]; intros H; [reflexivity|]. cbn. rewrite (H a), IH; auto; [intros; apply H; now right|now left]. Qed.
Lemma concat_perm {A} (l l' : list (list A)) : Permutation l l' -> Permutation (concat l) (concat l').
Proof.
  induction 1 as [|x l l' H IH|x y l|l1 l2 l3 H1 IH1 H2 IH2]; cbn; auto.
  - now apply Permutation_app_head.
  - rewrite !app_assoc. apply Permutation_app_tail, Permutation_app_comm.
  - now transitivity (concat l2).
Qed.
Lemma map_nth_self {A} (l : list A) d : map (fun i => nth i l d) (seq 0 (length l)) = l.
Proof.
  induction l as [|a l IH]; [reflexivity|]. cbn [length seq map nth]. f_equal. rewrite <- seq_shift, map_map. exact IH.
Qed.

(* ---- the response ---- *)
Lemma trunc_unique x t t' : truncates x t -> truncates x t' -> t = t'.
Proof.
  intros [A B] [A' B'].
  assert (H : (inject_Z t < inject_Z t' + 1 /\ inject_Z t' < inject_Z t + 1)%Q).
  { destruct (Qlt_le_dec x 0) as [N|P].
    - specialize (B N). specialize (B' N). split; Lqa.lra.
    - specialize (A P). specialize (A' P). split; Lqa.lra. }
  destruct H as [H H']. rewrite <- (inject_Z_plus _ 1), <- Zlt_Qlt in H. rewrite <- (inject_Z_plus _ 1), <- Zlt_Qlt in H'. lia.
Qed.
Lemma py_int_trunc x : truncates x (py_int x).
Proof.
  unfold py_int. split; intros H.
  - rewrite (proj2 (qle_t _ _) H). split; [apply Qfloor_le|]. rewrite <- (inject_Z_plus _ 1). apply Qlt_floor.
  - rewrite (proj2 (qle_f _ _) H). pose proof (Qle_ceiling x). pose proof (Qceiling_lt x) as L.
    unfold Z.sub in L. rewrite inject_Z_plus in L. split; [exact L|assumption].
Qed.
Lemma response_width z h : half_width z h -> response_len z = (2 * Z.of_nat h)%Z.
Proof. intros (t & T & E). unfold response_len. rewrite (trunc_unique _ _ _ (py_int_trunc (2 * z)) T). lia. Qed.

Lemma slow_iff z : qlt (qabs z) (1 # 100) = (qlt (- (1 # 100)) z && qlt z (1 # 100))%bool.
Proof.
  unfold qabs. destruct (qlt z 0) eqn:E; qb; destruct (qlt _ (1 # 100)) eqn:F; qb; symmetry.
  - apply andb_true_intro. split; apply qlt_t; Lqa.lra.
  - apply andb_false_intro1. apply qlt_f. Lqa.lra.
  - rewrite Bool.andb_true_r. apply qlt_t. Lqa.lra.
  - apply Bool.andb_false_r.
Qed.

Lemma response_val fs fc z h : half_width z h -> ~ slow z ->
  create_response fs fc z = Some (map (fun i => weight fs fc (Q2R z) (INR i - INR h)) (seq 0 (2 * h + 1))).
Proof.
  intros H S. unfold create_response. rewrite slow_iff.
  assert (Z0 : Q2R z <> 0).
  { intros E. apply S. rewrite <- RMicromega.Q2R_0 in E. apply eqR_Qeq in E.
    unfold slow. rewrite E. split; reflexivity. }
  destruct (qlt (- (1 # 100)) z && qlt z (1 # 100))%bool eqn:E.
  { exfalso. apply andb_true_iff in E. destruct E as [E F]. qb. apply S. split; assumption. }
  f_equal. rewrite (response_width z h H).
  rewrite (arange_grid _ 1 (2 * h + 1)).
  - rewrite !map_map. apply map_ext. intros i.
    set (zr := Q2R z) in *. unfold weight.
    assert (Eq : Q2R (- inject_Z (2 * Z.of_nat h) / 2 + inject_Z (Z.of_nat i) * 1) = INR i - INR h).
    { rewrite Q2R_plus, Q2R_mult, Q2R_div by (intros X; discriminate). rewrite Q2R_opp.
      rewrite !RMicromega.Q2R_1 || idtac.
      unfold Q2R; cbn [Qnum Qden inject_Z]. rewrite mult_IZR, <- !INR_IZR_INZ. field. }
    rewrite Eq.
    assert (Es : zr / Rabs zr = (if Rlt_dec zr 0 then -1 else 1)).
    { destruct (Rlt_dec zr 0); [rewrite Rabs_left by assumption|rewrite Rabs_right by Lra.lra]; field; Lra.lra. }
    rewrite Es. unfold cscal, cmul. cbn [re im fst snd]. f_equal; rewrite Rmult_1_r; ring.
  - reflexivity.
  - rewrite Nat2Z.inj_add, inject_Z_plus, Nat2Z.inj_mul. change (Z.of_nat 2) with 2%Z. change (Z.of_nat 1) with 1%Z.
    rewrite !inject_Z_mult. field.
Qed.

Lemma slow_response fs fc z : slow z -> create_response fs fc z = None.
Proof. intros [A B]. unfold create_response. rewrite slow_iff, (proj2 (qlt_t _ _) A), (proj2 (qlt_t _ _) B). reflexivity. Qed.
