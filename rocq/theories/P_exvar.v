(* P_exvar.v: proofs about M_exvar.v. *)
From Coq Require Import Reals.
From Verif Require Import Np Lib M_utils M_exvar S_exvar P_helpers.
From Coq Require Import Lra Lia Sorted.
Open Scope R_scope.

Lemma rsum_add l : rsum l = add_up l.
Proof. induction l as [|a l IH]; simpl; [reflexivity|]. rewrite IH. reflexivity. Qed.
Lemma rmean_average l : rmean l = average l.
Proof. unfold rmean, average. rewrite rsum_add. reflexivity. Qed.
Lemma add_up_ext {A} (f g : A -> R) l : (forall a, f a = g a) -> add_up (map f l) = add_up (map g l).
Proof. intros H. induction l as [|a l IH]; simpl; [reflexivity|]. rewrite IH, H. reflexivity. Qed.
Lemma add_up_squares m l : add_up (map (fun x => (x - m) * (x - m)) l) = add_up (map (fun x => x ^ 2) l) - 2 * m * add_up l + m ^ 2 * INR (length l).
Proof. induction l as [|a l IH]; cbn [map add_up length]; [simpl; ring|]. rewrite IH, S_INR. ring. Qed.
Lemma len_pos {A} (l : list A) : l <> [] -> 0 < INR (length l).
Proof. intros H. apply lt_0_INR. destruct l; [contradiction|simpl; lia]. Qed.
Lemma rvar_squares l : l <> [] -> rvar l = average (map (fun v => v ^ 2) l) - average l ^ 2.
Proof.
  intros H. assert (HP := len_pos l H). unfold rvar. rewrite !rmean_average. unfold average. rewrite !map_length, add_up_squares, rmean_average. unfold average. field. lra.
Qed.
Lemma mean_err e : rmean (map (fun v => v * v) e) = average (map (fun v => v ^ 2) e).
Proof. rewrite rmean_average. unfold average. rewrite !map_length. f_equal. apply add_up_ext. intros; ring. Qed.
Lemma squares_nonneg e : 0 <= average (map (fun v => v ^ 2) e).
Proof.
  unfold average. rewrite map_length. assert (0 <= add_up (map (fun v => v ^ 2) e)).
  { induction e as [|a e IH]; cbn [map add_up]; [lra|]. assert (0 <= a ^ 2) by apply pow2_ge_0. lra. }
  destruct e as [|a e]; [simpl; unfold Rdiv; rewrite Rinv_0; lra|].
  apply Rmult_le_pos; [assumption|]. apply Rlt_le, Rinv_0_lt_compat, (len_pos (a :: e)). discriminate.
Qed.
Lemma fdiv_some a b : b <> 0 -> fdiv a b = Some (a / b).
Proof. intros H. unfold fdiv. destruct (Req_EM_T b 0); [contradiction|reflexivity]. Qed.
Lemma fdiv_none a : fdiv a 0 = None.
Proof. unfold fdiv. destruct (Req_EM_T 0 0); [reflexivity|contradiction]. Qed.
Lemma fsqrt_some a : 0 <= a -> fsqrt a = Some (sqrt a).
Proof. intros H. unfold fsqrt. destruct (Rle_dec 0 a); [reflexivity|contradiction]. Qed.
Lemma fsqrt_none a : a < 0 -> fsqrt a = None.
Proof. intros H. unfold fsqrt. destruct (Rle_dec 0 a); [lra|reflexivity]. Qed.
Lemma sq_pos a : a <> 0 -> 0 < a * a.
Proof. intros H. assert (0 <= a * a) by apply Rle_0_sqr. destruct (Req_dec (a * a) 0) as [E|E]; [|lra]. apply Rmult_integral in E. tauto. Qed.
Lemma div_nonneg a b : 0 <= a -> 0 < b -> 0 <= a / b.
Proof. intros. apply Rmult_le_pos; [assumption|]. apply Rlt_le, Rinv_0_lt_compat. assumption. Qed.

Lemma exvar_main x e : x <> [] -> average x <> 0 -> 0 <= excess x e ->
  let f := sqrt (excess x e / average x ^ 2) in
  excess_variance x e XFvar = Some (Some f, if Req_EM_T (excess x e) 0 then None else Some (fractional_error x e f)) /\
  excess_variance x e XNormXs = Some (Some (excess x e / average x ^ 2), Some (normalized_error x e f)) /\
  excess_variance x e XNone = Some (Some (excess x e), Some (average x ^ 2 * normalized_error x e f)).
Proof.
  intros Hx Ha He f. assert (HP := len_pos x Hx). assert (Hs := squares_nonneg e). unfold excess_variance. cbv zeta.
  rewrite !(rvar_squares x Hx), !(mean_err e), !(rmean_average x). fold (excess x e).
  set (s2 := average (map (fun v => v ^ 2) e)) in *. set (m := average x) in *. set (n := INR (length x)) in *. set (E := excess x e) in *.
  assert (Hm := sq_pos m Ha). assert (Ef : sqrt (E / (m * m)) = f) by (unfold f; do 2 f_equal; ring). clearbody f.
  replace (m ^ 2) with (m * m) by ring.
  rewrite !(fdiv_some _ (m * m)) by lra. rewrite fsqrt_some by (apply div_nonneg; assumption). rewrite Ef. rewrite !(fdiv_some _ m) by assumption.
  assert (AB : 0 <= sqrt (2 / n) * s2 / (m * m) * (sqrt (2 / n) * s2 / (m * m)) + sqrt (s2 / n) * 2 * f / m * (sqrt (s2 / n) * 2 * f / m)).
  { apply Rplus_le_le_0_compat; apply Rle_0_sqr. }
  rewrite fsqrt_some by assumption.
  assert (NE : sqrt (sqrt (2 / n) * s2 / (m * m) * (sqrt (2 / n) * s2 / (m * m)) + sqrt (s2 / n) * 2 * f / m * (sqrt (s2 / n) * 2 * f / m)) = normalized_error x e f).
  { unfold normalized_error. fold s2 m n. f_equal. field. assumption. }
  rewrite NE. split; [|split].
  - f_equal. f_equal. destruct (Req_EM_T E 0) as [E0|E0].
    + assert (F0 : f = 0). { rewrite <- Ef, E0. unfold Rdiv. rewrite Rmult_0_l. apply sqrt_0. }
      rewrite F0, Rmult_0_r. apply fdiv_none.
    + assert (Fp : 0 < f). { rewrite <- Ef. apply sqrt_lt_R0. apply Rmult_lt_0_compat; [lra|]. apply Rinv_0_lt_compat. assumption. }
      rewrite fdiv_some by lra. f_equal. rewrite <- NE. unfold fractional_error. fold s2 m n.
      replace (2 * f) with (sqrt ((2 * f) * (2 * f))) at 1 by (apply sqrt_square; lra).
      assert (0 < 2 * f * (2 * f)) by (apply Rmult_lt_0_compat; lra).
      rewrite <- sqrt_div by assumption. f_equal.
      assert (R2 : sqrt (2 / n) = 2 * sqrt (1 / (2 * n))).
      { rewrite <- (sqrt_square 2) at 2 by lra. rewrite <- sqrt_mult; [f_equal; field; lra|lra|apply div_nonneg; lra]. }
      rewrite R2. field. lra.
  - reflexivity.
  - f_equal. f_equal. f_equal. ring.
Qed.
Lemma exvar_negative x e : x <> [] -> average x <> 0 -> excess x e < 0 ->
  excess_variance x e XFvar = Some (None, None) /\
  excess_variance x e XNormXs = Some (Some (excess x e / average x ^ 2), None) /\
  excess_variance x e XNone = Some (Some (excess x e), None).
Proof.
  intros Hx Ha He. unfold excess_variance. cbv zeta. rewrite !(rvar_squares x Hx), !(mean_err e), !(rmean_average x). fold (excess x e).
  set (m := average x) in *. assert (Hm := sq_pos m Ha). replace (m ^ 2) with (m * m) by ring.
  rewrite !(fdiv_some _ (m * m)) by lra. rewrite fsqrt_none; [split; [reflexivity|split; reflexivity]|].
  assert (0 < / (m * m)) by (apply Rinv_0_lt_compat; assumption). unfold Rdiv.
  apply (Rmult_lt_compat_r (/ (m * m))) in He; [lra|assumption].
Qed.
Lemma exvar_zero_mean x e : x <> [] -> average x = 0 ->
  excess_variance x e XFvar = Some (None, None) /\ excess_variance x e XNormXs = Some (None, None) /\ excess_variance x e XNone = Some (Some (excess x e), None).
Proof.
  intros Hx Ha. unfold excess_variance. cbv zeta. rewrite !(rvar_squares x Hx), !(mean_err e), !(rmean_average x). fold (excess x e).
  rewrite Ha. rewrite !Rmult_0_r, !fdiv_none. split; [reflexivity|split; reflexivity].
Qed.
Lemma exvar_unknown x e : excess_variance x e XOther = None.
Proof. reflexivity. Qed.

Lemma average_scale c l : average (map (Rmult c) l) = c * average l.
Proof.
  unfold average. rewrite map_length. replace (add_up (map (Rmult c) l)) with (c * add_up l); [unfold Rdiv; ring|].
  induction l as [|a l IH]; cbn [map add_up]; [ring|]. rewrite <- IH. ring.
Qed.
Lemma average_sq_scale c l : average (map (fun v => v ^ 2) (map (Rmult c) l)) = c ^ 2 * average (map (fun v => v ^ 2) l).
Proof. rewrite map_map. rewrite <- average_scale, map_map. f_equal. apply map_ext. intros. ring. Qed.
Lemma excess_scale c x e : excess (map (Rmult c) x) (map (Rmult c) e) = c ^ 2 * excess x e.
Proof. unfold excess. rewrite !average_sq_scale, average_scale. ring. Qed.
(* the two normalized results do not depend on the unit of the counts *)
Lemma exvar_scale c x e n : 0 < c -> x <> [] -> n <> XNone -> excess_variance (map (Rmult c) x) (map (Rmult c) e) n = excess_variance x e n.
Proof.
  intros Hc Hx Hn. unfold excess_variance. cbv zeta. 
  assert (Hx' : map (Rmult c) x <> []) by (destruct x; [contradiction|discriminate]).
  rewrite !(rvar_squares x Hx), !(rvar_squares _ Hx'), !(mean_err e), !(mean_err (map (Rmult c) e)), !(rmean_average x), !(rmean_average (map (Rmult c) x)).
  fold (excess (map (Rmult c) x) (map (Rmult c) e)). fold (excess x e). rewrite excess_scale, average_sq_scale, average_scale, map_length.
  assert (Hs := squares_nonneg e). assert (HP := len_pos x Hx).
  set (s2 := average (map (fun v => v ^ 2) e)) in *. set (m := average x) in *. set (N := INR (length x)) in *. set (E := excess x e) in *.
  destruct (Req_dec m 0) as [Hm|Hm].
  { rewrite Hm. rewrite !Rmult_0_r, !fdiv_none. destruct n; try contradiction; reflexivity. }
  assert (Hmm := sq_pos m Hm). assert (Hcm : c * m <> 0) by (apply Rmult_integral_contrapositive_currified; lra).
  assert (Hcc := sq_pos _ Hcm). 
  assert (D1 : fdiv (c ^ 2 * E) (c * m * (c * m)) = fdiv E (m * m)).
  { rewrite !fdiv_some by lra. f_equal. field. lra. }
  assert (D2 : fdiv (sqrt (2 / N) * (c ^ 2 * s2)) (c * m * (c * m)) = fdiv (sqrt (2 / N) * s2) (m * m)).
  { rewrite !fdiv_some by lra. f_equal. field. lra. }
  assert (D3 : forall f, fdiv (sqrt (c ^ 2 * s2 / N) * 2 * f) (c * m) = fdiv (sqrt (s2 / N) * 2 * f) m).
  { intros f. rewrite !fdiv_some by assumption. f_equal. replace (c ^ 2 * s2 / N) with (c ^ 2 * (s2 / N)) by (unfold Rdiv; ring).
    rewrite sqrt_mult; [|apply pow2_ge_0|apply div_nonneg; assumption]. rewrite sqrt_pow2 by lra. field. lra. }
  rewrite D1, D2. destruct (fdiv E (m * m)) as [v|]; [|destruct n; try contradiction; reflexivity].
  destruct (fsqrt v) as [f|]; [rewrite D3|]; destruct n; try contradiction; reflexivity.
Qed.

(* ---------- standard error ---------- *)
Lemma standard_error_main x : (2 <= length x)%nat -> standard_error x (average x) = Some (error_of_mean x).
Proof.
  intros H. unfold standard_error, error_of_mean. assert (Hl : 2 <= INR (length x)) by (apply le_INR in H; simpl in H; lra).
  rewrite rsum_add. assert (0 <= add_up (map (fun v => (v - average x) ^ 2) x)).
  { generalize (average x). intros m. clear. induction x as [|a x IH]; cbn [map add_up]; [lra|]. assert (0 <= (a - m) ^ 2) by apply pow2_ge_0. lra. }
  replace (add_up (map (fun x0 => (x0 - average x) * (x0 - average x)) x)) with (add_up (map (fun v => (v - average x) ^ 2) x)) by (apply add_up_ext; intros; ring).
  rewrite fdiv_some by lra. rewrite fdiv_some by lra. rewrite fsqrt_some.
  - do 2 f_equal. field. lra.
  - apply div_nonneg; [|lra]. apply div_nonneg; lra.
Qed.
Lemma standard_error_single x m : standard_error [x] m = None.
Proof. unfold standard_error. change (INR (length [x])) with 1. replace (1 - 1) with 0 by ring. rewrite fdiv_none. reflexivity. Qed.

(* ---------- look-up table of errors ---------- *)
Lemma top_ge counts c : In c counts -> (c <= fold_right Z.max (-1) counts)%Z.
Proof. induction counts as [|a l IH]; intros H; [destruct H|]. simpl. destruct H as [->|H]; [lia|]. specialize (IH H). lia. Qed.
Lemma seq_sorted s n : StronglySorted Z.lt (map Z.of_nat (seq s n)).
Proof.
  revert s. induction n as [|n IH]; intros s; simpl; constructor; [apply IH|].
  rewrite Forall_forall. intros v Hv. apply in_map_iff in Hv. destruct Hv as (i & <- & Hi). apply in_seq in Hi. lia.
Qed.
Lemma sorted_filter (p : Z -> bool) l : StronglySorted Z.lt l -> StronglySorted Z.lt (filter p l).
Proof.
  induction 1 as [|a l Hs IH Hf]; simpl; [constructor|]. destruct (p a); [|assumption]. constructor; [assumption|].
  rewrite Forall_forall in *. intros v Hv. apply filter_In in Hv. apply Hf, Hv.
Qed.
Lemma zsearch_found l v : StronglySorted Z.lt l -> In v l -> nth_error l (zsearch_left l v) = Some v.
Proof.
  induction 1 as [|a l Hs IH Hf]; intros Hin; [destruct Hin|]. simpl. rewrite Forall_forall in Hf. destruct (Z.ltb_spec a v).
  - destruct Hin as [->|Hin]; [lia|]. apply IH. assumption.
  - destruct Hin as [->|Hin]; [reflexivity|]. specialize (Hf v Hin). lia.
Qed.
Lemma poisson_errors_main conf counts : Forall (fun c => (0 <= c)%Z) counts ->
  poisson_symmetrical_errors conf counts = Ok (map (fun c => (Rabs (fst (conf c) - IZR c) + Rabs (snd (conf c) - IZR c)) / 2) counts).
Proof.
  intros H. unfold poisson_symmetrical_errors, count_values. rewrite Forall_forall in H.
  replace (existsb (fun c => (c <? 0)%Z) counts) with false.
  2:{ symmetry. destruct (existsb _ _) eqn:E; [|reflexivity]. apply existsb_exists in E. destruct E as (c & Hc & E). apply Z.ltb_lt in E. specialize (H c Hc). lia. }
  cbn [bind]. set (values := filter _ _).
  assert (SV : StronglySorted Z.lt values) by (apply sorted_filter, seq_sorted).
  assert (IV : forall c, In c counts -> In c values).
  { intros c Hc. apply filter_In. split; [|apply existsb_exists; exists c; split; [assumption|apply Z.eqb_refl] ].
    apply in_map_iff. exists (Z.to_nat c). specialize (H c Hc). assert (T := top_ge counts c Hc). split; [lia|]. apply in_seq. lia. }
  clearbody values. induction counts as [|c l IH]; [reflexivity|]. cbn [map_result map].
  unfold get at 1. rewrite nth_error_map, (zsearch_found values c SV) by (apply IV; now left). cbn [option_map bind].
  rewrite IH; [reflexivity| |]; intros d Hd; [apply H|apply IV]; now right.
Qed.
Lemma poisson_errors_negative conf counts c : In c counts -> (c < 0)%Z -> poisson_symmetrical_errors conf counts = Err ValueError.
Proof.
  intros H Hc. unfold poisson_symmetrical_errors, count_values. replace (existsb (fun c => (c <? 0)%Z) counts) with true; [reflexivity|].
  symmetry. apply existsb_exists. exists c. split; [assumption|]. apply Z.ltb_lt. assumption.
Qed.

(* ---------- the rest ---------- *)
Lemma heaviside_main x : (0 < x -> heaviside x = 1) /\ (x < 0 -> heaviside x = 0).
Proof. unfold heaviside. destruct (Rle_dec 0 x); split; intros; lra. Qed.
Lemma heaviside_refuted : exists x, ~ 0 < x /\ heaviside x = 1.
Proof. exists 0. split; [lra|]. unfold heaviside. destruct (Rle_dec 0 0); [reflexivity|lra]. Qed.
Lemma isallfinite_iff {A} (l : list (option A)) : isallfinite l = true <-> forall v, In v l -> v <> None.
Proof.
  induction l as [|[a|] l IH]; simpl.
  - split; [intros _ v []|reflexivity].
  - rewrite IH. split; [intros H v [<-|Hv]; [discriminate|apply H, Hv]|intros H v Hv; apply H; now right].
  - split; [discriminate|]. intros H. exfalso. apply (H None); [now left|reflexivity].
Qed.
Lemma iterables_close_iff l0 l1 : length l0 = length l1 ->
  iterables_close l0 l1 = true <-> Forall2 (fun a b => (Qabs.Qabs (a - b) <= (1 # 100000000) + (1 # 100000) * Qabs.Qabs b)%Q) l0 l1.
Proof.
  revert l1. induction l0 as [|a l0 IH]; intros [|b l1] L; simpl in *; try discriminate; [split; [constructor|reflexivity]|].
  destruct (isclose a b) eqn:E; simpl.
  - rewrite IH by lia. apply qle_t in E. split; intros H; [constructor; assumption|]. inversion H; assumption.
  - split; [discriminate|]. intros H. inversion H as [|? ? ? ? H1]; subst. apply qle_f in E. exfalso. apply (Qlt_not_le _ _ E). assumption.
Qed.
Lemma iterables_close_refuted : exists l0 l1, length l0 <> length l1 /\ iterables_close l0 l1 = true.
Proof. exists [0%Q], [0%Q; 1%Q]. split; [discriminate|reflexivity]. Qed.
