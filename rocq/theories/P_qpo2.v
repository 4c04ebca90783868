(* P_qpo2.v: proofs about phase differences, rms and correlations of spectroscopy.py. *)
From Verif Require Import Np M_utils Cplx M_fourier M_corr M_exvar M_qpo S_fourier S_corr S_exvar S_qpo P_norm P_dft P_lag P_pcolor2 P_ols P_corr P_timmer P_exvar P_fftfit4 P_qpo.
From Coq Require Import Reals List Arith ZArith Bool Lia Lra.
Import ListNotations.
Open Scope R_scope.

(* ---- distance of phase differences ---- *)
Lemma sum_total {A} (f : A -> R) l : rlsum (map f l) = total f l.
Proof. induction l as [|a l IH]; [reflexivity|]. cbn [map total]. rewrite <- IH. reflexivity. Qed.
Lemma total_ext {A} (f g : A -> R) l : (forall x, In x l -> f x = g x) -> total f l = total g l.
Proof. induction l as [|a l IH]; intros H; [reflexivity|]. cbn [total]. rewrite IH, (H a); [reflexivity|now left|]. intros; apply H; now right. Qed.
Lemma total_const {A} c (l : list A) : total (fun _ => c) l = INR (length l) * c.
Proof. induction l as [|a l IH]; [cbn; ring|]. cbn [total length]. rewrite IH, S_INR. ring. Qed.
Lemma abs_sq a : Rabs a * Rabs a = a ^ 2.
Proof. rewrite <- Rabs_mult. rewrite Rabs_right; [ring|]. apply Rle_ge. replace (a * a) with (a ^ 2) by ring. apply pow2_ge_0. Qed.
Lemma x2_small psi x : x < PI / 2 -> x_2_function psi x = total (fun p => (p - x) ^ 2) psi.
Proof.
  intros H. unfold x_2_function, psi_distance. destruct (Rlt_dec x (PI / 2)) as [_|C]; [|lra]. rewrite map_map, sum_total. apply total_ext. intros p _. apply abs_sq.
Qed.
Lemma x2_large psi x : PI / 2 <= x -> x_2_function psi x = INR (length psi) * total (fun p => (PI - Rabs (p - x)) ^ 2) psi.
Proof.
  intros H. unfold x_2_function, psi_distance. destruct (Rlt_dec x (PI / 2)) as [C|_]; [lra|]. destruct psi as [|a psi]; [cbn; ring|].
  set (l := a :: psi). change (map (fun p => Rabs (p - x)) l) with (Rabs (a - x) :: map (fun p => Rabs (p - x)) psi) at 1. cbv iota.
  change (Rabs (a - x) :: map (fun p => Rabs (p - x)) psi) with (map (fun p => Rabs (p - x)) l).
  rewrite !map_map, sum_total. rewrite total_const. f_equal. rewrite sum_total. apply total_ext. intros; ring.
Qed.
Lemma cyclic_unique a b d : Rabs (a - b) <= PI / 2 -> cyclic_distance b a d -> d = Rabs (a - b).
Proof.
  intros A [D C]. pose proof PI_RGT_0 as P.
  assert (X : exists e k, (e = Rabs (a - b) \/ e = - Rabs (a - b)) /\ e = d + PI * IZR k).
  { destruct C as [[k E]|[k E]]; [exists (b - a), k|exists (a - b), k]; (split; [|exact E]); unfold Rabs; destruct (Rcase_abs (a - b)); lra. }
  destruct X as (e & k & E & F). pose proof (Rabs_pos (a - b)) as Q. set (r := Rabs (a - b)) in *. destruct E as [->| ->].
  - assert (K : k = 0%Z).
    { destruct (Z.eq_dec k 0) as [|N]; [assumption|]. exfalso. assert (k <= -1 \/ 1 <= k)%Z as [H|H] by lia; apply IZR_le in H; nra. }
    subst k. lra.
  - assert (K : (k = 0 \/ k = - 1)%Z).
    { assert (- 2 < k < 1)%Z; [|lia]. split; apply lt_IZR; nra. }
    destruct K as [->| ->]; lra.
Qed.
Lemma x2_cyclic psi x ds : x < PI / 2 -> (forall p, In p psi -> Rabs (p - x) <= PI / 2) -> Forall2 (cyclic_distance x) psi ds -> x_2_function psi x = total (fun d => d ^ 2) ds.
Proof.
  intros X H F. rewrite x2_small by exact X. induction F as [|p d psi ds C _ IH]; [reflexivity|]. cbn [total].
  rewrite IH by (intros; apply H; now right). rewrite (cyclic_unique p x d (H p (or_introl eq_refl)) C). f_equal. rewrite <- abs_sq. ring.
Qed.
Lemma total_repeat {A} (f : A -> R) p n : total f (repeat p n) = INR n * f p.
Proof. induction n as [|n IH]; [cbn; ring|]. cbn [repeat total]. rewrite IH, S_INR. ring. Qed.
Lemma equal_phases p n x : (0 < n)%nat -> 0 <= p < PI -> (forall y, x_2_function (repeat p n) x <= x_2_function (repeat p n) y) -> x = p \/ x = p + PI.
Proof.
  intros N P M. pose proof PI_RGT_0 as Pp. assert (Np : 1 <= INR n) by (apply (le_INR 1); lia).
  assert (Z : x_2_function (repeat p n) x <= 0).
  { destruct (Rlt_dec p (PI / 2)) as [L|L].
    - specialize (M p). rewrite (x2_small _ p), total_repeat in M by exact L. replace (p - p) with 0 in M by ring. lra.
    - specialize (M (p + PI)). rewrite (x2_large _ (p + PI)), total_repeat in M by lra. replace (p - (p + PI)) with (- PI) in M by ring. rewrite Rabs_Ropp, Rabs_right in M by lra. replace (PI - PI) with 0 in M by ring. lra. }
  destruct (Rlt_dec x (PI / 2)) as [L|L].
  - rewrite x2_small, total_repeat in Z by exact L. left. pose proof (pow2_ge_0 (p - x)) as Q. assert (Y : forall q, 0 <= q -> INR n * q <= 0 -> q = 0) by (intros; nra). apply Y in Z; [|exact Q]. apply sq0 in Z. lra.
  - rewrite x2_large, total_repeat, repeat_length in Z by lra. pose proof (pow2_ge_0 (PI - Rabs (p - x))) as Q. assert (Y : forall q, 0 <= q -> INR n * q <= 0 -> q = 0) by (intros; nra). apply Y in Z; [|apply Rmult_le_pos; lra]. assert (S0 : (PI - Rabs (p - x)) ^ 2 = 0) by (apply Y; [exact Q|lra]). apply sq0 in S0.
    right. unfold Rabs in S0. destruct (Rcase_abs (p - x)); lra.
Qed.
Lemma split_same {A} (seg : list A) k : split_sizes (concat (repeat seg k)) (repeat (length seg) k) = repeat seg k.
Proof.
  induction k as [|k IH]; [reflexivity|]. cbn [repeat concat split_sizes]. rewrite firstn_app, Nat.sub_diag, firstn_O, app_nil_r, firstn_all. f_equal.
  rewrite skipn_app, Nat.sub_diag, skipn_all. exact IH.
Qed.
Lemma array_split_same {A} (seg : list A) k : (0 < k)%nat -> array_split (concat (repeat seg k)) k = repeat seg k.
Proof.
  intros K. unfold array_split. assert (L : length (concat (repeat seg k)) = (length seg * k)%nat).
  { clear K. induction k as [|k IH]; [cbn; lia|]. cbn [repeat concat]. rewrite app_length, IH. lia. }
  rewrite L, Nat.mod_mul, Nat.div_mul by lia. cbn [repeat app]. rewrite Nat.sub_0_r. apply split_same.
Qed.
Lemma map_result_repeat {A B} (f : A -> result B) a b k : f a = Ok b -> map_result f (repeat a k) = Ok (repeat b k).
Proof. intros E. induction k as [|k IH]; [reflexivity|]. cbn [repeat map_result]. rewrite E. cbn [bind]. rewrite IH. reflexivity. Qed.
Lemma same_segments brent seg k dt x0 x1 m p1 p2 psi : (0 < k)%nat -> (forall f x, f (brent f) <= f x) -> get_parameters seg dt x0 x1 = Ok (m, p1, p2, psi) -> 0 <= psi < PI ->
  exists a, get_mean_phase_difference brent (concat (repeat seg k)) dt k x0 x1 = Ok (a, a / INR k) /\ (a = psi \/ a = psi + PI).
Proof.
  intros K B G P. unfold get_mean_phase_difference. replace (Nat.eqb k 0) with false by (symmetry; apply Nat.eqb_neq; lia). rewrite array_split_same by exact K.
  rewrite (map_result_repeat _ _ psi) by (rewrite G; reflexivity). cbn [bind]. eexists. split; [reflexivity|]. apply (equal_phases psi k); [exact K|exact P|apply B].
Qed.
Lemma mean_none brent counts dt x0 x1 : get_mean_phase_difference brent counts dt 0 x0 x1 = Err ValueError.
Proof. reflexivity. Qed.
Lemma lag_value brent freq power counts dt k x0 x1 i j a sd : nearest_index freq x0 = Ok i -> nearest_index freq x1 = Ok j ->
  get_mean_phase_difference brent counts dt k x0 x1 = Ok (a, sd) ->
  exists phi1 phi2, get_phase_lag brent freq power counts dt k x0 x1 = Ok (phi1, phi2, a) /\ phi1 = PI / 2 + angle (nth i power c0) /\ phi2 / 2 - phi1 = a + angle (nth j power c0) / 2.
Proof. intros A B C. unfold get_phase_lag. rewrite A, B, C. cbn [bind fst]. do 2 eexists. split; [reflexivity|]. split; [reflexivity|]. field. Qed.

(* ---- rms ---- *)
Lemma rms_value freq df model crit : 0 <= df -> (forall f, 0 <= model f) ->
  match crit with CAll | CPosfreq | COptimal | CWindow (Some _) => True | _ => False end ->
  exists r, compute_rms freq df model crit = Ok (Some r) /\ 0 <= r /\
    r * r = df * total (fun f => match crit with
                                 | CAll => model f
                                 | CPosfreq | COptimal => if Rlt_dec 0 f then model f else 0
                                 | CWindow (Some (x, w)) => if Rlt_dec (Rabs (f - x)) (w / 2) then model f else 0
                                 | _ => 0 end) freq.
Proof.
  intros D M C.
  assert (K : forall l s, rlsum (map (fun m => m * df) l) = df * s -> 0 <= s -> exists r, Ok (fsqrt (rlsum (map (fun m => m * df) l))) = Ok (Some r) /\ 0 <= r /\ r * r = df * s).
  { intros l s E S. rewrite E. assert (0 <= df * s) by now apply Rmult_le_pos. rewrite fsqrt_some by assumption. eexists. split; [reflexivity|]. split; [apply sqrt_pos|now apply sqrt_sqrt]. }
  assert (T : forall (f : R -> R) l, (forall x, 0 <= f x) -> 0 <= total f l). { intros f l F. induction l as [|a l IH]; cbn [total]; [lra|]. specialize (F a). lra. }
  unfold compute_rms. destruct crit as [| | |[[x w]|]|]; try contradiction; cbn [bind]; apply K.
  - clear K T. induction freq as [|a l IH]; [cbn; ring|]. cbn [map rlsum fold_right total] in *. unfold rlsum in IH. rewrite IH. ring.
  - apply T. exact M.
  - clear K T. induction freq as [|a l IH]; [cbn; ring|]. cbn [filter total]. destruct (Rlt_dec 0 a); [|rewrite IH; ring]. cbn [map rlsum fold_right]. unfold rlsum in IH. rewrite IH. ring.
  - apply T. intros f. destruct (Rlt_dec 0 f); [apply M|lra].
  - clear K T. induction freq as [|a l IH]; [cbn; ring|]. cbn [filter total]. destruct (Rlt_dec 0 a); [|rewrite IH; ring]. cbn [map rlsum fold_right]. unfold rlsum in IH. rewrite IH. ring.
  - apply T. intros f. destruct (Rlt_dec 0 f); [apply M|lra].
  - clear K T. induction freq as [|a l IH]; [cbn; ring|]. cbn [map rlsum fold_right total]. unfold rlsum in IH. rewrite IH.
    destruct (Rle_dec (w / 2) (Rabs (a - x))), (Rlt_dec (Rabs (a - x)) (w / 2)); try lra; ring.
  - apply T. intros f. destruct (Rlt_dec (Rabs (f - x)) (w / 2)); [apply M|lra].
Qed.
Lemma rms_refused freq df model : compute_rms freq df model COther = Err ValueError /\ compute_rms freq df model (CWindow None) = Err AssertionError.
Proof. split; reflexivity. Qed.
Lemma rms_positive freq df model : (forall f, In f freq -> 0 < f) -> compute_rms freq df model CPosfreq = compute_rms freq df model CAll /\ compute_rms freq df model COptimal = compute_rms freq df model CAll.
Proof.
  intros H. unfold compute_rms. replace (filter (fun f => if Rlt_dec 0 f then true else false) freq) with freq; [split; reflexivity|].
  induction freq as [|a l IH]; [reflexivity|]. cbn [filter]. destruct (Rlt_dec 0 a) as [_|C]; [|elim C; apply H; now left]. f_equal. apply IH. intros; apply H; now right.
Qed.

(* ---- correlations ---- *)
Lemma ccf_len P rms nb : length (ccf P rms nb) = length P.
Proof. unfold ccf, ifft. now rewrite !map_length, seq_length. Qed.
Lemma ccf_nth P rms nb m : (m < length P)%nat ->
  nth m (ccf P rms nb) 0 = re (cs (length P) (fun k => cmul (nth k P c0) (cis (length P) (Z.of_nat (k * m))))) / INR (length P) * (2 / INR nb / rms).
Proof.
  intros H. unfold ccf. rewrite (nth_map_lt2 _ _ _ c0) by (unfold ifft; rewrite map_length, seq_length; exact H). unfold ifft.
  rewrite (nth_map_lt2 _ _ _ O) by (rewrite seq_length; exact H). rewrite seq_nth by exact H. cbn [plus]. unfold cscal, re at 1. cbn [fst]. reflexivity.
Qed.
Lemma ccf_correlation x y rms nb m : length x = length y -> (m < length x)%nat ->
  nth m (ccf (map (cross_at x y) (seq 0 (length x))) rms nb) 0 = 2 / INR nb / rms * rs (length x) (fun j => val x j * val y ((m + j) mod length x)).
Proof.
  intros L M. rewrite ccf_nth by (rewrite map_length, seq_length; exact M). rewrite map_length, seq_length. rewrite Rmult_comm. f_equal.
  unfold val. rewrite <- (corr_sum y x (length x) m) by (auto; lia). do 2 f_equal. apply cs_ext. intros k Hk. f_equal.
  rewrite (nth_map_lt2 _ _ _ O) by (rewrite seq_length; exact Hk). rewrite seq_nth by exact Hk. cbn [plus]. rewrite cross_conj. unfold prod_at. ring.
Qed.
Lemma ccf_real w rms nb m : rms <> 0 -> (0 < nb)%nat -> (m < length w)%nat -> nth m (ccf (map rtoc w) rms nb) 0 = folded w rms nb m.
Proof.
  intros R N M. rewrite ccf_nth by (rewrite map_length; exact M). rewrite map_length. unfold folded. rewrite re_cs.
  rewrite (rs_ext _ _ (fun k => val w k * cos (2 * PI * INR (k * m) / INR (length w)))).
  - field. repeat split; try exact R; apply not_0_INR; lia.
  - intros k Hk. change c0 with (rtoc 0). rewrite map_nth. unfold cis, val. cbn [cmul rtoc re im fst snd]. rewrite <- INR_IZR_INZ. ring.
Qed.
Lemma ccf_refused weights p rms nb : ccf_error [] weights rms nb = Err ZeroDivisionError /\ ccf_error [p] weights rms nb = Err IndexError.
Proof. split; reflexivity. Qed.
Lemma weighted_len weights p : length p = length weights -> length (weighted weights p) = length weights.
Proof. intros H. unfold weighted. rewrite map_length, combine_length. lia. Qed.
Lemma folded_average rms nb m (rows : list (list R)) n : (forall r, In r rows -> length r = n) -> rows <> [] -> (0 < n)%nat ->
  folded (average_rows rows) rms nb m = S_exvar.average (map (fun r => folded r rms nb m) rows).
Proof.
  intros H N Np. assert (La : length (average_rows rows) = n).
  { unfold average_rows. rewrite map_length, seq_length. destruct rows as [|r rows]; [congruence|]. cbn [hd]. apply H. now left. }
  assert (RN : INR (length rows) <> 0) by (apply not_0_INR; destruct rows; [congruence|cbn; lia]). assert (NN : INR n <> 0) by (apply not_0_INR; lia).
  assert (V : forall k, (k < n)%nat -> val (average_rows rows) k = rlsum (map (fun r => nth k r 0) rows) / INR (length rows)).
  { intros k Hk. unfold val, average_rows. assert (Lh : length (hd [] rows) = n) by (destruct rows as [|r rows]; [congruence|apply H; now left]). rewrite Lh.
    rewrite (nth_map_lt2 _ _ _ O) by (rewrite seq_length; exact Hk). rewrite seq_nth by exact Hk. reflexivity. }
  unfold folded at 1. rewrite La. set (g := fun k => cos (2 * PI * INR (k * m) / INR n)).
  rewrite (rs_ext n _ (fun k => (rlsum (map (fun r => nth k r 0) rows) * g k) * / INR (length rows))).
  2:{ intros k Hk. rewrite V by exact Hk. unfold g, Rdiv. ring. }
  rewrite rs_scal. unfold S_exvar.average. rewrite map_length.
  assert (E : rs n (fun k => rlsum (map (fun r => nth k r 0) rows) * g k) = total (fun r => rs n (fun k => nth k r 0 * g k)) rows).
  { clear. induction rows as [|r rows IH]; cbn [map total]; [apply rs_zero; intros; cbn; ring|]. rewrite <- IH, <- rs_plus. apply rs_ext. intros k _. cbn [rlsum fold_right]. unfold rlsum. ring. }
  rewrite E.
  assert (F : add_up (map (fun r => folded r rms nb m) rows) = 2 / (INR nb * rms) * (total (fun r => rs n (fun k => nth k r 0 * g k)) rows / INR n)).
  { clear E V La N RN. induction rows as [|r rows IH]; [cbn [map add_up total]; unfold Rdiv; ring|]. cbn [map add_up total]. rewrite IH by (intros; apply H; now right).
    unfold folded at 1. rewrite (H r) by now left. unfold val, g. unfold Rdiv. ring. }
  rewrite F. unfold Rdiv. ring.
Qed.
Lemma ccf_error_main segs weights rms nb : (2 <= length segs)%nat -> (forall p, In p segs -> length p = length weights) -> rms <> 0 -> (0 < nb)%nat -> (0 < length weights)%nat ->
  exists err av, ccf_error segs weights rms nb = Ok (err, av) /\ length err = length weights /\ length av = length weights /\
    forall m, (m < length weights)%nat -> let col := map (fun p => folded (weighted weights p) rms nb m) segs in
      nth m av 0 = S_exvar.average col /\ nth m err None = Some (error_of_mean col).
Proof.
  intros L H Rm N W. unfold ccf_error. destruct segs as [|p1 [|p2 segs]]; [cbn in L; lia|cbn in L; lia|]. set (l := p1 :: p2 :: segs) in *. cbv beta iota zeta.
  change (map (fun p : list cx => map (fun q : R * cx => fst q * cabs (snd q)) (combine weights p)) l) with (map (weighted weights) l). set (rows := map (weighted weights) l).
  assert (HR : forall r, In r rows -> length r = length weights). { intros r I. apply in_map_iff in I. destruct I as (p & <- & I). apply weighted_len. now apply H. }
  assert (RN : rows <> []) by discriminate.
  assert (La : length (average_rows rows) = length weights).
  { unfold average_rows. rewrite map_length, seq_length. apply HR. now left. }
  do 2 eexists. split; [reflexivity|]. rewrite map_length, seq_length, ccf_len, map_length, La. split; [reflexivity|]. split; [reflexivity|]. intros m M. cbv zeta.
  assert (A : nth m (ccf (map rtoc (average_rows rows)) rms nb) 0 = S_exvar.average (map (fun p => folded (weighted weights p) rms nb m) l)).
  { rewrite ccf_real by (try assumption; rewrite La; exact M). rewrite (folded_average rms nb m rows (length weights) HR RN W). unfold rows. now rewrite map_map. }
  split; [exact A|]. rewrite (nth_map_lt2 _ _ _ O) by (rewrite seq_length; exact M). rewrite seq_nth by exact M. cbn [plus]. rewrite A.
  replace (M_qpo.column 0 (map (fun p => ccf (map rtoc p) rms nb) rows) m) with (map (fun p => folded (weighted weights p) rms nb m) l).
  - apply standard_error_main. rewrite map_length. exact L.
  - unfold M_qpo.column, rows. rewrite !map_map. apply map_ext_in. intros p I. symmetry. apply ccf_real; [exact Rm|exact N|]. rewrite weighted_len; [exact M|now apply H].
Qed.
Lemma folded_peak w rms nb m : 0 < rms -> (0 < nb)%nat -> (0 < length w)%nat -> (forall k, (k < length w)%nat -> 0 <= val w k) -> Rabs (folded w rms nb m) <= folded w rms nb 0.
Proof.
  intros R N L H. unfold folded. assert (NP : 0 < INR nb) by (apply lt_0_INR; exact N). assert (LP : 0 < INR (length w)) by (apply lt_0_INR; exact L).
  assert (C : 0 < 2 / (INR nb * rms)) by (apply Rdiv_lt_0_compat; nra).
  assert (B : forall f, (forall k, (k < length w)%nat -> - val w k <= f k <= val w k) -> Rabs (rs (length w) f) <= rs (length w) (val w)).
  { intros f F. apply Rabs_le. split; [|apply rs_le; intros; apply F; assumption]. replace (- rs (length w) (val w)) with (rs (length w) (fun k => - 1 * val w k)) by (rewrite rs_scal_l; ring). apply rs_le. intros k Hk. destruct (F k Hk). lra. }
  rewrite Rabs_mult, (Rabs_right (2 / (INR nb * rms))) by lra. apply Rmult_le_compat_l; [lra|]. unfold Rdiv. rewrite Rabs_mult, (Rabs_right (/ INR (length w))) by (apply Rle_ge; left; now apply Rinv_0_lt_compat).
  apply Rmult_le_compat_r; [left; now apply Rinv_0_lt_compat|].
  rewrite (rs_ext _ (fun k => val w k * cos (2 * PI * INR (k * 0) * / INR (length w))) (val w)).
  - apply B. intros k Hk. specialize (H k Hk). pose proof (COS_bound (2 * PI * INR (k * m) * / INR (length w))) as [B1 B2]. split; nra.
  - intros k _. rewrite Nat.mul_0_r. replace (2 * PI * INR 0 * / INR (length w)) with 0 by (cbn [INR]; ring). rewrite cos_0. ring.
Qed.
Lemma ccf_error_peak segs weights rms nb err av m : (2 <= length segs)%nat -> (forall p, In p segs -> length p = length weights) -> 0 < rms -> (0 < nb)%nat ->
  (forall w, In w weights -> 0 <= w) -> ccf_error segs weights rms nb = Ok (err, av) -> (m < length weights)%nat -> Rabs (nth m av 0) <= nth 0 av 0.
Proof.
  intros L H Rm N W E M. destruct (ccf_error_main segs weights rms nb L H) as (e' & a' & E' & _ & _ & V); [lra|exact N|lia|]. rewrite E in E'. injection E' as <- <-.
  destruct (V m M) as [-> _]. destruct (V 0%nat ltac:(lia)) as [-> _]. unfold S_exvar.average. rewrite !map_length.
  assert (LP : 0 < INR (length segs)) by (apply lt_0_INR; lia).
  unfold Rdiv. rewrite Rabs_mult, (Rabs_right (/ INR (length segs))) by (apply Rle_ge; left; now apply Rinv_0_lt_compat). apply Rmult_le_compat_r; [left; now apply Rinv_0_lt_compat|].
  clear L E V LP. induction segs as [|p segs IH]; cbn [map add_up]; [rewrite Rabs_R0; lra|]. eapply Rle_trans; [apply Rabs_triang|]. apply Rplus_le_compat; [|apply IH; intros; apply H; now right].
  apply folded_peak; [exact Rm|exact N| |]; rewrite weighted_len by (apply H; now left); [lia|]. intros k Hk. unfold weighted, val.
  destruct (nth_in_or_default k (map (fun q : R * cx => fst q * cabs (snd q)) (combine weights p)) 0) as [I| ->]; [|lra].
  apply in_map_iff in I. destruct I as ((w & z) & <- & I). apply in_combine_l in I. cbn [fst snd]. apply Rmult_le_pos; [now apply W|apply sqrt_pos].
Qed.
Lemma ccf_error_moduli segs segs' weights rms nb : Forall2 (Forall2 (fun a b => cabs a = cabs b)) segs segs' -> ccf_error segs weights rms nb = ccf_error segs' weights rms nb.
Proof.
  intros F. assert (E : map (weighted weights) segs = map (weighted weights) segs').
  { induction F as [|p q segs segs' P _ IH]; [reflexivity|]. cbn [map]. rewrite IH. f_equal. clear -P. unfold weighted. revert weights. induction P as [|a b p q A _ IH]; intros [|w weights]; try reflexivity. cbn [combine map fst snd]. now rewrite A, IH. }
  unfold ccf_error. destruct F as [|p q ? ? _ F']; [reflexivity|]. destruct F' as [|p2 q2 ? ? _ _]; [reflexivity|].
  change (fun p : list cx => map (fun q : R * cx => fst q * cabs (snd q)) (combine weights p)) with (weighted weights). rewrite E. reflexivity.
Qed.
