(* P_dyn2.v: proofs about M_dyn2.v. *)
From Verif Require Import Np Lib S_gti S_seg S_utils M_gti M_seg M_utils M_dyn M_dyn2 S_lc S_dyn P_seg_regions P_seg_cut P_helpers P_rebin P_rebin2 P_logbin P_filters.
From Coq Require Import Lqa Lia Sorted.
Open Scope Q_scope.

Lemma sum_of_total l : sum_of l == total l.
Proof. induction l as [|a l IH]; simpl; [reflexivity|]. rewrite IH. reflexivity. Qed.
Lemma total_run l a m : (a + m <= length l)%nat -> total (slice l a (a + m)) == sum_of (map (fun j => nth (a + j) l 0) (seq 0 m)).
Proof.
  intros H. rewrite sum_of_total. unfold slice. replace (a + m - a)%nat with m by lia.
  assert (E : firstn m (skipn a l) = map (fun j => nth (a + j) l 0) (seq 0 m)).
  { apply (nth_ext _ _ 0 0).
    - rewrite firstn_length, skipn_length, map_length, seq_length. lia.
    - intros n Hn. rewrite firstn_length, skipn_length in Hn.
      rewrite (nth_indep (map _ _) 0 (nth (a + 0) l 0)) by (rewrite map_length, seq_length; lia).
      rewrite (map_nth (fun j => nth (a + j) l 0) (seq 0 m) 0%nat n), seq_nth by lia.
      rewrite <- (firstn_skipn m (skipn a l)) in *.
      assert (G : forall (u : list Q) p q, (p < q)%nat -> nth p (firstn q u) 0 = nth p u 0).
      { clear. induction u as [|x u IH]; intros [|p] [|q] H; simpl; try lia; try reflexivity. apply IH. lia. }
      rewrite (firstn_skipn m (skipn a l)). rewrite G by lia.
      assert (K : forall (u : list Q) p q, nth p (skipn q u) 0 = nth (q + p) u 0).
      { clear. induction u as [|x u IH]; intros p [|q]; simpl; try reflexivity; [destruct p; reflexivity|]. apply IH. }
      rewrite K. reflexivity. }
  rewrite E. reflexivity.
Qed.
Lemma spaced_evenly x0 d x : equally_spaced x0 d x -> evenly x0 d x.
Proof.
  intros H i v Hv. assert (Hi : (i < length x)%nat) by (apply nth_error_Some; congruence).
  rewrite <- (H i Hi). rewrite (nth_error_nth _ _ 0 Hv). reflexivity.
Qed.
Lemma sum_progress x0 d m a : (1 <= m)%nat ->
  sum_of (map (fun j => x0 + inject_Z (Z.of_nat (a + j)) * d) (seq 0 m)) ==
  inject_Z (Z.of_nat m) * (x0 + inject_Z (Z.of_nat a) * d + (inject_Z (Z.of_nat m) - 1) * d * (1 # 2)).
Proof.
  intros _. induction m as [|m IH].
  - simpl. change (inject_Z (Z.of_nat 0)) with 0. ring.
  - rewrite seq_S, map_app, !sum_of_total. 
    assert (T : forall u v, total (u ++ v) == total u + total v).
    { clear. induction u as [|b u IHu]; intros v; simpl; [ring|]. rewrite IHu. ring. }
    rewrite T, <- sum_of_total, IH. cbn [map total]. rewrite zof_S, Nat2Z.inj_add, inject_Z_plus. simpl (0 + m)%nat. ring.
Qed.
Lemma sum_of_ext (f g : nat -> Q) l : (forall i, In i l -> f i == g i) -> sum_of (map f l) == sum_of (map g l).
Proof. induction l as [|a l IH]; intros H; simpl; [reflexivity|]. rewrite (H a (or_introl eq_refl)), IH; [reflexivity|]. intros i Hi. apply H. now right. Qed.

(* the step is a single number when the old widths are all the same *)
Lemma step_scalar x y dxn yerr meth dx D out d : dx_old_of x dx = D -> (forall e, In e D -> e == d) -> 0 < d -> D <> [] ->
  rebin_data idq idq x y dxn yerr meth dx = Ok out -> exists s, r_step out = StepScalar s.
Proof.
  intros HD He Hd Hne E. unfold rebin_data in E. rewrite HD in E.
  assert (HV : qlt (variance D / mean D) (1 # 1000000) = true).
  { assert (Hp : 0 < inject_Z (Z.of_nat (length D))).
    { destruct D; [congruence|]. assert (H := zof_lt 0 (length (q :: D)) ltac:(simpl; lia)). change (inject_Z (Z.of_nat 0)) with 0 in H. lra. }
    assert (HS : forall l c, (forall e, In e l -> e == c) -> qsum l == c * inject_Z (Z.of_nat (length l))).
    { clear. intros l c. induction l as [|b l IH]; intros H. 
      - simpl. change (inject_Z (Z.of_nat 0)) with 0. ring.
      - cbn [length]. rewrite zof_S. change (qsum (b :: l)) with (b + qsum l). rewrite IH, (H b); [ring|now left|]. intros e Hin. apply H. now right. }
    assert (HM : mean D == d). { unfold mean. rewrite (HS D d He). field. lra. }
    assert (HVa : variance D == 0).
    { unfold variance, mean at 1. rewrite (HS _ 0). 
      - rewrite map_length. field. lra.
      - intros e Hin. apply in_map_iff in Hin. destruct Hin as (v & <- & Hv). rewrite (He v Hv), HM. ring. }
    apply qlt_t. rewrite HVa, HM. setoid_replace (0 / d) with 0 by (field; lra). reflexivity. }
  cbv zeta in E. rewrite HV, Bool.orb_true_r in E.
  destruct (existsb _ _); [discriminate|].
  repeat (match type of E with bind (bind ?a _) _ = _ => destruct a; [|discriminate]; cbn [bind] in E | bind ?a _ = _ => destruct a; [|discriminate]; cbn [bind] in E end).
  injection E as <-. cbn [r_step]. eexists. reflexivity.
Qed.

(* Rebinning equally spaced bins by an integer factor, for any way to give the old widths. *)
Lemma rebin_even x y d m (average : bool) dxn dx D x0 k :
  equally_spaced x0 d x -> 0 < d -> length y = length x -> dxn == inject_Z (Z.of_nat m) * d ->
  widths_of x dx D -> (forall e, In e D -> e == d) -> D <> [] ->
  (0 < m)%nat -> (0 < k)%nat -> (k * m <= length x < (k + 1) * m)%nat ->
  exists out s, rebin_data idq idq x y dxn None (method_of average) dx = Ok out /\
    length (r_y out) = k /\ length (r_x out) = k /\
    (forall i, (i < k)%nat -> 
       nth i (r_x out) 0 == sum_of (map (fun j => nth (i * m + j) x 0) (seq 0 m)) / inject_Z (Z.of_nat m) /\
       nth i (r_y out) 0 == (if average then sum_of (map (fun j => nth (i * m + j) y 0) (seq 0 m)) / inject_Z (Z.of_nat m)
                             else sum_of (map (fun j => nth (i * m + j) y 0) (seq 0 m)))) /\
    r_step out = StepScalar s /\ s == inject_Z (Z.of_nat m).
Proof.
  intros He0 Hd Hy Hdxn HD HDd HDne Hm Hk Hkm. assert (He := spaced_evenly _ _ _ He0).
  assert (Hm1 : 1 <= inject_Z (Z.of_nat m)) by (assert (H := zof_lt 0 m Hm); change (inject_Z (Z.of_nat 0)) with 0 in H; lra).
  assert (Hdx : d <= dxn) by (rewrite Hdxn; setoid_replace d with (1 * d) at 1 by ring; apply Qmult_le_compat_r; lra).
  assert (Hpos : 0 < dxn) by lra.
  assert (Hxe : (0 < length x)%nat) by (destruct k; [lia|simpl in Hkm; lia]).
  destruct (nth_error_ex x 0 Hxe) as [x00 Hx0]. destruct (nth_error_ex x (length x - 1)) as [xl Hxl]; [lia|].
  assert (EQ0 : x00 == x0) by (rewrite (He _ _ Hx0); change (inject_Z (Z.of_nat 0)) with 0; ring).
  assert (HDl : (0 < length D)%nat) by (destruct D; [congruence|simpl; lia]).
  destruct (nth_error_ex D 0 HDl) as [d0 Hd0]. destruct (nth_error_ex D (length D - 1)) as [dl HdL]; [lia|].
  assert (Ed0 : d0 == d) by (apply HDd; eapply nth_error_In; eassumption).
  assert (Edl : dl == d) by (apply HDd; eapply nth_error_In; eassumption).
  assert (Hinc : increasing x).
  { intros i j u v Hij Hu Hv. rewrite (He _ _ Hu), (He _ _ Hv). assert (Hz := zof_lt i j Hij).
    assert ((inject_Z (Z.of_nat i) + 1) * d <= inject_Z (Z.of_nat j) * d) by (apply Qmult_le_compat_r; lra). lra. }
  assert (Hw : widths_at_most dxn x).
  { intros i u v Hu Hv. rewrite (He _ _ Hu), (He _ _ Hv), zof_S. lra. }
  assert (HL : xl + dl - x00 == inject_Z (Z.of_nat (length x)) * d).
  { rewrite (He _ _ Hxl), Edl, EQ0. replace (length x) with (S (length x - 1)) at 2 by lia. rewrite zof_S. ring. }
  assert (Hprod : forall n p, inject_Z (Z.of_nat (n * p)) == inject_Z (Z.of_nat n) * inject_Z (Z.of_nat p)).
  { intros n p. rewrite Nat2Z.inj_mul, inject_Z_mult. reflexivity. }
  assert (Hk1 : inject_Z (Z.of_nat k) * dxn <= xl + dl - x00).
  { rewrite HL, Hdxn. rewrite Qmult_assoc, <- Hprod. apply Qmult_le_compat_r; [apply zof_le; lia|lra]. }
  assert (Hk2 : xl + dl - x00 < inject_Z (Z.of_nat k + 1) * dxn).
  { rewrite HL, Hdxn. replace (Z.of_nat k + 1)%Z with (Z.of_nat (k + 1)) by lia.
    rewrite Qmult_assoc, <- Hprod. apply Qmult_lt_r; [assumption|]. assert (Hz := zof_lt _ _ (proj2 Hkm)). lra. }
  assert (Hye : length (errors_of y None) = length y) by apply map_length.
  destruct (rebin_main x y dxn None average dx D x00 xl d0 dl k) as (out & E & Lx & Ly & Le & P & Pst & _); try assumption; try lra.
  { intros e Hin. rewrite (HDd e Hin). assumption. }
  assert (HDc : dx_old_of x dx = D) by (apply widths_of_code; [intros ->; simpl in Hxe; lia|assumption]).
  destruct (step_scalar x y dxn None (method_of average) dx D out d HDc HDd Hd HDne E) as [s Es].
  exists out, s. split; [assumption|]. split; [assumption|]. split; [assumption|].
  set (xe := x ++ [xl + dl]) in *.
  assert (Hs : StronglySorted Qlt xe) by (apply edges_sorted; [assumption|assumption|lra]).
  assert (Hle : length xe = S (length y)) by (unfold xe; rewrite app_length; simpl; lia).
  assert (Hev : evenly x0 d xe).
  { apply evenly_edges; [assumption|assumption|assumption]. }
  assert (Hlo : forall i, x00 + inject_Z (Z.of_nat i) * dxn == x0 + inject_Z (Z.of_nat (i * m)) * d)
    by (intros i; rewrite Hprod, Hdxn, EQ0; ring).
  assert (Ham : forall z i, length z = length y -> (i < k)%nat ->
      amount xe z (x00 + inject_Z (Z.of_nat i) * dxn) (x00 + inject_Z (Z.of_nat (S i)) * dxn) == total (slice z (i * m) (S i * m))).
  { intros z i Hz Hi. apply (even_amount xe z x0 d m i); try assumption; try apply Hlo; try lia.
    - rewrite zof_S. lra.
    - rewrite Hz, Hy. assert (S i * m <= k * m)%nat by (apply Nat.mul_le_mono_r; lia). lia. }
  assert (Hob : forall i, (i < k)%nat -> old_bins xe (x00 + inject_Z (Z.of_nat i) * dxn) (x00 + inject_Z (Z.of_nat (S i)) * dxn) == inject_Z (Z.of_nat m)).
  { intros i Hi. rewrite (old_bins_amount xe y) by assumption. rewrite Ham; [|apply map_length|assumption].
    assert (S i * m <= k * m)%nat by (apply Nat.mul_le_mono_r; lia).
    rewrite slice_ones by lia. replace (S i * m - i * m)%nat with m by (simpl; lia). reflexivity. }
  split; [|split].
  - intros i Hi. destruct (P i Hi) as (xm & v & e & Hx & Hv & He' & Px & Pv & Pe). cbv zeta in *.
    assert (Hlen : (i * m + m <= length x)%nat) by (assert (S i * m <= k * m)%nat by (apply Nat.mul_le_mono_r; lia); simpl in *; lia).
    rewrite (nth_error_nth _ _ 0 Hx), (nth_error_nth _ _ 0 Hv). split.
    + rewrite (sum_of_ext _ (fun j => x0 + inject_Z (Z.of_nat (i * m + j)) * d)).
      2:{ intros j Hj. apply in_seq in Hj. apply He0. lia. }
      rewrite sum_progress by assumption. rewrite Px, Hlo, Hdxn, Ed0. field. lra.
    + assert (TR := total_run y (i * m) m ltac:(lia)). replace (i * m + m)%nat with (S i * m)%nat in TR by (simpl; lia).
      destruct average; [rewrite (Hob i Hi) in Pv|]; rewrite (Ham y i eq_refl Hi), TR in Pv; exact Pv.
  - assumption.
  - rewrite Es in Pst. rewrite Pst. apply (Hob 0%nat). assumption.
Qed.

Lemma py_int_nat s m : s == inject_Z (Z.of_nat m) -> py_int s = Z.of_nat m.
Proof.
  intros H. unfold py_int. assert (0 <= s). { rewrite H. change 0 with (inject_Z 0). rewrite <- Zle_Qle. lia. }
  replace (qle 0 s) with true by (symmetry; apply qle_t; assumption). rewrite H. apply Qfloor_Z.
Qed.
Lemma diffs_spaced x0 d x : equally_spaced x0 d x -> (2 <= length x)%nat -> exists D, widths_of x DxNone D /\ (forall e, In e D -> e == d) /\ D <> [].
Proof.
  intros H L. exists (diffs x). assert (A : are_diffs x (diffs x)) by (apply diffs_are; intros ->; simpl in L; lia).
  split; [exact A|]. assert (He := spaced_evenly _ _ _ H). clear H. split.
  - clear L A. intros e Hin. revert x0 He Hin. induction x as [|a x IH]; intros x0 He Hin; [destruct Hin|]. destruct x as [|b x]; [destruct Hin|].
    cbn [diffs] in Hin. destruct Hin as [<-|Hin].
    + rewrite (He 0%nat a eq_refl), (He 1%nat b eq_refl). change (inject_Z (Z.of_nat 0)) with 0. change (inject_Z (Z.of_nat 1)) with 1. ring.
    + apply (IH (x0 + d)); [|assumption]. intros i v Hv. rewrite (He (S i) v Hv), zof_S. ring.
  - destruct x as [|a [|b x] ]; simpl in L; try lia. discriminate.
Qed.

Lemma loop_last_ok {A} (l : list A) : l <> [] -> exists a, In a l /\ loop_last l = Ok a.
Proof.
  intros H. unfold loop_last. destruct (rev l) as [|a r] eqn:E.
  - apply (f_equal (@rev A)) in E. rewrite rev_involutive in E. contradiction.
  - exists a. split; [|reflexivity]. apply in_rev. rewrite E. now left.
Qed.
(* all the columns *)
Lemma rebin_columns x d m (average : bool) dxn dx D x0 k rows :
  equally_spaced x0 d x -> 0 < d -> table (length x) rows -> rows <> [] -> dxn == inject_Z (Z.of_nat m) * d ->
  widths_of x dx D -> (forall e, In e D -> e == d) -> D <> [] ->
  (0 < m)%nat -> (0 < k)%nat -> (k * m <= length x < (k + 1) * m)%nat ->
  exists outs out s, map_result (fun data => rebin_data (fun v => v) (fun v => v) x data dxn None (method_of average) dx) rows = Ok outs /\
    loop_last outs = Ok out /\ r_step out = StepScalar s /\ s == inject_Z (Z.of_nat m) /\ length outs = length rows /\
    length (r_x out) = k /\ length (r_y out) = k /\ table k (map r_y outs) /\
    (forall i, (i < k)%nat -> nth i (r_x out) 0 == time_sum x (i * m) m / inject_Z (Z.of_nat m)) /\
    forall c i, (c < length rows)%nat -> (i < k)%nat ->
      entry (map r_y outs) c i == (if average then freq_run rows c (i * m) m / inject_Z (Z.of_nat m) else freq_run rows c (i * m) m).
Proof.
  intros He Hd HT Hne Hdxn HD HDd HDne Hm Hk Hkm.
  assert (H1 : forall data, In data rows -> exists o, rebin_data (fun v => v) (fun v => v) x data dxn None (method_of average) dx = Ok o).
  { intros y Hy. unfold table in HT. rewrite Forall_forall in HT.
    destruct (rebin_even x y d m average dxn dx D x0 k He Hd (HT _ Hy) Hdxn HD HDd HDne Hm Hk Hkm) as (o & s & E & _). exists o. exact E. }
  destruct (map_result_ok _ _ H1) as [outs EO]. destruct (map_result_nth _ _ _ EO) as [LO PO].
  assert (PO' : forall i y o, nth_error rows i = Some y -> nth_error outs i = Some o -> exists s, 
     length (r_y o) = k /\ length (r_x o) = k /\
    (forall i, (i < k)%nat -> 
       nth i (r_x o) 0 == sum_of (map (fun j => nth (i * m + j) x 0) (seq 0 m)) / inject_Z (Z.of_nat m) /\
       nth i (r_y o) 0 == (if average then sum_of (map (fun j => nth (i * m + j) y 0) (seq 0 m)) / inject_Z (Z.of_nat m)
                             else sum_of (map (fun j => nth (i * m + j) y 0) (seq 0 m)))) /\
    r_step o = StepScalar s /\ s == inject_Z (Z.of_nat m)).
  { intros i y o Hy Ho. destruct (PO i y Hy) as (b & Hb & E). assert (b = o) by congruence. subst b.
    unfold table in HT. rewrite Forall_forall in HT.
    destruct (rebin_even x y d m average dxn dx D x0 k He Hd (HT _ (nth_error_In _ _ Hy)) Hdxn HD HDd HDne Hm Hk Hkm) as (o' & s & E' & R).
    change (fun v : Q => v) with idq in E. rewrite E' in E. assert (o' = o) by congruence. subst o'. exists s. exact R. }
  assert (Hon : outs <> []). { intros ->. destruct rows; [congruence|discriminate]. }
  destruct (loop_last_ok outs Hon) as (out & Hin & EL). destruct (In_nth_error _ _ Hin) as [n Hn].
  destruct (nth_error_ex rows n) as [yn Hyn]. { rewrite <- LO. apply nth_error_Some. congruence. }
  destruct (PO' n yn out Hyn Hn) as (s & Ly & Lx & PV & ES & Hs).
  exists outs, out, s. split; [exact EO|]. split; [exact EL|]. split; [exact ES|]. split; [exact Hs|]. split; [exact LO|].
  split; [exact Lx|]. split; [exact Ly|]. split; [|split].
  - unfold table. rewrite Forall_forall. intros c Hc. apply in_map_iff in Hc. destruct Hc as (o & <- & Ho).
    destruct (In_nth_error _ _ Ho) as [q Hq]. destruct (nth_error_ex rows q) as [yq Hyq]. { rewrite <- LO. apply nth_error_Some. congruence. }
    destruct (PO' q yq o Hyq Hq) as (? & L & _). exact L.
  - intros i Hi. apply (PV i Hi).
  - intros c i Hc Hi. destruct (nth_error_ex rows c Hc) as [y Hy]. destruct (nth_error_ex outs c) as [o Ho]; [lia|].
    destruct (PO' c y o Hy Ho) as (_ & _ & _ & PV' & _). destruct (PV' i Hi) as [_ V].
    unfold freq_run, entry. rewrite (nth_error_nth _ c [] (map_nth_error r_y c outs Ho)), (nth_error_nth _ c [] Hy). exact V.
Qed.

Lemma rebin_freq_main d f0 df m k (average : bool) df_new :
  equally_spaced f0 df (d_freq d) -> 0 < df -> (2 <= length (d_freq d))%nat -> table (length (d_freq d)) (d_cols d) -> d_cols d <> [] ->
  df_new == inject_Z (Z.of_nat m) * df -> (0 < m)%nat -> (0 < k)%nat -> (k * m <= length (d_freq d) < (k + 1) * m)%nat ->
  exists new, rebin_frequency d df_new (if average then MMean else MSum) = Ok (new, df_new) /\
    d_time new = d_time d /\ d_dt new = d_dt d /\ d_m new == inject_Z (Z.of_nat m) * d_m d /\
    length (d_freq new) = k /\ length (d_cols new) = length (d_cols d) /\ table k (d_cols new) /\
    (forall i, (i < k)%nat -> nth i (d_freq new) 0 == time_sum (d_freq d) (i * m) m / inject_Z (Z.of_nat m)) /\
    forall c i, (c < length (d_cols d))%nat -> (i < k)%nat -> entry (d_cols new) c i ==
      (if average then freq_run (d_cols d) c (i * m) m / inject_Z (Z.of_nat m) else freq_run (d_cols d) c (i * m) m).
Proof.
  intros He Hd HL HT Hne Hdf Hm Hk Hkm. destruct (diffs_spaced _ _ _ He HL) as (D & HD & HDd & HDne).
  destruct (rebin_columns (d_freq d) df m average df_new DxNone D f0 k (d_cols d)) as (outs & out & s & EO & EL & ES & Hs & LO & Lx & Ly & TT & PX & PV); try assumption.
  unfold rebin_frequency. change (if average then MMean else MSum) with (method_of average). rewrite EO. cbn [bind]. rewrite EL. cbn [bind].
  rewrite ES. cbn [int_step bind]. rewrite (py_int_nat s m Hs). eexists. split; [reflexivity|]. cbn [d_time d_dt d_m d_freq d_cols].
  split; [reflexivity|]. split; [reflexivity|]. split; [reflexivity|]. split; [exact Lx|]. split; [rewrite map_length; exact LO|].
  split; [exact TT|]. split; [exact PX|]. exact PV.
Qed.

Lemma rows_len n cols : length (rows_of n cols) = n.
Proof. unfold rows_of. rewrite map_length, seq_length. reflexivity. Qed.
Lemma rows_entry n cols f c : (f < n)%nat -> (c < length cols)%nat -> entry (rows_of n cols) f c = entry cols c f.
Proof.
  intros Hf Hc. unfold entry, rows_of.
  rewrite (nth_indep _ [] (map (fun c => nth 0 c 0) cols)) by (rewrite map_length, seq_length; assumption).
  rewrite (map_nth (fun f => map (fun c => nth f c 0) cols) (seq 0 n) 0%nat f), seq_nth by assumption. simpl (0 + f)%nat.
  rewrite (nth_indep _ 0 (nth f [] 0)) by (rewrite map_length; assumption).
  rewrite (map_nth (fun c => nth f c 0) cols [] c). reflexivity.
Qed.
Lemma rows_table n cols : table (length cols) (rows_of n cols).
Proof. unfold table, rows_of. rewrite Forall_forall. intros r Hr. apply in_map_iff in Hr. destruct Hr as (f & <- & _). apply map_length. Qed.

Lemma rebin_time_main d t0 m k (average : bool) dt_new :
  equally_spaced t0 (d_dt d) (d_time d) -> 0 < d_dt d -> length (d_cols d) = length (d_time d) -> (0 < length (d_freq d))%nat ->
  dt_new == inject_Z (Z.of_nat m) * d_dt d -> (0 < m)%nat -> (0 < k)%nat -> (k * m <= length (d_time d) < (k + 1) * m)%nat ->
  exists new, rebin_time d dt_new (if average then MMean else MSum) = Ok new /\
    d_freq new = d_freq d /\ d_dt new = dt_new /\ d_m new == inject_Z (Z.of_nat m) * d_m d /\
    length (d_time new) = k /\ length (d_cols new) = k /\ table (length (d_freq d)) (d_cols new) /\
    (forall i, (i < k)%nat -> nth i (d_time new) 0 == time_sum (d_time d) (i * m) m / inject_Z (Z.of_nat m)) /\
    forall i f, (i < k)%nat -> (f < length (d_freq d))%nat -> entry (d_cols new) i f ==
      (if average then run_sum (d_cols d) (i * m) m f / inject_Z (Z.of_nat m) else run_sum (d_cols d) (i * m) m f).
Proof.
  intros He Hd HC HF Hdt Hm Hk Hkm.
  assert (Hm1 : 1 <= inject_Z (Z.of_nat m)) by (assert (H := zof_lt 0 m Hm); change (inject_Z (Z.of_nat 0)) with 0 in H; lra).
  assert (Hge : d_dt d <= dt_new) by (rewrite Hdt; setoid_replace (d_dt d) with (1 * d_dt d) at 1 by ring; apply Qmult_le_compat_r; lra).
  assert (HT := rows_table (length (d_freq d)) (d_cols d)). rewrite HC in HT.
  destruct (rebin_columns (d_time d) (d_dt d) m average dt_new (DxScalar (d_dt d)) [d_dt d] t0 k (rows_of (length (d_freq d)) (d_cols d)))
    as (outs & out & s & EO & EL & ES & Hs & LO & Lx & Ly & TT & PX & PV); try assumption.
  { intros E. apply (f_equal (@length _)) in E. rewrite rows_len in E. simpl in E. lia. }
  { right. split; [lra|reflexivity]. }
  { intros e [<-|[] ]. reflexivity. }
  { discriminate. }
  rewrite rows_len in LO, PV.
  unfold rebin_time. replace (qlt dt_new (d_dt d)) with false by (symmetry; apply qlt_f; assumption).
  change (if average then MMean else MSum) with (method_of average). rewrite EO. cbn [bind]. rewrite EL. cbn [bind].
  rewrite ES. cbn [int_step bind]. rewrite (py_int_nat s m Hs). eexists. split; [reflexivity|]. cbn [d_time d_dt d_m d_freq d_cols].
  split; [reflexivity|]. split; [reflexivity|]. split; [reflexivity|]. split; [exact Lx|].
  split; [rewrite rows_len; exact Ly|]. split.
  { rewrite <- LO, <- (map_length r_y outs). apply rows_table. }
  split; [exact PX|].
  intros i f Hi Hf. rewrite rows_entry by (rewrite ?map_length; lia). rewrite (PV f i Hf Hi).
  assert (RS : freq_run (rows_of (length (d_freq d)) (d_cols d)) f (i * m) m == run_sum (d_cols d) (i * m) m f).
  { unfold freq_run, run_sum. apply sum_of_ext. intros j Hj. apply in_seq in Hj. rewrite rows_entry; [reflexivity|assumption|].
    assert (S i * m <= k * m)%nat by (apply Nat.mul_le_mono_r; lia). simpl in *. lia. }
  destruct average; rewrite RS; reflexivity.
Qed.
Lemma rebin_time_small d dt_new method : dt_new < d_dt d -> rebin_time d dt_new method = Err ValueError.
Proof. intros H. unfold rebin_time. replace (qlt dt_new (d_dt d)) with true by (symmetry; apply qlt_t; assumption). reflexivity. Qed.
Lemma rebin_freq_empty d df_new method : d_cols d = [] -> rebin_frequency d df_new method = Err UnboundLocalError.
Proof. intros H. unfold rebin_frequency. rewrite H. reflexivity. Qed.
Lemma rebin_freq_method d f0 df df_new m k :
  equally_spaced f0 df (d_freq d) -> 0 < df -> (2 <= length (d_freq d))%nat -> table (length (d_freq d)) (d_cols d) -> d_cols d <> [] ->
  df_new == inject_Z (Z.of_nat m) * df -> (0 < m)%nat -> (0 < k)%nat -> (k * m <= length (d_freq d) < (k + 1) * m)%nat ->
  rebin_frequency d df_new MOther = Err ValueError.
Proof.
  intros He Hd HL HT Hne Hdf Hm Hk Hkm. destruct (diffs_spaced _ _ _ He HL) as (D & HD & HDd & HDne).
  unfold rebin_frequency. destruct (d_cols d) as [|y cols]; [congruence|]. inversion HT as [|? ? Ly _]; subst.
  destruct (rebin_even (d_freq d) y df m true df_new DxNone D f0 k) as (o & s & E & _); try assumption.
  assert (G : rebin_data idq idq (d_freq d) y df_new None MOther DxNone = Err ValueError).
  { unfold rebin_data in *. destruct (existsb _ _); [discriminate|].
    repeat (match type of E with bind ?a _ = _ => destruct a; [|discriminate]; cbn [bind] in * end). reflexivity. }
  cbn [map_result]. change (fun v : Q => v) with idq. rewrite G. reflexivity.
Qed.

(* the docstring: "Must be larger than the old resolution" *)
Lemma rebin_freq_small d a b l df_new method : d_cols d <> [] -> d_freq d = a :: b :: l -> df_new < b - a ->
  rebin_frequency d df_new method = Err ValueError.
Proof.
  intros Hne Hf Hlt. unfold rebin_frequency. destruct (d_cols d) as [|y cols]; [congruence|]. cbn [map_result].
  unfold rebin_data at 1. rewrite Hf. cbn [dx_old_of diffs existsb].
  replace (qlt df_new (b - a)) with true by (symmetry; apply qlt_t; assumption). reflexivity.
Qed.

(* A gap: the bins over it get powers that no segment has. *)
Lemma rebin_time_gap_refuted : exists d dt_new new, d_dt d == 1 /\ (forall c f, (c < 4)%nat -> (f < 1)%nat -> entry (d_cols d) c f == 1) /\
  length (d_cols d) = 4%nat /\ length (d_freq d) = 1%nat /\ length (d_time d) = 4%nat /\
  rebin_time d dt_new MMean = Ok new /\
  exists c, (c < length (d_cols new))%nat /\ ~ entry (d_cols new) c 0 == 1.
Proof.
  exists (mkDyn [1] [1#2; 3#2; 21#2; 23#2] [[1]; [1]; [1]; [1]] 1 1), 2. eexists. split; [reflexivity|].
  split. { intros c f Hc Hf. assert (f = 0%nat) by lia. subst f. do 4 (destruct c as [|c]; [reflexivity|]). lia. }
  split; [reflexivity|]. split; [reflexivity|]. split; [reflexivity|]. split; [vm_compute; reflexivity|].
  exists 1%nat. split; [vm_compute; lia|]. vm_compute. discriminate.
Qed.
(* a factor that is not an integer: m does not count the averaged powers *)
Lemma rebin_freq_m_refuted : exists d new, equally_spaced 1 1 (d_freq d) /\ d_m d == 1 /\
  rebin_frequency d (3 # 2) MMean = Ok (new, 3 # 2) /\ d_m new == 1 /\ ~ d_m new == (3 # 2) * d_m d.
Proof.
  exists (mkDyn [1; 2; 3; 4; 5; 6] [1#2] [[1; 2; 3; 4; 5; 6]] 1 1). eexists.
  split. { intros i Hi. do 6 (destruct i as [|i]; [vm_compute; reflexivity|]). simpl in Hi. lia. }
  split; [reflexivity|]. split; [vm_compute; reflexivity|]. split; [vm_compute; reflexivity|]. vm_compute. discriminate.
Qed.
