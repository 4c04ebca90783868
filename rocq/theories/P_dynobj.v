(* P_dynobj.v: shift_and_add, power_colors and compute_rms of dynamical spectra. *)
From Coq Require Import Reals Qreals.
From Coq Require Import Lqa Lia.
From Verif Require Import Np Lib S_utils S_spec S_lc S_fold S_dyn M_gti M_seg M_utils M_power M_espec M_fourier M_pcolor M_spec P_seg_cut P_rebin2 P_logbin P_rms P_shift P_dyn2 P_segan5 P_pcolor P_pcolor2 M_dynobj S_dynobj.
Open Scope Q_scope.

Lemma f2_same {A B} (R : A -> B -> Prop) l l' : Forall2 R l l' -> length l = length l'.
Proof.
  induction 1; cbn [length]; congruence.
Qed.
(* ---------- rms ---------- *)
Lemma select_range (h : Q -> Q) lo hi : forall freq col, length freq = length col ->
  select (map h col) (map (fun f => qle lo f && qle f hi)%bool freq) = map h (in_range_powers lo hi freq col).
Proof.
  unfold in_range_powers. induction freq as [|f freq IH]; intros [|p col] L; try discriminate; [reflexivity|]. cbn [map select combine filter fst].
  rewrite IH by (cbn in L; lia). destruct (qle lo f && qle f hi)%bool; reflexivity.
Qed.
Lemma sum3_repeat (f : Q -> Q -> Q -> Q) (a b : Q) (h : Q -> Q) l : sum3 f (map h l) (map (fun _ => a) l) (map (fun _ => b) l) == total (map (fun p => f (h p) a b) l).
Proof.
  induction l as [|x l IH]; cbn [map sum3]; [reflexivity|]. rewrite IH. reflexivity.
Qed.
Lemma dyn_rms d lo hi level : (forall col, In col (o_cols d) -> length (o_freq d) = length col) -> 0 < o_df d -> 0 < o_m d -> 0 < o_nphots d -> 0 < o_segment d -> ~ o_conv d == 0 ->
  exists l, dyn_compute_rms d lo hi level = Ok l /\
  Forall2 (fun col r => let u := in_range_powers lo hi (o_freq d) col in let g := frac_norm (o_nphots d) (o_segment d) / o_conv d in
    exists V, finished (total (map (fun p => g * (p - level) * o_df d) u)) V (fst r) (snd r) /\
    (~ o_m d == 1 \/ (length u <= 4)%nat -> V == total (map (fun p => (g * p) * (g * p) * (o_df d * o_df d) / o_m d) u)) /\
    ((4 < length u)%nat -> o_m d == 1 -> V == grouped_var (o_df d) (map (fun p => g * p) u))) (o_cols d) l.
Proof.
  intros Hc Hdf Hm Hn Hs Hv. unfold dyn_compute_rms. induction (o_cols d) as [|col cols IH]; [exists []; split; [reflexivity|constructor]|].
  destruct IH as (l & E & F); [intros c Hin; apply Hc; right; exact Hin|]. cbn [map_result]. rewrite E.
  unfold bool_index. rewrite !map_length, (Hc col (or_introl eq_refl)), Nat.eqb_refl. cbn [bind].
  rewrite select_range by (apply Hc; left; reflexivity). set (u := in_range_powers lo hi (o_freq d) col) in *.
  unfold rms_unnorm. cbv zeta. rewrite map_map. set (h := fun x => x / o_conv d * 2 / o_nphots d / (o_nphots d / o_segment d)).
  set (g := frac_norm (o_nphots d) (o_segment d) / o_conv d). assert (Hh : forall p, h p == g * p) by (intros p; unfold h, g, frac_norm; field; split; [|split]; lra).
  destruct (rms_norm_main (map h u) (h level) (One (o_df d)) (One (o_m d)) (map (fun _ => o_df d) u) (map (fun _ => o_m d) u) (o_m d / o_df d)) as (r2 & e2 & V & ER & FI & V1 & V2).
  - now rewrite !map_length.
  - now rewrite !map_length.
  - intros x Hx. apply in_map_iff in Hx. destruct Hx as (y & <- & _). reflexivity.
  - intros x Hx. apply in_map_iff in Hx. destruct Hx as (y & <- & _). reflexivity.
  - exact I.
  - intros x Hx. apply in_map_iff in Hx. destruct Hx as (y & <- & _). exact Hdf.
  - intros x Hx. apply in_map_iff in Hx. destruct Hx as (y & <- & _). exact Hm.
  - clear - Hdf. induction u as [|x u IH]; cbn [map]; constructor; [|exact IH]. field. lra.
  - change (fun x : Q => x / o_conv d * 2 / o_nphots d / (o_nphots d / o_segment d)) with h. fold (h level). rewrite ER. cbn [bind].
    exists ((r2, e2) :: l). split; [reflexivity|]. constructor; [|exact F]. cbv zeta. fold u g. exists V. cbn [fst snd].
    assert (EI : sum3 (fun x y _ : Q => (x - h level) * y) (map h u) (map (fun _ => o_df d) u) (map (fun _ => o_m d) u) == total (map (fun p => g * (p - level) * o_df d) u)).
    { rewrite sum3_repeat. apply total_map_ext. intros p _. rewrite !Hh. ring. }
    split; [|split].
    + unfold finished in *. destruct FI as (F1 & F2 & F3 & F4). rewrite EI in F1, F2, F3, F4. split; [assumption|]. split; [assumption|]. split; [assumption|].
      intros HI. destruct (F4 HI) as (v & Ev & Hw). exists v. split; [assumption|]. rewrite <- EI. assumption.
    + intros HV. destruct u as [|p0 u0] eqn:Eu; rewrite <- Eu in *.
      * rewrite V1 by (right; rewrite map_length, Eu; cbn; lia). rewrite Eu. reflexivity.
      * rewrite V1, sum3_repeat.
        { apply total_map_ext. intros p _. rewrite Hh. reflexivity. }
        rewrite map_length. destruct HV as [HV|HV]; [left; exists (o_m d); split; [rewrite Eu; left; reflexivity|exact HV]|right; exact HV].
    + intros HL HM. rewrite (V2 (o_df d)).
      * apply grouped_ext; [reflexivity|]. clear - Hh. induction u as [|x u IH]; cbn [map]; constructor; [apply Hh|exact IH].
      * rewrite map_length. exact HL.
      * intros m Hi. apply in_map_iff in Hi. destruct Hi as (y & <- & _). exact HM.
      * intros m Hi. apply in_map_iff in Hi. destruct Hi as (y & <- & _). reflexivity.
Qed.
(* a spectrum in fractional normalization: the square of the rms is the integral of the powers above the level *)
Lemma dyn_rms_frac d lo hi level l : (forall col, In col (o_cols d) -> length (o_freq d) = length col) -> 0 < o_df d -> 0 < o_m d -> 0 < o_nphots d -> 0 < o_segment d ->
  o_conv d == frac_norm (o_nphots d) (o_segment d) -> dyn_compute_rms d lo hi level = Ok l ->
  Forall2 (fun col r => let I := total (map (fun p => (p - level) * o_df d) (in_range_powers lo hi (o_freq d) col)) in (0 <= I -> fst r == I) /\ (I < 0 -> fst r == 0)) (o_cols d) l.
Proof.
  intros Hc Hdf Hm Hn Hs Hv E. assert (HN : 0 < frac_norm (o_nphots d) (o_segment d)).
  { unfold frac_norm. apply Qlt_shift_div_l; [|lra]. apply (Qmult_lt_l 0 (o_nphots d) (o_nphots d) Hn) in Hn as H. lra. }
  destruct (dyn_rms d lo hi level Hc Hdf Hm Hn Hs) as (l' & E' & F); [lra|]. assert (l' = l) by congruence. subst l'.
  clear - F HN Hv. induction F as [|col r cols l H F IH]; constructor; [|exact IH]. cbv zeta in *. destruct H as (V & (F1 & F2 & _) & _).
  assert (X : total (map (fun p => frac_norm (o_nphots d) (o_segment d) / o_conv d * (p - level) * o_df d) (in_range_powers lo hi (o_freq d) col)) ==
              total (map (fun p => (p - level) * o_df d) (in_range_powers lo hi (o_freq d) col))).
  { apply total_map_ext. intros p _. setoid_replace (frac_norm (o_nphots d) (o_segment d) / o_conv d) with 1; [ring|]. rewrite Hv. field. lra. }
  rewrite X in F1, F2. split; [exact F2|]. intros H. apply F1. exact H.
Qed.
Lemma map_result_bad {A B} (f : A -> result B) l a e : In a l -> f a = Err e -> exists e', map_result f l = Err e'.
Proof.
  intros H E. induction l as [|x l IH]; [destruct H|]. cbn [map_result]. destruct (f x) as [y|e0] eqn:F; [|exists e0; reflexivity]. cbn [bind].
  destruct H as [->|H]; [congruence|]. destruct (IH H) as (e1 & E1). rewrite E1. exists e1. reflexivity.
Qed.
Lemma dyn_rms_lengths d lo hi level col : In col (o_cols d) -> length (o_freq d) <> length col -> exists e, dyn_compute_rms d lo hi level = Err e.
Proof.
  intros H N. unfold dyn_compute_rms. eapply map_result_bad; [exact H|].
  unfold bool_index. rewrite !map_length. replace (Nat.eqb (length col) (length (o_freq d))) with false by (symmetry; apply Nat.eqb_neq; congruence). reflexivity.
Qed.

(* ---------- power colors ---------- *)
Lemma dyn_colors d edges excl noise cs after : dyn_power_colors d edges excl noise = Ok (cs, after) ->
  length cs = length (o_cols d) /\ length after = length (o_cols d) /\
  forall i col c a, nth_error (o_cols d) i = Some col -> nth_error cs i = Some c -> nth_error after i = Some a ->
  exists rows, power_color (column_rows d noise col) edges (Some (o_m d)) excl = Ok (c, rows) /\ a = map b_p rows.
Proof.
  intros E. unfold dyn_power_colors in E. apply bind_ok in E. destruct E as (l & E & E'). apply map_result_forall2 in E. injection E' as <- <-.
  rewrite !map_length, <- (f2_same _ _ _ E). split; [reflexivity|]. split; [reflexivity|]. clear - E. induction E as [|col x cols l H E IH]; intros [|i] c0 c a A B C; try discriminate.
  - cbn [nth_error map] in *. injection A as <-. injection B as <-. injection C as <-. exists (snd x). rewrite <- surjective_pairing. split; [exact H|reflexivity].
  - exact (IH i c0 c a A B C).
Qed.
Lemma column_back d noise col : length (o_freq d) = length col -> length noise = length col -> map b_p (column_rows d noise col) = col.
Proof.
  unfold column_rows. rewrite map_map. cbn [b_p]. revert col noise. induction (o_freq d) as [|f fr IH]; intros [|p col] [|n noise] L1 L2; try discriminate; [reflexivity|].
  cbn [combine map fst snd]. f_equal. apply IH; cbn in *; lia.
Qed.
Lemma no_exclusion rows edges m c rows' : power_color rows edges m [] = Ok (c, rows') -> rows' = rows.
Proof.
  unfold power_color. destruct edges as [|e0 [|e1 [|e2 [|e3 [|e4 [|]]]]]]; try discriminate. intros E.
  apply bind_ok in E. destruct E as (r0 & _ & E). apply bind_ok in E. destruct E as (lo & _ & E). apply bind_ok in E. destruct E as (hi & _ & E). apply bind_ok in E. destruct E as (rl & _ & E).
  destruct (qlt _ _); [discriminate|]. destruct (qlt _ _); [discriminate|]. cbn [exclude_all bind] in E.
  apply bind_ok in E. destruct E as (v0 & _ & E). apply bind_ok in E. destruct E as (v1 & _ & E). apply bind_ok in E. destruct E as (v2 & _ & E). apply bind_ok in E. destruct E as (v3 & _ & E).
  congruence.
Qed.
Lemma dyn_colors_kept d edges noise cs after : (forall col, In col (o_cols d) -> length (o_freq d) = length col /\ length noise = length col) ->
  dyn_power_colors d edges [] noise = Ok (cs, after) -> after = o_cols d.
Proof.
  intros H E. unfold dyn_power_colors in E. apply bind_ok in E. destruct E as (l & E & E'). apply map_result_forall2 in E. injection E' as _ <-. revert H.
  induction E as [|col [c rows] cols l A E IH]; intros H; [reflexivity|]. cbn [map snd]. f_equal; [|apply IH; intros x Hx; apply H; right; exact Hx].
  rewrite (no_exclusion _ _ _ _ _ A). apply column_back; apply H; left; reflexivity.
Qed.
(* the powers of the object are changed when frequencies are excluded *)
Definition dyn_ex : dynobj := mkDynobj [1; 2; 3; 4; 5; 6; 7; 8] [[1; 9; 1; 1; 1; 1; 1; 1]] 1 1 1 1 1.
Lemma dyn_colors_refuted : exists d edges excl noise cs after, dyn_power_colors d edges excl noise = Ok (cs, after) /\ after <> o_cols d.
Proof.
  assert (H : exists c rows, power_color (column_rows dyn_ex [0; 0; 0; 0; 0; 0; 0; 0] [1; 9; 1; 1; 1; 1; 1; 1]) [1; 3; 5; 6; 8] (Some 1) [(1, 3)] = Ok (c, rows) /\ map b_p rows <> [1; 9; 1; 1; 1; 1; 1; 1]).
  { eexists _, _. split; [apply power_color_eval; vm_compute; reflexivity|]. vm_compute. discriminate. }
  destruct H as (c & rows & E & H). exists dyn_ex, [1; 3; 5; 6; 8], [(1, 3)], [0; 0; 0; 0; 0; 0; 0; 0], [c], [map b_p rows]. unfold dyn_power_colors.
  assert (M : map_result (fun col => power_color (column_rows dyn_ex [0; 0; 0; 0; 0; 0; 0; 0] col) [1; 3; 5; 6; 8] (Some (o_m dyn_ex)) [(1, 3)]) (o_cols dyn_ex) = Ok [(c, rows)]).
  { change (o_cols dyn_ex) with [[1; 9; 1; 1; 1; 1; 1; 1]]. change (o_m dyn_ex) with 1. cbn [map_result]. rewrite E. reflexivity. }
  rewrite M. split; [reflexivity|]. intros C. apply H. change (o_cols dyn_ex) with [[1; 9; 1; 1; 1; 1; 1; 1]] in C. congruence.
Qed.

(* ---------- shift and add ---------- *)
Lemma kept_rows (f n : list Q) : forall p : list (option Q), length f = length p -> length n = length p ->
  let rows := flat_map (fun x => match snd x with Some v => [(fst x, v)] | None => [] end) (combine (combine f n) p) in
  let ix := filter (fun j => match nth j p None with Some _ => true | None => false end) (seq 0 (length p)) in
  map (fun x => fst (fst x)) rows = map (fun j => nth j f 0) ix /\ map (fun x => snd (fst x)) rows = map (fun j => nth j n 0) ix /\
  map (fun x => Some (snd x)) rows = map (fun j => nth j p None) ix.
Proof.
  revert n. induction f as [|a f IH]; intros [|b n] [|c p] L1 L2; try discriminate; [split; [|split]; reflexivity|].
  destruct (IH n p ltac:(cbn in L1; lia) ltac:(cbn in L2; lia)) as (A & B & C). cbv zeta in *. cbn [combine flat_map length seq filter fst snd].
  change (nth 0 (c :: p) None) with c. rewrite <- seq_shift. assert (S : filter (fun j => match nth j (c :: p) None with Some _ => true | None => false end) (map S (seq 0 (length p))) =
    map S (filter (fun j => match nth j p None with Some _ => true | None => false end) (seq 0 (length p)))).
  { clear. induction (seq 0 (length p)) as [|x l IH]; [reflexivity|]. cbn [map filter]. change (nth (S x) (c :: p) None) with (nth x p None). destruct (nth x p None); cbn [map]; rewrite IH; reflexivity. }
  destruct c as [v|]; cbn [app map fst snd]; rewrite S; cbn [map]; rewrite !map_map.
  - split; [|split]; (apply f_equal2; [reflexivity|]); [exact A|exact B|exact C].
  - split; [|split]; [exact A|exact B|exact C].
Qed.
Lemma zadd_len l k v l' : zadd l k v = Ok l' -> length l' = length l.
Proof.
  unfold zadd, zget. intros E. apply bind_ok in E. destruct E as (x & G & E). destruct (k <? 0)%Z; [discriminate|].
  assert (l' = firstn (Z.to_nat k) l ++ (x + v) :: skipn (S (Z.to_nat k)) l) by congruence. subst l'.
  assert ((Z.to_nat k < length l)%nat).
  { unfold get in G. destruct (nth_error l (Z.to_nat k)) eqn:N; [|discriminate]. apply nth_error_Some. congruence. }
  rewrite app_length. cbn [length]. rewrite firstn_length, skipn_length. lia.
Qed.
Lemma inner_len cnt : forall i arr w in0 out0 out sow r, sa_inner cnt i arr w in0 out0 out sow = Ok r -> length (fst r) = length out /\ length (snd r) = length sow.
Proof.
  induction cnt as [|c IH]; intros i arr w in0 out0 out sow r E; cbn [sa_inner] in E; [assert (r = (out, sow)) by congruence; subst r; split; reflexivity|].
  apply bind_ok in E. destruct E as (x & _ & E). apply bind_ok in E. destruct E as (o & E1 & E). apply bind_ok in E. destruct E as (s & E2 & E).
  destruct (IH _ _ _ _ _ _ _ _ E) as (A & B). rewrite A, B. split; eapply zadd_len; eassumption.
Qed.
Lemma outer_len a b l : forall out sow r, sa_outer a b l out sow = Ok r -> length (fst r) = length out /\ length (snd r) = length sow.
Proof.
  induction l as [|[idx [arr w]] l IH]; intros out sow r E; cbn [sa_outer] in E; [assert (r = (out, sow)) by congruence; subst r; split; reflexivity|].
  cbv zeta in E. apply bind_ok in E. destruct E as (os & E1 & E). destruct (IH _ _ _ E) as (A & B). destruct (inner_len _ _ _ _ _ _ _ _ _ E1) as (C & D). rewrite A, B, C, D. split; reflexivity.
Qed.
Lemma sa_lengths freqs powers f0s nbins ws df f p n : shift_and_add freqs powers f0s nbins ws df = Ok (f, p, n) -> length p = nbins /\ length n = nbins.
Proof.
  unfold shift_and_add. cbv zeta. intros E. apply bind_ok in E. destruct E as (r & E1 & E). apply bind_ok in E. destruct E as (df' & _ & E). apply bind_ok in E. destruct E as (g0 & _ & E). apply bind_ok in E. destruct E as (gl & _ & E).
  assert (p = fst r /\ n = snd r) as (-> & ->) by (split; congruence). clear E. unfold shift_and_average_core in E1. apply bind_ok in E1. destruct E1 as (a0 & _ & E1). cbv zeta in E1. apply bind_ok in E1. destruct E1 as (os & E1 & E2).
  destruct (outer_len _ _ _ _ _ _ E1) as (A & B). rewrite repeat_length in A, B.
  assert (r = (map (fun p => if qeq (snd p) 0 then None else Some (fst p / snd p)) (combine (fst os) (snd os)), snd os)) by congruence. subst r. cbn [fst snd].
  rewrite map_length, combine_length, A, B. split; [apply Nat.min_id|reflexivity].
Qed.
Lemma dyn_shift_plain d f0s nbins a : o_cols d <> [] -> (0 < nbins)%nat -> dyn_shift_and_add d f0s nbins None = Ok a ->
  exists f p n, shift_and_add (o_freq d) (o_cols d) f0s nbins (map (fun _ => o_m d) (o_cols d)) (Some (o_df d)) = Ok (f, p, n) /\ length f = nbins /\
  (let ix := filter (fun j => match nth j p None with Some _ => true | None => false end) (seq 0 nbins) in
   a_freq a = map (fun j => nth j f 0) ix /\ a_m a = map (fun j => nth j n 0) ix /\ map Some (a_power a) = map (fun j => nth j p None) ix) /\
  a_df a = o_df d /\ (forall j, (S j < nbins)%nat -> nth (S j) f 0 - nth j f 0 == a_df a).
Proof.
  intros Hc Hn E. unfold dyn_shift_and_add, shift_and_add_rebin in E. apply bind_ok in E. destruct E as ([[f p] n] & E1 & E). apply bind_ok in E1. destruct E1 as (r & E1 & E2).
  assert (r = (f, p, n)) by congruence. subst r. assert (Ea : a = mkAvgspec _ _ _ _) by (symmetry; injection E as E; exact E). subst a. clear E E2.
  destruct (o_cols d) as [|c0 cs] eqn:Ec; [congruence|]. destruct (sa_freqs _ _ _ _ _ _ _ _ _ _ Hn E1) as (L & H). exists f, p, n. split; [exact E1|]. split; [exact L|].
  cbn [a_freq a_m a_power a_df]. split; [|split; [reflexivity|]].
  - destruct (sa_lengths _ _ _ _ _ _ _ _ _ E1) as (Lp & Ln). destruct (kept_rows f n p ltac:(congruence) ltac:(congruence)) as (A & B & C). rewrite Lp in *. cbv zeta in *. split; [exact A|]. split; [exact B|]. rewrite map_map. exact C.
  - intros j Hj. rewrite (H (S j)), (H j) by lia. replace (Z.of_nat (S j)) with (Z.of_nat j + 1)%Z by lia. rewrite inject_Z_plus. change (inject_Z 1) with 1. ring.
Qed.
Lemma all_some_map (p : list (option Q)) v : all_some p = Some v -> p = map Some v.
Proof.
  revert v. induction p as [|[x|] p IH]; intros v E; cbn [all_some] in E; try discriminate; [injection E as <-; reflexivity|].
  destruct (all_some p) as [w|]; [|discriminate]. injection E as <-. cbn [map]. f_equal. apply IH. reflexivity.
Qed.
Lemma all_some_eq (v : list Q) : all_some (map Some v) = Some v.
Proof.
  induction v as [|x v IH]; [reflexivity|]. cbn [map all_some]. rewrite IH. reflexivity.
Qed.
Lemma flat_some (a b c : list Q) : length a = length c -> length b = length c ->
  let rows := flat_map (fun x => match snd x with Some v => [(fst x, v)] | None => [] end) (combine (combine a b) (map Some c)) in
  map (fun x => fst (fst x)) rows = a /\ map (fun x => snd (fst x)) rows = b /\ map snd rows = c.
Proof.
  revert b c. induction a as [|x a IH]; intros [|y b] [|z c] L1 L2; try discriminate; [split; [|split]; reflexivity|].
  destruct (IH b c ltac:(cbn in L1; lia) ltac:(cbn in L2; lia)) as (A & B & C). cbv zeta in *. cbn [combine map flat_map app fst snd]. rewrite A, B, C. split; [|split]; reflexivity.
Qed.
(* m bins in one: mean frequency, mean power, sum of the numbers; df is not changed *)
Lemma dyn_shift_rebin d f0s nbins m k f v n : o_cols d <> [] -> (2 <= nbins)%nat -> 0 < o_df d ->
  shift_and_add (o_freq d) (o_cols d) f0s nbins (map (fun _ => o_m d) (o_cols d)) (Some (o_df d)) = Ok (f, map Some v, n) ->
  (0 < m)%nat -> (0 < k)%nat -> (k * m <= nbins < (k + 1) * m)%nat ->
  exists a, dyn_shift_and_add d f0s nbins (Some (inject_Z (Z.of_nat m))) = Ok a /\ length (a_freq a) = k /\ length (a_power a) = k /\ length (a_m a) = k /\ a_df a = o_df d /\
  forall i, (i < k)%nat -> let q := inject_Z (Z.of_nat m) in
    nth i (a_freq a) 0 == group_sum m i f / q /\ nth i (a_power a) 0 == group_sum m i v / q /\ nth i (a_m a) 0 == group_sum m i n.
Proof.
  intros Hc Hn Hdf E Hm Hk Hkm. destruct (sa_lengths _ _ _ _ _ _ _ _ _ E) as (Lv & Ln). rewrite map_length in Lv. destruct (o_cols d) as [|c0 cs] eqn:Ec; [congruence|]. rewrite <- Ec in *.
  assert (E' := E). rewrite Ec in E'. destruct (sa_freqs _ _ _ _ nbins _ _ _ _ _ ltac:(lia) E') as (L & H).
  assert (SP : equally_spaced (nth 0 f 0) (o_df d) f).
  { intros i Hi. rewrite (H i), (H 0%nat) by lia. change (inject_Z (Z.of_nat 0)) with 0. ring. }
  assert (WD : exists D, widths_of f DxNone D /\ (forall e, In e D -> e == o_df d) /\ D <> []).
  { apply (diffs_spaced (nth 0 f 0)); [exact SP|lia]. }
  destruct WD as (D & W1 & W2 & W3).
  destruct (rebin_even f n (o_df d) m false (inject_Z (Z.of_nat m) * o_df d) DxNone D (nth 0 f 0) k) as (oc & sc & EC & LC & LXC & PC & _); try assumption; try congruence; try reflexivity; try lia.
  destruct (rebin_even f v (o_df d) m false (inject_Z (Z.of_nat m) * o_df d) DxNone D (nth 0 f 0) k) as (ow & sw & EW & LW & LXW & PW & _); try assumption; try congruence; try reflexivity; try lia.
  cbn [method_of] in EC, EW. unfold S_fold.idq in EC, EW. unfold dyn_shift_and_add, shift_and_add_rebin. rewrite E. cbn [bind]. rewrite all_some_eq, EC. cbn [bind]. rewrite EW. cbn [bind].
  eexists. split; [reflexivity|]. cbn [a_freq a_power a_m a_df].
  replace (map (fun x => Some (x / inject_Z (Z.of_nat m))) (r_y ow)) with (map Some (map (fun x => x / inject_Z (Z.of_nat m)) (r_y ow))) by (now rewrite map_map).
  destruct (flat_some (r_x ow) (r_y oc) (map (fun x => x / inject_Z (Z.of_nat m)) (r_y ow))) as (A & B & C); [rewrite map_length; congruence|rewrite map_length; congruence|].
  cbv zeta in A, B, C. rewrite A, B, C. split; [exact LXW|]. split; [rewrite map_length; exact LW|]. split; [exact LC|]. split; [reflexivity|].
  intros i Hi. destruct (PW i Hi) as (X1 & X2). destruct (PC i Hi) as (_ & X3). rewrite sum_of_total in X1, X2, X3. split; [exact X1|]. split; [|exact X3].
  rewrite (nth_indep _ 0 (0 / inject_Z (Z.of_nat m))) by (rewrite map_length, LW; exact Hi). rewrite (map_nth (fun x => x / inject_Z (Z.of_nat m))). rewrite X2. reflexivity.
Qed.
(* the frequencies of the result are m df apart *)
Lemma group_shift m i (f : list Q) x0 dx : equally_spaced x0 dx f -> (S i * m + m <= length f)%nat -> group_sum m (S i) f - group_sum m i f == inject_Z (Z.of_nat m) * (inject_Z (Z.of_nat m) * dx).
Proof.
  intros SP L. unfold group_sum.
  assert (G : forall s c, (s + c <= m)%nat -> total (map (fun j => nth (S i * m + j) f 0) (seq s c)) - total (map (fun j => nth (i * m + j) f 0) (seq s c)) == inject_Z (Z.of_nat c) * (inject_Z (Z.of_nat m) * dx)).
  { intros s c. revert s. induction c as [|c IH]; intros s Hs; [cbn [seq map total fold_right]; change (inject_Z (Z.of_nat 0)) with 0; unfold total; cbn; ring|].
    cbn [seq map]. change (total (?a :: ?l)) with (a + total l). specialize (IH (S s) ltac:(lia)).
    assert (X : nth (S i * m + s) f 0 - nth (i * m + s) f 0 == inject_Z (Z.of_nat m) * dx).
    { rewrite (SP (S i * m + s)%nat), (SP (i * m + s)%nat) by (cbn in *; lia). replace (Z.of_nat (S i * m + s)) with (Z.of_nat (i * m + s) + Z.of_nat m)%Z by lia. rewrite inject_Z_plus. ring. }
    replace (Z.of_nat (S c)) with (Z.of_nat c + 1)%Z by lia. rewrite inject_Z_plus. change (inject_Z 1) with 1.
    transitivity ((nth (S i * m + s) f 0 - nth (i * m + s) f 0) + (total (map (fun j => nth (S i * m + j) f 0) (seq (S s) c)) - total (map (fun j => nth (i * m + j) f 0) (seq (S s) c)))); [ring|].
    rewrite X, IH. ring. }
  apply G. lia.
Qed.
Lemma dyn_shift_spacing d f0s nbins m k f v n a : o_cols d <> [] -> (2 <= nbins)%nat -> 0 < o_df d ->
  shift_and_add (o_freq d) (o_cols d) f0s nbins (map (fun _ => o_m d) (o_cols d)) (Some (o_df d)) = Ok (f, map Some v, n) ->
  (0 < m)%nat -> (0 < k)%nat -> (k * m <= nbins < (k + 1) * m)%nat -> dyn_shift_and_add d f0s nbins (Some (inject_Z (Z.of_nat m))) = Ok a ->
  forall i, (S i < k)%nat -> nth (S i) (a_freq a) 0 - nth i (a_freq a) 0 == inject_Z (Z.of_nat m) * a_df a.
Proof.
  intros Hc Hn Hdf E Hm Hk Hkm Ea i Hi. destruct (dyn_shift_rebin d f0s nbins m k f v n Hc Hn Hdf E Hm Hk Hkm) as (a' & E' & _ & _ & _ & D & P).
  assert (a' = a) by congruence. subst a'. destruct (P (S i) Hi) as (P1 & _). destruct (P i ltac:(lia)) as (P2 & _). cbv zeta in P1, P2. rewrite P1, P2, D.
  destruct (o_cols d) as [|c0 cs] eqn:Ec; [congruence|]. destruct (sa_freqs _ _ _ _ nbins _ _ _ _ _ ltac:(lia) E) as (L & H).
  assert (SP : equally_spaced (nth 0 f 0) (o_df d) f).
  { intros j Hj. rewrite (H j), (H 0%nat) by lia. change (inject_Z (Z.of_nat 0)) with 0. ring. }
  assert (B : (S i * m + m <= length f)%nat) by (rewrite L; assert ((S i + 1) * m <= k * m)%nat by (apply Nat.mul_le_mono_r; lia); lia).
  pose proof (group_shift m i f _ _ SP B) as G. set (q := inject_Z (Z.of_nat m)) in *.
  assert (Q0 : 0 < q) by (unfold q; change 0 with (inject_Z 0); rewrite <- Zlt_Qlt; lia).
  transitivity ((group_sum m (S i) f - group_sum m i f) / q); [field; lra|]. rewrite G. field. lra.
Qed.
(* the width of the bins of a rebinned result is not that of its frequencies *)
Definition dyn_ex2 : dynobj := mkDynobj [0; 1; 2; 3; 4; 5; 6; 7] [[1; 1; 1; 1; 5; 1; 1; 1]; [1; 1; 1; 7; 1; 1; 1; 1]] 1 1 1 1 1.
Lemma dyn_shift_width_refuted : exists d f0s a f0 f1, o_df d == 1 /\ dyn_shift_and_add d f0s 4 (Some 2) = Ok a /\ a_freq a = [f0; f1] /\ f1 - f0 == 2 /\ a_df a == 1.
Proof.
  exists dyn_ex2, [4; 3]. eexists _, _, _. split; [reflexivity|]. split; [vm_compute; reflexivity|]. split; [reflexivity|]. split; reflexivity.
Qed.
