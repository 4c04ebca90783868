(* P_shift.v: slices around a frequency, shift-and-add *)
From Verif Require Import Np Lib M_power S_power P_rebin P_power.
From Coq Require Import Lqa Sorting.Sorted.
Open Scope Q_scope.

Lemma inside_t size i : inside size i = true <-> (0 <= i < Z.of_nat size)%Z.
Proof. unfold inside. rewrite andb_true_iff, Z.leb_le, Z.ltb_lt. tauto. Qed.
Lemma inside_f size i : inside size i = false <-> ~ (0 <= i < Z.of_nat size)%Z.
Proof. rewrite <- inside_t. destruct (inside size i); split; congruence. Qed.

Lemma zget_nth l k : (0 <= k < Z.of_nat (length l))%Z -> zget l k = Ok (nth (Z.to_nat k) l 0).
Proof.
  intros H. unfold zget. destruct (Z.ltb_spec k 0); [lia|]. unfold get.
  rewrite (nth_error_nth' l 0) by lia. reflexivity.
Qed.
Lemma nth_put (l : list Q) k x j : (k < length l)%nat ->
  nth j (firstn k l ++ x :: skipn (S k) l) 0 = if Nat.eqb j k then x else nth j l 0.
Proof.
  intros H. destruct (Nat.eqb_spec j k) as [ -> |N].
  - rewrite app_nth2; rewrite firstn_length, Nat.min_l by lia; [|lia]. now rewrite Nat.sub_diag.
  - destruct (Nat.lt_ge_cases j k).
    + rewrite app_nth1 by (rewrite firstn_length; lia). rewrite <- (firstn_skipn k l) at 2. rewrite app_nth1 by (rewrite firstn_length; lia). reflexivity.
    + rewrite app_nth2; rewrite firstn_length, Nat.min_l by lia; [|lia].
      destruct (j - k)%nat as [|i] eqn:E; [lia|]. cbn [nth].
      rewrite <- (firstn_skipn (S k) l) at 2. rewrite app_nth2; rewrite firstn_length, Nat.min_l by lia; [|lia]. f_equal. lia.
Qed.
Lemma zadd_ok l k v : (0 <= k < Z.of_nat (length l))%Z ->
  exists l', zadd l k v = Ok l' /\ length l' = length l /\
    forall j, nth j l' 0 = if Z.eqb (Z.of_nat j) k then nth j l 0 + v else nth j l 0.
Proof.
  intros H. unfold zadd. rewrite zget_nth by exact H. cbn [bind]. eexists. split; [reflexivity|]. split.
  - rewrite app_length, firstn_length. cbn [length]. rewrite skipn_length. lia.
  - intros j. rewrite nth_put by lia. destruct (Nat.eqb_spec j (Z.to_nat k)), (Z.eqb_spec (Z.of_nat j) k); subst; try lia; reflexivity.
Qed.

Lemma inner_ok cnt : forall i arr w in0 out0 out sow nbins,
  length out = nbins -> length sow = nbins ->
  (0 <= in0 + i)%Z -> (in0 + i + Z.of_nat cnt <= Z.of_nat (length arr))%Z ->
  (0 <= out0 + i)%Z -> (out0 + i + Z.of_nat cnt <= Z.of_nat nbins)%Z ->
  exists o s, sa_inner cnt i arr w in0 out0 out sow = Ok (o, s) /\ length o = nbins /\ length s = nbins /\
    forall j, (j < nbins)%nat ->
      let b := ((out0 + i <=? Z.of_nat j) && (Z.of_nat j <? out0 + i + Z.of_nat cnt))%Z%bool in
      nth j o 0 == nth j out 0 + (if b then nth (Z.to_nat (in0 + (Z.of_nat j - out0))) arr 0 * w else 0) /\
      nth j s 0 == nth j sow 0 + (if b then w else 0).
Proof.
  induction cnt as [|c IH]; intros i arr w in0 out0 out sow nbins L1 L2 H1 H2 H3 H4.
  - exists out, sow. repeat split; try assumption; cbv zeta;
      (destruct (Z.leb_spec (out0 + i) (Z.of_nat j)), (Z.ltb_spec (Z.of_nat j) (out0 + i + Z.of_nat 0)); cbn [andb]; try lia; ring).
  - cbn [sa_inner]. rewrite zget_nth by lia. cbn [bind].
    destruct (zadd_ok out (out0 + i) (nth (Z.to_nat (in0 + i)) arr 0 * w)) as (out' & E1 & L1' & N1); [lia|].
    rewrite E1. cbn [bind].
    destruct (zadd_ok sow (out0 + i) w) as (sow' & E2 & L2' & N2); [lia|]. rewrite E2. cbn [bind].
    destruct (IH (i + 1)%Z arr w in0 out0 out' sow' nbins) as (o & s & E & Lo & Ls & N); try lia.
    exists o, s. split; [exact E|]. split; [exact Lo|]. split; [exact Ls|]. intros j Hj. cbv zeta in *.
    destruct (N j Hj) as [G1 G2]. rewrite G1, G2, N1, N2.
    replace (out0 + (i + 1) + Z.of_nat c)%Z with (out0 + i + Z.of_nat (S c))%Z by lia.
    destruct (Z.eqb_spec (Z.of_nat j) (out0 + i)) as [Ej|Nj].
    + assert (B1 : (out0 + (i + 1) <=? Z.of_nat j)%Z = false) by (apply Z.leb_gt; lia).
      assert (B2 : (out0 + i <=? Z.of_nat j)%Z = true) by (apply Z.leb_le; lia).
      assert (B3 : (Z.of_nat j <? out0 + i + Z.of_nat (S c))%Z = true) by (apply Z.ltb_lt; lia).
      rewrite B1, B2, B3. cbn [andb]. replace (in0 + (Z.of_nat j - out0))%Z with (in0 + i)%Z by lia. split; ring.
    + assert (B : (out0 + (i + 1) <=? Z.of_nat j)%Z = (out0 + i <=? Z.of_nat j)%Z).
      { destruct (Z.leb_spec (out0 + (i + 1)) (Z.of_nat j)), (Z.leb_spec (out0 + i) (Z.of_nat j)); try reflexivity; lia. }
      rewrite B. split; reflexivity.
Qed.

(* the range of the inner loop is the set of output bins with a source *)
Lemma safe_slice_ok size nbins c : one_end size nbins c ->
  let s := safe_slice (Z.of_nat size) c (Z.of_nat nbins) in
  let cnt := Z.to_nat (snd (fst s) - fst (fst s)) in
  (0 <= fst (fst s))%Z /\ (fst (fst s) + Z.of_nat cnt <= Z.of_nat size)%Z /\
  (0 <= fst (snd s))%Z /\ (fst (snd s) + Z.of_nat cnt <= Z.of_nat nbins)%Z /\
  forall j, (j < nbins)%nat ->
    ((fst (snd s) <=? Z.of_nat j) && (Z.of_nat j <? fst (snd s) + Z.of_nat cnt))%Z%bool = inside size (source c nbins j) /\
    (fst (fst s) + (Z.of_nat j - fst (snd s)))%Z = source c nbins j.
Proof.
  intros [H1 H2]. unfold safe_slice. cbv zeta.
  set (h := (Z.of_nat nbins / 2)%Z) in *.
  assert (Hh : (0 <= h <= Z.of_nat nbins)%Z).
  { unfold h. split; [apply Z.div_pos; lia|]. apply Z.div_le_upper_bound; lia. }
  assert (Hh2 : (2 * h <= Z.of_nat nbins)%Z) by (unfold h; apply Z.mul_div_le; lia).
  unfold source, inside. fold h.
  destruct (Z.ltb_spec (c - h) 0); [|destruct (Z.ltb_spec (Z.of_nat size) (c - h + Z.of_nat nbins))]; cbn [fst snd].
  - rewrite Z2Nat.id by lia. repeat split; lia.
  - rewrite Z2Nat.id by lia. repeat split; lia.
  - rewrite Z2Nat.id by lia. repeat split; lia.
Qed.

Lemma outer_ok size nbins l : forall out sow,
  length out = nbins -> length sow = nbins ->
  (forall t, In t l -> length (fst (snd t)) = size /\ one_end size nbins (fst t)) ->
  exists o s, sa_outer (Z.of_nat size) (Z.of_nat nbins) l out sow = Ok (o, s) /\ length o = nbins /\ length s = nbins /\
    forall j, (j < nbins)%nat ->
      nth j o 0 == nth j out 0 + sa_total size nbins j l /\ nth j s 0 == nth j sow 0 + sa_weight size nbins j l.
Proof.
  induction l as [|[c [arr w]] l IH]; intros out sow L1 L2 H.
  - exists out, sow. repeat split; try assumption; unfold sa_total, sa_weight; cbn; ring.
  - destruct (H (c, (arr, w)) (or_introl eq_refl)) as [La Oc]. cbn [fst snd] in *.
    destruct (safe_slice_ok size nbins c Oc) as (A1 & A2 & A3 & A4 & A5).
    set (s := safe_slice (Z.of_nat size) c (Z.of_nat nbins)) in *.
    destruct (inner_ok (Z.to_nat (snd (fst s) - fst (fst s))) 0 arr w (fst (fst s)) (fst (snd s)) out sow nbins) as (o & t & E & Lo & Lt & N); try lia.
    cbn [sa_outer]. fold s. rewrite E. cbn [bind fst snd].
    destruct (IH o t Lo Lt) as (o' & t' & E' & Lo' & Lt' & N'); [intros x Hx; apply H; now right|].
    exists o', t'. split; [exact E'|]. split; [exact Lo'|]. split; [exact Lt'|].
    intros j Hj. destruct (N' j Hj) as [G1 G2]. specialize (N j Hj). cbv zeta in N. rewrite !Z.add_0_r in N. destruct N as [F1 F2].
    destruct (A5 j Hj) as [B1 B2]. rewrite B1, ?B2 in F1. rewrite B1 in F2.
    rewrite G1, G2, F1, F2. unfold sa_total, sa_weight. cbn [map fst snd]. unfold qsum. cbn [fold_right]. fold qsum.
    change (fold_right Qplus 0) with qsum. split; ring.
Qed.

Lemma nth_zero n j : nth j (repeat 0 n) 0 = 0.
Proof. revert j. induction n as [|n IH]; intros [|j]; cbn; auto. Qed.

Lemma core_main size arr0 arrs ws centers nbins :
  length arr0 = size ->
  (forall t, In t (combine centers (combine (arr0 :: arrs) ws)) -> length (fst (snd t)) = size /\ one_end size nbins (fst t)) ->
  exists p n, shift_and_average_core (arr0 :: arrs) ws centers nbins = Ok (p, n) /\ length p = nbins /\ length n = nbins /\
    forall j, (j < nbins)%nat ->
      let l := combine centers (combine (arr0 :: arrs) ws) in
      nth j n 0 == sa_weight size nbins j l /\
      (sa_weight size nbins j l == 0 -> nth j p None = None) /\
      (~ sa_weight size nbins j l == 0 ->
         exists v, nth j p None = Some v /\ v == sa_total size nbins j l / sa_weight size nbins j l).
Proof.
  intros L H. unfold shift_and_average_core. change (get (arr0 :: arrs) 0) with (Ok arr0). cbn [bind]. rewrite L.
  set (l := combine centers (combine (arr0 :: arrs) ws)) in *.
  destruct (outer_ok size nbins l (repeat 0 nbins) (repeat 0 nbins)) as (o & s & E & Lo & Ls & N);
    [apply repeat_length|apply repeat_length|exact H|].
  rewrite E. cbn [bind fst snd]. eexists _, _. split; [reflexivity|].
  split; [rewrite map_length, combine_length; lia|]. split; [exact Ls|].
  intros j Hj. destruct (N j Hj) as [G1 G2]. rewrite nth_zero, Qplus_0_l in G1, G2. cbv zeta.
  split; [exact G2|].
  assert (P : nth j (map (fun p => if qeq (snd p) 0 then None else Some (fst p / snd p)) (combine o s)) None
              = if qeq (nth j s 0) 0 then None else Some (nth j o 0 / nth j s 0)).
  { rewrite (nth_indep _ None (if qeq 0 0 then None else Some (0 / 0))) by (rewrite map_length, combine_length; lia).
    change (if qeq 0 0 then None else Some (0 / 0)) with ((fun p => if qeq (snd p) 0 then None else Some (fst p / snd p)) (0, 0)).
    rewrite map_nth, combine_nth by lia. reflexivity. }
  rewrite P. split; intros W.
  - assert (qeq (nth j s 0) 0 = true) as -> by (apply qeq_t; rewrite G2; exact W). reflexivity.
  - assert (qeq (nth j s 0) 0 = false) as -> by (apply qeq_f; rewrite G2; exact W).
    eexists. split; [reflexivity|]. now rewrite G1, G2.
Qed.

(* extract_pds_slice_around_freq *)
Lemma nth_chunk (vals : list Q) a b n j : (a + length vals = b)%nat -> (b <= n)%nat -> (j < n)%nat ->
  nth j (firstn a (repeat (@None Q) n) ++ map Some vals ++ skipn b (repeat None n)) None =
  if ((a <=? j) && (j <? b))%nat then Some (nth (j - a) vals 0) else None.
Proof.
  intros H1 H2 H3.
  assert (R : forall i (l : list (option Q)), (forall x, In x l -> x = None) -> nth i l None = None).
  { intros i l. revert i. induction l as [|x l IH]; intros [|i] H; cbn; auto; [apply H; now left|]. apply IH. intros; apply H; now right. }
  assert (RS : forall x, In x (repeat (@None Q) n) -> x = None) by (intros x; apply repeat_spec).
  assert (La : length (firstn a (repeat (@None Q) n)) = a) by (rewrite firstn_length, repeat_length; lia).
  destruct (Nat.leb_spec a j); cbn [andb].
  - rewrite app_nth2; rewrite La; [|lia]. destruct (Nat.ltb_spec j b).
    + rewrite app_nth1 by (rewrite map_length; lia).
      rewrite (nth_indep _ None (Some 0)) by (rewrite map_length; lia). now rewrite map_nth.
    + rewrite app_nth2; rewrite map_length; [|lia]. apply R. intros x Hx. apply RS.
      rewrite <- (firstn_skipn b (repeat None n)). apply in_or_app. now right.
  - rewrite app_nth1 by lia. apply R. intros x Hx. apply RS.
    rewrite <- (firstn_skipn a (repeat None n)). apply in_or_app. now left.
Qed.

Lemma ssl_le a v : (searchsorted_left a v <= length a)%nat.
Proof. induction a as [|x a IH]; cbn; [lia|]. destruct (qlt x v); cbn; lia. Qed.

Lemma extract_main freqs powers f0 nbins : length freqs = length powers ->
  exists c, extract_slice freqs powers f0 nbins = Ok c /\ length c = nbins /\
    forall j, (j < nbins)%nat ->
      let i := source (Z.of_nat (searchsorted_left freqs f0)) nbins j in
      nth j c None = if inside (length powers) i then Some (nth (Z.to_nat i) powers 0) else None.
Proof.
  intros L. pose proof (ssl_le freqs f0) as Hc. rewrite L in Hc.
  set (c := Z.of_nat (searchsorted_left freqs f0)). assert (Hc' : (0 <= c <= Z.of_nat (length powers))%Z) by lia.
  unfold extract_slice. fold c. set (size := length powers) in *.
  set (s := safe_slice (Z.of_nat size) c (Z.of_nat nbins)).
  set (h := (Z.of_nat nbins / 2)%Z) in *.
  assert (Hh : (0 <= h <= Z.of_nat nbins)%Z).
  { unfold h. split; [apply Z.div_pos; lia|]. apply Z.div_le_upper_bound; lia. }
  assert (Hh2 : (2 * h <= Z.of_nat nbins)%Z) by (unfold h; apply Z.mul_div_le; lia).
  set (a := Z.to_nat (fst (snd s))). set (b := Z.to_nat (snd (snd s))).
  set (i0 := Z.to_nat (fst (fst s))). set (i1 := Z.to_nat (snd (fst s))).
  assert (F : (a <= b <= nbins)%nat /\ (i0 <= size)%nat /\ (b - a = Nat.min i1 size - i0)%nat /\ (i0 <= Nat.min i1 size)%nat /\
     Z.of_nat i0 = (c - h + Z.of_nat a)%Z /\
     forall j, (j < nbins)%nat -> ((a <=? j) && (j <? b))%nat = inside size (source c nbins j)).
  { unfold a, b, i0, i1, s, safe_slice. fold h. unfold source, inside. fold h.
    destruct (Z.ltb_spec (c - h) 0); [|destruct (Z.ltb_spec (Z.of_nat size) (c - h + Z.of_nat nbins))]; cbn [fst snd].
    - repeat (split; [lia|]). intros j Hj. rewrite eq_iff_eq_true, !andb_true_iff, Nat.leb_le, Nat.ltb_lt, Z.leb_le, Z.ltb_lt. lia.
    - repeat (split; [lia|]). intros j Hj. rewrite eq_iff_eq_true, !andb_true_iff, Nat.leb_le, Nat.ltb_lt, Z.leb_le, Z.ltb_lt. lia.
    - repeat (split; [lia|]). intros j Hj. rewrite eq_iff_eq_true, !andb_true_iff, Nat.leb_le, Nat.ltb_lt, Z.leb_le, Z.ltb_lt. lia.
    }
  destruct F as (F1 & F2 & F3 & F4 & F5 & F6).
  assert (LV : length (slice powers i0 i1) = (b - a)%nat).
  { unfold slice. rewrite firstn_length, skipn_length. fold size. lia. }
  assert (LC : length (slice (repeat (@None Q) nbins) a b) = (b - a)%nat).
  { unfold slice. rewrite firstn_length, skipn_length, repeat_length. lia. }
  rewrite LV, LC, Nat.eqb_refl. eexists. split; [reflexivity|]. split.
  - rewrite !app_length, firstn_length, map_length, LV, skipn_length, repeat_length. lia.
  - intros j Hj. cbv zeta. rewrite nth_chunk by lia. rewrite F6 by exact Hj.
    destruct (inside size (source c nbins j)) eqn:EI; [|reflexivity]. f_equal.
    rewrite <- F6 in EI by exact Hj. apply andb_true_iff in EI. destruct EI as [E1 E2]. apply Nat.leb_le in E1. apply Nat.ltb_lt in E2.
    unfold slice. rewrite <- (firstn_skipn i0 powers) at 2.
    assert (SRC : Z.to_nat (source c nbins j) = (i0 + (j - a))%nat) by (unfold source; fold h; lia).
    rewrite SRC. rewrite app_nth2; rewrite firstn_length, Nat.min_l by (fold size; lia); [|lia].
    replace (i0 + (j - a) - i0)%nat with (j - a)%nat by lia.
    rewrite <- (firstn_skipn (i1 - i0) (skipn i0 powers)) at 2. rewrite app_nth1; [reflexivity|].
    rewrite firstn_length, skipn_length. fold size. lia.
Qed.

(* the output frequencies *)
Lemma sa_freqs freqs arr0 arrs f0s nbins ws df f p n : (0 < nbins)%nat ->
  shift_and_add freqs (arr0 :: arrs) f0s nbins ws (Some df) = Ok (f, p, n) ->
  length f = nbins /\
  forall j, (j < nbins)%nat ->
    nth j f 0 == qsum f0s / inject_Z (Z.of_nat (length f0s))
                 + (inject_Z (Z.of_nat j) - (inject_Z (Z.of_nat nbins) - 1) / 2) * df.
Proof.
  intros Hn E. unfold shift_and_add in E.
  destruct (shift_and_average_core _ _ _ _) as [[p' n']|]; [|discriminate]. cbn [bind] in E.
  set (N := Z.of_nat nbins) in *. set (e := (- N / 2)%Z) in *.
  assert (He : (2 * e <= - N <= 2 * e + 1)%Z) by (unfold e; pose proof (Z.div_mod (- N) 2); pose proof (Z.mod_pos_bound (- N) 2); lia).
  assert (Hh : (2 * (N / 2) <= N <= 2 * (N / 2) + 1)%Z) by (pose proof (Z.div_mod N 2); pose proof (Z.mod_pos_bound N 2); lia).
  set (g := fun i : nat => inject_Z (e + Z.of_nat i) * df) in *.
  assert (G : firstn nbins (map g (seq 0 (Z.to_nat (N / 2 + 1 - e)))) = map g (seq 0 nbins)).
  { rewrite firstn_map. f_equal. assert (K : exists r, Z.to_nat (N / 2 + 1 - e) = (nbins + r)%nat) by (exists (Z.to_nat (N / 2 + 1 - e) - nbins)%nat; lia).
    destruct K as [r ->]. rewrite seq_app, firstn_app, firstn_all2 by (rewrite seq_length; lia).
    rewrite seq_length, Nat.sub_diag. cbn. now rewrite app_nil_r. }
  rewrite G in E.
  assert (G0 : get (map g (seq 0 nbins)) 0 = Ok (g 0%nat)) by (destruct nbins; [lia|reflexivity]).
  assert (GL : get_last (map g (seq 0 nbins)) = Ok (g (nbins - 1)%nat)).
  { destruct nbins as [|m]; [lia|]. rewrite seq_S, map_app. unfold get_last. rewrite rev_app_distr. cbn. now rewrite Nat.sub_0_r. }
  rewrite G0, GL in E. cbn [bind fst snd] in E.
  assert (Ef : f = map (fun f => f - (g 0%nat + g (nbins - 1)%nat) / 2 + qsum f0s / inject_Z (Z.of_nat (length f0s))) (map g (seq 0 nbins))) by congruence.
  clear E. subst f. rewrite !map_length, seq_length. split; [reflexivity|]. intros j Hj.
  rewrite map_map. set (F := fun x : nat => _).
  rewrite (nth_indep _ 0 (F 0%nat)) by (rewrite map_length, seq_length; lia).
  rewrite map_nth, seq_nth by lia. unfold F, g. cbn [Nat.add]. change (Z.of_nat 0) with 0%Z.
  rewrite Z.add_0_r, !inject_Z_plus, Nat2Z.inj_sub by lia. fold N. unfold Z.sub. rewrite inject_Z_plus. change (inject_Z (Z.of_nat 1)) with 1.
  change (inject_Z (- Z.of_nat 1)) with (-1). set (M := qsum f0s / _). field.
Qed.

Lemma sa_freqs_odd freqs arr0 arrs f0s nbins ws df f p n : Nat.odd nbins = true ->
  shift_and_add freqs (arr0 :: arrs) f0s nbins ws (Some df) = Ok (f, p, n) ->
  length f = nbins /\
  forall j c, (j < nbins)%nat ->
    nth j f 0 == qsum f0s / inject_Z (Z.of_nat (length f0s)) + inject_Z (source c nbins j - c) * df.
Proof.
  intros Ho E. assert (Hn : (0 < nbins)%nat) by (destruct nbins; [discriminate|lia]).
  destruct (sa_freqs _ _ _ _ _ _ _ _ _ _ Hn E) as [L H]. split; [exact L|].
  intros j c Hj. rewrite (H j Hj). unfold source. apply Nat.odd_spec in Ho. destruct Ho as [h ->].
  replace (Z.of_nat (2 * h + 1) / 2)%Z with (Z.of_nat h) by (rewrite <- (Z.div_unique (Z.of_nat (2 * h + 1)) 2 (Z.of_nat h) 1); lia).
  replace (c - Z.of_nat h + Z.of_nat j - c)%Z with (Z.of_nat j + - Z.of_nat h)%Z by lia.
  rewrite inject_Z_plus, inject_Z_opp. rewrite Nat2Z.inj_add, Nat2Z.inj_mul, inject_Z_plus, inject_Z_mult.
  change (inject_Z (Z.of_nat 2)) with 2. change (inject_Z (Z.of_nat 1)) with 1. set (M := qsum f0s / _). field.
Qed.

(* even number of bins: the frequencies are half a bin off *)
Lemma sa_even_refuted :
  exists freqs powers f0 c f p n v, nth_error freqs c = Some f0 /\
    shift_and_add freqs [powers] [f0] 4 [1] (Some 1) = Ok (f, p, n) /\
    nth_error p 2 = Some (Some v) /\ v == nth c powers 0 /\ ~ nth 2 f 0 == f0.
Proof.
  exists [1; 2; 3; 4; 5; 6], [1; 1; 1; 9; 1; 1], 4, 3%nat.
  eexists _, _, _, _. split; [reflexivity|]. split; [vm_compute; reflexivity|]. split; [cbn; reflexivity|].
  split; [reflexivity|]. vm_compute. discriminate.
Qed.
(* a window wider than the spectrum on both sides reads past the end of the array *)
Lemma sa_both_ends_refuted :
  exists freqs powers f0, length freqs = length powers /\ In f0 freqs /\
    shift_and_add freqs [powers] [f0] 10 [1] (Some 1) = Err IndexError.
Proof. exists [1; 2; 3], [1; 1; 1], 2. split; [reflexivity|]. split; [cbn; auto|]. vm_compute. reflexivity. Qed.

Lemma integrate_single_refuted :
  exists rows lo hi v e, bins_ok rows /\ lo < hi /\ (forall t, lo <= t -> t <= hi -> exists r, In r rows /\ left_edge r <= t /\ t <= right_edge r) /\
    integrate_power rows lo hi (Some 1) = Ok (v, e) /\ ~ v == integral rows lo hi.
Proof.
  exists [{| b_f := 1; b_df := 1; b_p := 1; b_noise := 0; b_err := 0 |};
          {| b_f := 2; b_df := 1; b_p := 1; b_noise := 0; b_err := 0 |};
          {| b_f := 3; b_df := 1; b_p := 1; b_noise := 0; b_err := 0 |}], (19#10), (21#10).
  eexists _, _. split; [|split; [reflexivity|split; [|split; [vm_compute; reflexivity|vm_compute; discriminate]]]].
  - split; [repeat constructor|]. repeat constructor; cbn; discriminate.
  - intros t H1 H2. exists {| b_f := 2; b_df := 1; b_p := 1; b_noise := 0; b_err := 0 |}. split; [right; now left|].
    unfold left_edge, right_edge. cbn [b_f b_df]. assert (Eh : 1 / 2 == (1#2)) by reflexivity. rewrite Eh. split; lra.
Qed.
Lemma integrate_outside_refuted :
  exists rows lo hi v e, bins_ok rows /\ lo < hi /\ integrate_power rows lo hi (Some 1) = Ok (v, e) /\ ~ v == integral rows lo hi.
Proof.
  exists [{| b_f := 1; b_df := 1; b_p := 1; b_noise := 0; b_err := 0 |};
          {| b_f := 2; b_df := 1; b_p := 1; b_noise := 0; b_err := 0 |}], 0, 10.
  eexists _, _. split; [|split; [reflexivity|split; [vm_compute; reflexivity|vm_compute; discriminate]]].
  split; [repeat constructor|]. repeat constructor; cbn; discriminate.
Qed.
Lemma integrate_empty_error rows lo hi m :
  (forall r, In r rows -> right_edge r <= lo \/ hi <= left_edge r) -> integrate_power rows lo hi m = Err IndexError.
Proof.
  intros H. unfold integrate_power. rewrite (filter_none lo hi); [reflexivity|].
  intros r Hr. apply p_f. now apply H.
Qed.
