(* P_fold.v: proofs about p_to_f, pulse_phase and folded profiles *)
From Verif Require Import Np Lib S_gti M_gti S_lc M_lc P_hist P_lc_make P_filters P_rebin M_fold S_fold.
From Coq Require Import Lqa Qpower.
Open Scope Q_scope.

(* ---- p_to_f ---- *)

Lemma reciprocal_ok ps : (length ps <= 4)%nat -> (match ps with [] => True | p :: _ => ~ p == 0 end) ->
  exists fs, p_to_f idq ps = Ok fs /\ reciprocal fs ps.
Proof.
  intros L H. destruct ps as [|p rest]; [exists []; split; [reflexivity|split; [reflexivity|cbn; lia]]|].
  unfold p_to_f. destruct (qeq p 0) eqn:E; [qb; contradiction|]. unfold idq.
  destruct rest as [|pd [|pdd [|pddd [|x rest]]]]; cbn [length] in L; try lia; eexists; (split; [reflexivity|]); (split; [reflexivity|]);
  intros m Hm; cbn [length] in Hm;
  (destruct m as [|[|[|[|m]]]]; [..|lia]; try lia; unfold product_derivative; cbn -[Qpower]; unfold Qpower, Qpower_positive, pow_pos;
   unfold inject_Z; field; auto).
Qed.

Lemma ptof_proper p p' : Forall2 Qeq p p' -> forall f f', p_to_f idq p = Ok f -> p_to_f idq p' = Ok f' -> Forall2 Qeq f f'.
Proof.
  intros F f f' E E'. unfold p_to_f in *. destruct F as [|p p' r r' Hp F]; [injection E as <-; injection E' as <-; constructor|].
  destruct (qeq p 0) eqn:C; [discriminate|]. destruct (qeq p' 0) eqn:C'; [discriminate|]. unfold idq in *.
  injection E as <-. injection E' as <-.
  destruct F as [|a a' r r' Ha F]; [repeat constructor; now rewrite Hp|].
  destruct F as [|b b' r r' Hb F]; [repeat constructor; now rewrite ?Hp, ?Ha|].
  destruct F as [|c c' r r' Hc F]; [repeat constructor; now rewrite ?Hp, ?Ha, ?Hb|].
  repeat constructor; try now rewrite ?Hp, ?Ha, ?Hb, ?Hc.
  induction F; cbn; constructor; [reflexivity|assumption].
Qed.

Lemma involution ps : (length ps <= 4)%nat -> (match ps with [] => True | p :: _ => ~ p == 0 end) ->
  exists fs qs, p_to_f idq ps = Ok fs /\ p_to_f idq fs = Ok qs /\ Forall2 Qeq qs ps.
Proof.
  intros L H. destruct ps as [|p rest]; [exists [], []; repeat split; constructor|].
  unfold p_to_f at 1. destruct (qeq p 0) eqn:E; [qb; contradiction|]. cbv zeta.
  assert (N : forall y, ~ y == 0 -> ~ 1 / y == 0).
  { intros y Hy C. assert (1 / y * y == 1) by (field; exact Hy). rewrite C in *. lra. }
  destruct rest as [|a [|b [|c [|x rest]]]]; cbn [length] in L; try lia; eexists; eexists; (split; [reflexivity|]);
  (split; [unfold p_to_f; unfold idq; destruct (qeq (1 / p) 0) eqn:E2; [qb; exfalso; revert E2; now apply N|]; reflexivity|]); unfold idq;
  repeat constructor; unfold Qpower, Qpower_positive, pow_pos; cbn; field; auto.
Qed.

(* all derivatives above the third are lost *)
Lemma higher_zero p a b c higher : ~ p == 0 ->
  exists f0 f1 f2 f3, p_to_f idq (p :: a :: b :: c :: higher) = Ok (f0 :: f1 :: f2 :: f3 :: map (fun _ => 0) higher).
Proof. intros H. unfold p_to_f. destruct (qeq p 0) eqn:E; [qb; contradiction|]. repeat eexists. Qed.

Lemma higher_refuted : exists ps fs, ~ nth 0 ps 0 == 0 /\ p_to_f idq ps = Ok fs /\ ~ reciprocal fs ps.
Proof.
  exists [1; 0; 0; 0; 1]. eexists. split; [cbn; lra|]. split; [vm_compute; reflexivity|]. intros [_ H].
  specialize (H 4%nat ltac:(cbn; lia)). revert H. vm_compute. discriminate.
Qed.
(* integer periods: int array truncates *)
Lemma integer_refuted : exists ps fs, (length ps <= 4)%nat /\ ~ nth 0 ps 0 == 0 /\ p_to_f to_int ps = Ok fs /\ ~ reciprocal fs ps.
Proof.
  exists [2]. eexists. split; [cbn; lia|]. split; [cbn; lra|]. split; [vm_compute; reflexivity|]. intros [_ H].
  specialize (H 0%nat ltac:(cbn; lia)). revert H. vm_compute. discriminate.
Qed.

(* ---- pulse_phase ---- *)
Lemma qpow_S t i : t ^ Z.of_nat (S i) == t ^ Z.of_nat i * t.
Proof.
  rewrite Nat2Z.inj_succ. unfold Z.succ. destruct (Qeq_dec t 0) as [E|N].
  - rewrite E. destruct i as [|i]; [reflexivity|].
    replace (Z.of_nat (S i) + 1)%Z with (Z.pos (Pos.of_succ_nat (S i))) by lia. unfold Qpower at 1.
    rewrite Qpower_positive_0. lra.
  - rewrite Qpower_plus by exact N. reflexivity.
Qed.

Lemma fact_pos i : ~ inject_Z (Z.of_nat (fact i)) == 0.
Proof. assert (H := lt_O_fact i). intro C. change 0 with (inject_Z 0) in C. apply (proj1 (inject_Z_injective _ _)) in C. lia. Qed.

Lemma add_terms_spec t : forall fs i ph,
  add_terms i fs t ph == ph + t ^ Z.of_nat i / inject_Z (Z.of_nat (fact i)) * nested (Pos.of_succ_nat i) fs t.
Proof.
  induction fs as [|f fs IH]; intros i ph; [cbn; lra|].
  cbn [add_terms nested]. rewrite IH. rewrite Nat.add_1_r. rewrite qpow_S.
  change (Pos.of_succ_nat (S i)) with (Pos.succ (Pos.of_succ_nat i)).
  assert (E : inject_Z (Z.of_nat (fact (S i))) == inject_Z (Z.pos (Pos.of_succ_nat i)) * inject_Z (Z.of_nat (fact i))).
  { cbn [fact]. rewrite <- inject_Z_mult. apply inject_Z_injective. lia. }
  rewrite E. assert (A := fact_pos i).
  assert (B : ~ inject_Z (Z.pos (Pos.of_succ_nat i)) == 0) by (unfold Qeq, inject_Z; cbn; lia).
  field. split; assumption.
Qed.

Lemma add_terms_turns fs t ph : add_terms 0 fs t ph == ph + turns fs t.
Proof. rewrite add_terms_spec. unfold turns. cbn. field. Qed.

Lemma frac_floor x : fractional x (x - inject_Z (Qfloor x)).
Proof.
  assert (A := Qfloor_le x). assert (B := Qlt_floor x). rewrite inject_Z_plus in B.
  split; [lra|]. split; [change (inject_Z 1) with 1 in B; lra|]. exists (Qfloor x). lra.
Qed.

Lemma phase_total times fs ph0 :
  Forall2 (fun t p => p == ph0 + turns fs t) times (pulse_phase times fs ph0 false).
Proof. unfold pulse_phase. induction times as [|t times IH]; cbn; constructor; [apply add_terms_turns|exact IH]. Qed.
Lemma phase_frac times fs ph0 :
  Forall2 (fun t p => fractional (ph0 + turns fs t) p) times (pulse_phase times fs ph0 true).
Proof.
  unfold pulse_phase. induction times as [|t times IH]; cbn; constructor; [|exact IH].
  destruct (frac_floor (add_terms 0 fs t ph0)) as (A & B & k & C). split; [exact A|]. split; [exact B|]. exists k.
  rewrite <- add_terms_turns. exact C.
Qed.

Lemma fast_phase times f fdot :
  Forall2 Qeq (pulse_phase_fast times f fdot) (pulse_phase times [f; fdot] 0 true).
Proof.
  unfold pulse_phase_fast, pulse_phase. induction times as [|t times IH]; cbn [map]; constructor; [|exact IH].
  assert (E : t * f + (1 # 2) * t ^ 2 * fdot == add_terms 0 [f; fdot] t 0).
  { rewrite add_terms_turns. unfold turns. cbn. unfold Qpower, Qpower_positive. cbn. field. }
  cbv zeta. rewrite (Qfloor_comp _ _ E), E. reflexivity.
Qed.

(* ---- profiles ---- *)
Lemma hist_of_values : forall edges l, np_histogram_weights edges l = map qsum (binned_values edges l).
Proof.
  induction edges as [|a [|b edges] IH]; intros l; [reflexivity|reflexivity|].
  cbn [np_histogram_weights binned_values]. cbn [map]. f_equal. apply IH.
Qed.

Lemma binned_values_ok e l : forall m k, (forall p, In p l -> fst p < e (k + m)%nat) ->
  binned_values (map e (seq k (S m))) l = map (fun i => map snd (filter (fun p => within (e i) (e (S i)) (fst p)) l)) (seq k m).
Proof.
  induction m as [|m IH]; intros k H; [reflexivity|].
  specialize (IH (S k)). change (seq k (S (S m))) with (k :: S k :: seq (S (S k)) m).
  change (seq (S k) (S m)) with (S k :: seq (S (S k)) m) in IH. cbn [map] in IH |- *.
  cbn [binned_values]. cbn [binned_values] in IH. rewrite IH.
  2:{ intros v Hv. specialize (H v Hv). replace (k + S m)%nat with (S k + m)%nat in H by lia. assumption. }
  change (seq k (S m)) with (k :: seq (S k) m). cbn [map]. f_equal. f_equal.
  apply filter_ext_in. intros a Ha. specialize (H a Ha). destruct m as [|m]; [|reflexivity]. cbn [seq map]. unfold within. f_equal.
  replace (k + 1)%nat with (S k) in H by lia. replace (qlt (fst a) (e (S k))) with true by (symmetry; apply qlt_t; assumption).
  apply qle_t. lra.
Qed.

Lemma bin_test nbin j x : (0 < nbin)%nat -> 0 <= x ->
  within (inject_Z (Z.of_nat j) / inject_Z (Z.of_nat nbin)) (inject_Z (Z.of_nat (S j)) / inject_Z (Z.of_nat nbin)) x =
  (bin_of nbin x =? Z.of_nat j)%Z.
Proof.
  intros Hn Hx. unfold within, bin_of. set (n := inject_Z (Z.of_nat nbin)).
  assert (Pn : 0 < n) by (unfold n, Qlt, inject_Z; cbn; lia).
  set (y := x * n). assert (A := Qfloor_le y). assert (B := Qlt_floor y).
  assert (Sj : inject_Z (Z.of_nat (S j)) == inject_Z (Z.of_nat j) + 1) by (rewrite Nat2Z.inj_succ; unfold Z.succ; now rewrite inject_Z_plus).
  assert (X1 : forall a, a / n <= x <-> a <= y).
  { intros a. assert (a / n * n == a) by (field; lra). unfold y. split; intros; nra. }
  assert (X2 : forall a, x < a / n <-> y < a).
  { intros a. assert (a / n * n == a) by (field; lra). unfold y. split; intros; nra. }
  apply eq_true_iff_eq. rewrite andb_true_iff, Z.eqb_eq. split.
  - intros [C D]. qb. apply X1 in C. apply X2 in D.
    assert (E1 : (Z.of_nat j < Qfloor y + 1)%Z) by (rewrite Zlt_Qlt; lra).
    assert (E2 : (Qfloor y < Z.of_nat (S j))%Z) by (rewrite Zlt_Qlt; lra). lia.
  - intros E. rewrite E in *. split; [apply qle_t, X1; lra|apply qlt_t, X2]. rewrite Nat2Z.inj_succ. unfold Z.succ. lra.
Qed.

Lemma phase_edges_eq nbin : phase_edges nbin = map (fun i => inject_Z (Z.of_nat i) / inject_Z (Z.of_nat nbin)) (seq 0 (S nbin)).
Proof. unfold phase_edges. now rewrite Nat.add_1_r. Qed.

Lemma values_main nbin l : (0 < nbin)%nat -> (forall p, In p l -> 0 <= fst p < 1) ->
  binned_values (phase_edges nbin) l = map (fun j => weights_in nbin j l) (seq 0 nbin).
Proof.
  intros Hn H. rewrite phase_edges_eq. rewrite binned_values_ok.
  - apply map_ext. intros j. unfold weights_in. f_equal. apply filter_ext_in. intros p Hp. apply bin_test; [exact Hn|apply (H p Hp)].
  - intros p Hp. destruct (H p Hp) as [_ B]. cbn [plus].
    assert (Pn : 0 < inject_Z (Z.of_nat nbin)) by (unfold Qlt, inject_Z; cbn; lia).
    assert (E : inject_Z (Z.of_nat nbin) / inject_Z (Z.of_nat nbin) == 1) by (field; lra). lra.
Qed.

Lemma phase_range times fs p : In p (pulse_phase times fs 0 true) -> 0 <= p < 1.
Proof.
  unfold pulse_phase. rewrite in_map_iff. intros (t & <- & _). destruct (frac_floor (add_terms 0 fs t 0)) as (A & B & _). split; assumption.
Qed.

Lemma centres_ok nbin : (0 < nbin)%nat ->
  Forall2 (fun j c => c == (inject_Z (Z.of_nat j) + (1 # 2)) / inject_Z (Z.of_nat nbin)) (seq 0 nbin) (bin_centres (phase_edges nbin)).
Proof.
  intros Hn. rewrite phase_edges_eq. unfold bin_centres. set (e := fun i => inject_Z (Z.of_nat i) / inject_Z (Z.of_nat nbin)).
  assert (G : forall m k, Forall2 (fun j c => c == (inject_Z (Z.of_nat j) + (1 # 2)) / inject_Z (Z.of_nat nbin)) (seq k m)
     (map (fun p => fst p + (snd p - fst p) / 2) (combine (removelast (map e (seq k (S m)))) (tl (map e (seq k (S m))))))).
  { induction m as [|m IH]; intros k; [constructor|].
    change (seq k (S (S m))) with (k :: seq (S k) (S m)). cbn [map tl].
    change (seq (S k) (S m)) with (S k :: seq (S (S k)) m). cbn [map].
    change (removelast (e k :: e (S k) :: map e (seq (S (S k)) m))) with (e k :: removelast (map e (seq (S k) (S m)))).
    cbn [combine map fst snd]. change (seq k (S m)) with (k :: seq (S k) m). constructor.
    - unfold e. rewrite Nat2Z.inj_succ. unfold Z.succ. rewrite inject_Z_plus. 
      assert (Pn : 0 < inject_Z (Z.of_nat nbin)) by (unfold Qlt, inject_Z; cbn; lia). change (inject_Z 1) with 1. field. lra.
    - exact (IH (S k)). }
  apply G.
Qed.

Lemma sum_of_qsum l : sum_of l = qsum l.
Proof. induction l as [|a l IH]; [reflexivity|]. cbn. now rewrite IH. Qed.

Lemma get_last_in {A} (l : list A) x : get_last l = Ok x -> In x l.
Proof. unfold get_last. destruct (rev l) as [|a r] eqn:E; [discriminate|]. injection 1 as <-. apply in_rev. rewrite E. now left. Qed.
Lemma get_last_ne {A} (l : list A) : l <> [] -> exists x, get_last l = Ok x.
Proof.
  intros H. unfold get_last. destruct (rev l) as [|a r] eqn:E; [|eexists; reflexivity].
  apply (f_equal (@rev A)) in E. rewrite rev_involutive in E. contradiction.
Qed.

Lemma weights_folded nbin j ref fs : forall times w,
  weights_in nbin j (combine (pulse_phase (map (fun t => t - ref) times) fs 0 true) w) = weights_in nbin j (folded times fs w ref).
Proof.
  unfold weights_in, folded, pulse_phase. induction times as [|t times IH]; intros [|b w]; cbn [map combine filter]; try reflexivity.
  cbn [fst]. rewrite map_map in IH. rewrite map_map.
  assert (E : add_terms 0 fs (t - ref) 0 == turns fs (t - ref)) by (rewrite add_terms_turns; lra).
  replace (bin_of nbin (add_terms 0 fs (t - ref) 0 - inject_Z (Qfloor (add_terms 0 fs (t - ref) 0)))) with (bin_of nbin (frac (turns fs (t - ref)))).
  - destruct (bin_of nbin (frac (turns fs (t - ref))) =? Z.of_nat j)%Z; cbn [map]; [f_equal|]; apply IH.
  - unfold bin_of, frac. apply Qfloor_comp. rewrite (Qfloor_comp _ _ E), E. reflexivity.
Qed.

Lemma fold_main times fs nbin w gti ref : (0 < nbin)%nat -> (2 <= length times)%nat ->
  length (weight_list times w) = length times ->
  exists cs prof err2, fold_events times fs nbin w gti ref false = Ok (cs, prof, err2) /\
    length prof = nbin /\
    Forall2 (fun j c => c == (inject_Z (Z.of_nat j) + (1 # 2)) / inject_Z (Z.of_nat nbin)) (seq 0 nbin) cs /\
    Forall2 (fun j p => exists v, p = Some v /\ v == sum_of (weights_in nbin j (folded times fs (weight_list times w) ref))) (seq 0 nbin) prof /\
    Forall2 (fun p e => exists v u, p = Some v /\ e = Some u /\ u == v) prof err2.
Proof.
  intros Hn Ht Hw. unfold fold_events.
  destruct times as [|t0 [|t1 rest]] eqn:ET; cbn [length] in Ht; try lia. rewrite <- ET in *.
  assert (G0 : get times 0 = Ok t0) by (rewrite ET; reflexivity). rewrite G0. cbn [bind].
  destruct (get_last_ne times) as [tl Etl]; [rewrite ET; discriminate|]. rewrite Etl. cbn [bind].
  assert (G1 : get (map (fun t => t - ref) times) 1 = Ok (t1 - ref)) by (rewrite ET; reflexivity). rewrite G1. cbn [bind].
  assert (G2 : get (map (fun t => t - ref) times) 0 = Ok (t0 - ref)) by (rewrite ET; reflexivity). rewrite G2. cbn [bind].
  destruct (get_last_ne (map (fun t => t - ref) times)) as [tl' Etl']; [rewrite ET; discriminate|]. rewrite Etl'. cbn [bind].
  assert (L : Nat.eqb (length (weight_list times w)) (length (pulse_phase (map (fun t => t - ref) times) fs 0 true)) = true).
  { apply Nat.eqb_eq. unfold pulse_phase. rewrite !map_length. exact Hw. }
  rewrite L. cbn [negb bind]. 
  rewrite hist_of_values, (values_main nbin _ Hn).
  2:{ intros p Hp. destruct p as [a b]. apply in_combine_l in Hp. cbn. eapply phase_range. exact Hp. }
  rewrite (map_ext _ _ (fun j => weights_folded nbin j ref fs times (weight_list times w))).
  set (pts := folded times fs (weight_list times w) ref).
  set (raw := map qsum (map (fun j => weights_in nbin j pts) (seq 0 nbin))).
  assert (C : combine raw (map (fun _ : Q => Some 1) raw) = map (fun x => (x, Some 1)) raw).
  { induction raw as [|a r IH]; [reflexivity|]. cbn. now rewrite IH. }
  rewrite C, !map_map. cbn [fst snd]. eexists. eexists. eexists. split; [reflexivity|]. repeat split.
  - unfold raw. now rewrite !map_length, seq_length.
  - now apply centres_ok.
  - unfold raw. rewrite !map_map. clear. induction (seq 0 nbin) as [|j l IH]; cbn; constructor; [|exact IH].
    eexists. split; [reflexivity|]. rewrite (sum_of_qsum (weights_in nbin j pts)). field.
  - clear. induction raw as [|a r IH]; cbn; constructor; [|exact IH]. eexists. eexists. split; [reflexivity|]. split; [reflexivity|]. field.
Qed.

Lemma fold_single t fs nbin w gti ref ex : fold_events [t] fs nbin w gti ref ex = Err IndexError.
Proof. reflexivity. Qed.

(* every event is in exactly one bin: the profile adds up to the total weight *)
Lemma profile_total nbin pts : (0 < nbin)%nat -> (forall p, In p pts -> 0 <= fst p < 1) ->
  sum_of (map (fun j => sum_of (weights_in nbin j pts)) (seq 0 nbin)) == sum_of (map snd pts).
Proof.
  intros Hn. induction pts as [|[x w] pts IH]; intros H.
  - cbn. clear. induction (seq 0 nbin); cbn; [reflexivity|lra].
  - cbn [map sum_of snd]. rewrite <- IH by (intros; apply H; now right).
    assert (Hx : 0 <= x < 1) by (apply (H (x, w)); now left).
    assert (B : (0 <= bin_of nbin x < Z.of_nat nbin)%Z).
    { unfold bin_of. set (n := inject_Z (Z.of_nat nbin)). assert (Pn : 0 < n) by (unfold n, Qlt, inject_Z; cbn; lia).
      assert (A := Qfloor_le (x * n)). assert (D := Qlt_floor (x * n)). rewrite inject_Z_plus in D. change (inject_Z 1) with 1 in D. split.
      - assert ((0 < Qfloor (x * n) + 1)%Z); [|lia]. rewrite Zlt_Qlt, inject_Z_plus. change (inject_Z 1) with 1. change (inject_Z 0) with 0. nra.
      - rewrite Zlt_Qlt. fold n. nra. }
    unfold weights_in. cbn [filter fst].
    assert (G : forall m k, sum_of (map (fun j => sum_of (map snd (if (bin_of nbin x =? Z.of_nat j)%Z then (x, w) :: filter (fun p => (bin_of nbin (fst p) =? Z.of_nat j)%Z) pts
           else filter (fun p => (bin_of nbin (fst p) =? Z.of_nat j)%Z) pts))) (seq k m)) ==
        (if ((Z.of_nat k <=? bin_of nbin x) && (bin_of nbin x <? Z.of_nat (k + m)))%Z%bool then w else 0) +
        sum_of (map (fun j => sum_of (map snd (filter (fun p => (bin_of nbin (fst p) =? Z.of_nat j)%Z) pts))) (seq k m))).
    { induction m as [|m IHm]; intros k.
      - cbn [seq map sum_of]. rewrite Nat.add_0_r. destruct (Z.leb_spec (Z.of_nat k) (bin_of nbin x)), (Z.ltb_spec (bin_of nbin x) (Z.of_nat k)); cbn [andb]; try lia; lra.
      - cbn [seq map sum_of]. rewrite IHm. 
        replace (S k + m)%nat with (k + S m)%nat by lia.
        destruct (Z.eqb_spec (bin_of nbin x) (Z.of_nat k)) as [E|E]; cbn [map sum_of snd].
        + replace ((Z.of_nat (S k) <=? bin_of nbin x)%Z) with false by (symmetry; apply Z.leb_gt; lia).
          replace ((Z.of_nat k <=? bin_of nbin x)%Z) with true by (symmetry; apply Z.leb_le; lia).
          replace ((bin_of nbin x <? Z.of_nat (k + S m))%Z) with true by (symmetry; apply Z.ltb_lt; lia). cbn. lra.
        + replace ((Z.of_nat (S k) <=? bin_of nbin x)%Z) with (Z.of_nat k <=? bin_of nbin x)%Z.
          * destruct ((Z.of_nat k <=? bin_of nbin x) && (bin_of nbin x <? Z.of_nat (k + S m)))%Z%bool; lra.
          * apply eq_true_iff_eq. rewrite !Z.leb_le. lia. }
    rewrite G. replace ((Z.of_nat 0 <=? bin_of nbin x)%Z) with true by (symmetry; apply Z.leb_le; lia).
    replace ((bin_of nbin x <? Z.of_nat (0 + nbin))%Z) with true by (symmetry; apply Z.ltb_lt; lia). cbn. reflexivity.
Qed.

Lemma prof_total times fs nbin w ref : (0 < nbin)%nat -> length w = length times ->
  sum_of (map (fun j => sum_of (weights_in nbin j (folded times fs w ref))) (seq 0 nbin)) == sum_of w.
Proof.
  intros Hn L. rewrite profile_total; [|exact Hn|].
  - unfold folded. replace (map snd (combine (map (fun t => frac (turns fs (t - ref))) times) w)) with w; [reflexivity|].
    symmetry. assert (G : forall (a b : list Q), length a = length b -> map snd (combine a b) = b).
    { induction a as [|x a IH]; intros [|y b] E; cbn in *; try discriminate; [reflexivity|]. f_equal. apply IH. lia. }
    apply G. now rewrite !map_length.
  - intros [a b] Hp. apply in_combine_l in Hp. cbn. apply in_map_iff in Hp. destruct Hp as (t & <- & _).
    destruct (frac_floor (turns fs (t - ref))) as (A & B & _). split; assumption.
Qed.
