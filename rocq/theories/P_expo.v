(* P_expo.v: exposure of the phase bins *)
From Verif Require Import Np Lib S_gti M_gti S_lc M_lc P_hist M_fold S_fold P_fold.
From Coq Require Import Lqa Qpower.
Open Scope Q_scope.

Ltac dq := repeat match goal with |- context [qle ?a ?b] =>
  match a with context [qle _ _] => fail 1 | _ => match b with context [qle _ _] => fail 2 | _ => destruct (qle a b) eqn:?; qb end end end.

Definition bin_step (start_time stop_time period : Q) (nbin : nat) (g : Q * Q) (b : (Q * Q) * Q) : (Q * Q) * Q :=
  let g0 := if qlt (fst g) start_time then start_time else fst g in
  let g1 := if qlt stop_time (snd g) then stop_time else snd g in
  let nraw := (g1 - g0) / period in
  let nper := py_int nraw in
  let start_phase := fmod1 (g0 / period) in
  let end_phase := nraw - inject_Z nper + start_phase in
  let limits := if qlt 1 end_phase then [(0, end_phase - 1); (start_phase, 1)] else [(start_phase, end_phase)] in
  fold_left (fun b l => add_limit l b) limits (fst b, snd b + inject_Z nper / inject_Z (Z.of_nat nbin)).

Lemma fold_map {A B} (f : B -> A -> A) : forall l (bs : list A),
  fold_left (fun bs b => map (f b) bs) l bs = map (fun a => fold_left (fun a b => f b a) l a) bs.
Proof.
  induction l as [|b l IH]; intros bs; [cbn; now rewrite map_id|]. cbn. rewrite IH, map_map. reflexivity.
Qed.

Lemma add_gti_map s e p n bins g : add_gti s e p n bins g = map (bin_step s e p n g) bins.
Proof. unfold add_gti, bin_step. cbv zeta. rewrite (fold_map add_limit), map_map. reflexivity. Qed.

Lemma gtis_map s e p n : forall gs bins,
  fold_left (add_gti s e p n) gs bins = map (fun b => fold_left (fun b g => bin_step s e p n g b) gs b) bins.
Proof.
  induction gs as [|g gs IH]; intros bins; [cbn; now rewrite map_id|]. cbn. rewrite IH, add_gti_map, map_map. reflexivity.
Qed.

(* a bin and the part of an interval of phases inside it *)
Lemma limit_overlap p0 p1 w l0 l1 e : p1 == p0 + w -> 0 <= w -> l0 <= l1 ->
  fst (add_limit (l0, l1) ((p0, p1), e)) = (p0, p1) /\
  snd (add_limit (l0, l1) ((p0, p1), e)) == e + (clamp 0 w (l1 - p0) - clamp 0 w (l0 - p0)).
Proof.
  intros E W L. unfold add_limit. destruct (qle p0 l1 && qle l0 p1)%bool eqn:C; cbn [fst snd]; (split; [reflexivity|]);
  unfold clamp, qmin, qmax.
  - apply andb_true_iff in C. destruct C as [C1 C2]. qb.
    dq; lra.
  - apply andb_false_iff in C. destruct C as [C|C]; qb;
    dq; lra.
Qed.

Lemma floor_shift a k r : 0 <= r -> r < 1 -> a == inject_Z k + r -> Qfloor a = k.
Proof.
  intros A B E. apply floor_iff. rewrite inject_Z_plus. change (inject_Z 1) with 1. split; lra.
Qed.
Lemma floor_parts a : inject_Z (Qfloor a) <= a < inject_Z (Qfloor a) + 1.
Proof. split; [apply Qfloor_le|]. assert (B := Qlt_floor a). rewrite inject_Z_plus in B. exact B. Qed.

Lemma clamp_proper w x y : x == y -> clamp 0 w x == clamp 0 w y.
Proof.
  intros E. unfold clamp, qmin, qmax.
  dq; lra.
Qed.
Lemma upto_proper nbin j x y : x == y -> exposure_upto nbin j x == exposure_upto nbin j y.
Proof.
  intros E. unfold exposure_upto. rewrite (Qfloor_comp _ _ E). rewrite (clamp_proper _ _ (y - inject_Z (Qfloor y) - inject_Z (Z.of_nat j) / inject_Z (Z.of_nat nbin))); [reflexivity|].
  rewrite E. reflexivity.
Qed.

Lemma step_main s e p nbin j g v : (j < nbin)%nat -> 0 < p -> 0 <= qmax s (fst g) -> qmax s (fst g) <= qmin e (snd g) ->
  let n := inject_Z (Z.of_nat nbin) in
  let b := (inject_Z (Z.of_nat j) / n, inject_Z (Z.of_nat (S j)) / n) in
  fst (bin_step s e p nbin g (b, v)) = b /\ snd (bin_step s e p nbin g (b, v)) == v + exposure_in nbin j p (clip s e g).
Proof.
  intros Hj Hp H0 H1 n b.
  assert (Pn : 0 < n) by (unfold n, Qlt, inject_Z; cbn; lia).
  set (g0 := if qlt (fst g) s then s else fst g). set (g1 := if qlt e (snd g) then e else snd g).
  assert (E0 : g0 == qmax s (fst g)).
  { unfold g0, qmax. destruct (qlt (fst g) s) eqn:A, (qle s (fst g)) eqn:B; qb; lra. }
  assert (E1 : g1 == qmin e (snd g)).
  { unfold g1, qmin. destruct (qlt e (snd g)) eqn:A, (qle e (snd g)) eqn:B; qb; lra. }
  set (a := g0 / p). set (L := (g1 - g0) / p).
  assert (Ea : a * p == g0) by (unfold a; field; lra). assert (EL : L * p == g1 - g0) by (unfold L; field; lra).
  assert (Ha : 0 <= a) by nra. assert (HL : 0 <= L) by nra.
  assert (X : exposure_in nbin j p (clip s e g) == exposure_upto nbin j (a + L) - exposure_upto nbin j a).
  { unfold exposure_in, clip. cbn [fst snd]. rewrite (upto_proper nbin j (qmin e (snd g) / p) (a + L)).
    - rewrite (upto_proper nbin j (qmax s (fst g) / p) a); [reflexivity|]. unfold a. rewrite E0. reflexivity.
    - rewrite <- E1. unfold a, L. field. lra. }
  rewrite X. clear X. unfold bin_step. fold g0 g1. fold a L. cbv zeta.
  unfold fmod1, py_int. replace (qle 0 L) with true by (symmetry; apply qle_t; exact HL).
  replace (qle 0 a) with true by (symmetry; apply qle_t; exact Ha).
  set (fa := Qfloor a). set (fL := Qfloor L). cbn [fst snd].
  assert (Pa := floor_parts a). assert (PL := floor_parts L). fold fa in Pa. fold fL in PL.
  set (st := a - inject_Z fa) in *. set (en := L - inject_Z fL + st) in *.
  set (w := 1 / n). set (p0 := inject_Z (Z.of_nat j) / n).
  assert (Wp : 0 < w) by (unfold w; apply Qlt_shift_div_l; lra).
  assert (Sj : inject_Z (Z.of_nat (S j)) == inject_Z (Z.of_nat j) + 1) by (rewrite Nat2Z.inj_succ; unfold Z.succ; now rewrite inject_Z_plus).
  assert (Pb : inject_Z (Z.of_nat (S j)) / n == p0 + w) by (unfold p0, w; rewrite Sj; field; lra).
  assert (P0 : 0 <= p0).
  { unfold p0. apply Qle_shift_div_l; [exact Pn|]. assert (0 <= inject_Z (Z.of_nat j)) by (unfold Qle, inject_Z; cbn; lia). lra. }
  assert (P1 : p0 + w <= 1).
  { rewrite <- Pb. apply Qle_shift_div_r; [exact Pn|]. unfold n. assert (inject_Z (Z.of_nat (S j)) <= inject_Z (Z.of_nat nbin)) by (rewrite <- Zle_Qle; lia). lra. }
  assert (UA : exposure_upto nbin j a == inject_Z fa / n + clamp 0 w (st - p0)) by reflexivity.
  assert (DV : forall x y, (x + y) / n == x / n + y / n) by (intros; field; lra).
  assert (DV1 : inject_Z 1 / n == w) by reflexivity.
  assert (CL0 : clamp 0 w (0 - p0) == 0).
  { unfold clamp, qmin, qmax. dq; lra. }
  assert (CL1 : clamp 0 w (1 - p0) == w).
  { unfold clamp, qmin, qmax. dq; lra. }
  assert (B : b = (p0, inject_Z (Z.of_nat (S j)) / n)) by reflexivity. rewrite B.
  change (inject_Z (Z.of_nat nbin)) with n. cbn [fst snd].
  set (v1 := v + inject_Z fL / n).
  destruct (qlt 1 en) eqn:C; qb.
  - assert (F : Qfloor (a + L) = (fa + fL + 1)%Z).
    { apply (floor_shift _ _ (en - 1)); [lra|unfold en, st in *; lra|]. rewrite !inject_Z_plus. change (inject_Z 1) with 1. unfold en, st. lra. }
    assert (UB : exposure_upto nbin j (a + L) == inject_Z fa / n + inject_Z fL / n + w + clamp 0 w (en - 1 - p0)).
    { unfold exposure_upto. fold n. rewrite F. rewrite !inject_Z_plus, !DV, DV1. apply Qplus_comp; [reflexivity|].
      apply clamp_proper. change (inject_Z 1) with 1. fold p0. unfold en, st. lra. }
    cbn [fold_left].
    destruct (limit_overlap p0 (inject_Z (Z.of_nat (S j)) / n) w 0 (en - 1) v1 Pb ltac:(lra) ltac:(lra)) as [A1 A2].
    destruct (add_limit (0, en - 1) (p0, inject_Z (Z.of_nat (S j)) / n, v1)) as [b' v2]. cbn [fst snd] in A1, A2. subst b'.
    destruct (limit_overlap p0 (inject_Z (Z.of_nat (S j)) / n) w st 1 v2 Pb ltac:(lra) ltac:(unfold st in *; lra)) as [A3 A4].
    split; [exact A3|]. rewrite A4, A2, UA, UB, CL0, CL1. unfold v1. lra.
  - cbn [fold_left].
    destruct (limit_overlap p0 (inject_Z (Z.of_nat (S j)) / n) w st en v1 Pb ltac:(lra) ltac:(unfold en, st in *; lra)) as [A3 A4].
    split; [exact A3|]. rewrite A4, UA. unfold v1. destruct (Qlt_le_dec en 1) as [D|D].
    + assert (F : Qfloor (a + L) = (fa + fL)%Z).
      { apply (floor_shift _ _ en); [unfold en, st in *; lra|exact D|]. rewrite inject_Z_plus. unfold en, st. lra. }
      assert (UB : exposure_upto nbin j (a + L) == inject_Z fa / n + inject_Z fL / n + clamp 0 w (en - p0)).
      { unfold exposure_upto. fold n. rewrite F, inject_Z_plus, DV. apply Qplus_comp; [reflexivity|].
        apply clamp_proper. fold p0. unfold en, st. lra. }
      rewrite UB. lra.
    + assert (En : en == 1) by lra.
      assert (F : Qfloor (a + L) = (fa + fL + 1)%Z).
      { apply (floor_shift _ _ 0); [lra|lra|]. rewrite !inject_Z_plus. change (inject_Z 1) with 1. unfold en, st in *. lra. }
      assert (UB : exposure_upto nbin j (a + L) == inject_Z fa / n + inject_Z fL / n + w).
      { unfold exposure_upto. fold n. rewrite F, !inject_Z_plus, !DV, DV1.
        rewrite (clamp_proper _ _ (0 - p0)); [unfold w in CL0; rewrite CL0; lra|]. change (inject_Z 1) with 1. fold p0. unfold en, st in *. lra. }
      rewrite UB, (clamp_proper w (en - p0) (1 - p0)), CL1 by lra. lra.
Qed.

Lemma steps_main s e p nbin j : (j < nbin)%nat -> 0 < p -> forall gs v,
  (forall g, In g gs -> 0 <= qmax s (fst g) /\ qmax s (fst g) <= qmin e (snd g)) ->
  let n := inject_Z (Z.of_nat nbin) in
  let b := (inject_Z (Z.of_nat j) / n, inject_Z (Z.of_nat (S j)) / n) in
  snd (fold_left (fun b g => bin_step s e p nbin g b) gs (b, v)) == v + sum_of (map (fun g => exposure_in nbin j p (clip s e g)) gs).
Proof.
  intros Hj Hp. induction gs as [|g gs IH]; intros v H n b; [cbn; lra|].
  cbn [fold_left map sum_of]. destruct (H g (or_introl eq_refl)) as [H0 H1].
  destruct (step_main s e p nbin j g v Hj Hp H0 H1) as [A B]. fold n in A, B. fold b in A, B.
  destruct (bin_step s e p nbin g (b, v)) as [b' v']. cbn [fst snd] in A, B. subst b'.
  assert (E := IH v' (fun g' Hg => H g' (or_intror Hg))). cbv zeta in E. fold n in E. fold b in E. rewrite E, B. lra.
Qed.

Lemma bins_eq nbin : map (fun b => (b, 0)) (combine (removelast (phase_edges nbin)) (tl (phase_edges nbin))) =
  map (fun j => ((inject_Z (Z.of_nat j) / inject_Z (Z.of_nat nbin), inject_Z (Z.of_nat (S j)) / inject_Z (Z.of_nat nbin)), 0)) (seq 0 nbin).
Proof.
  rewrite phase_edges_eq. set (e := fun i => inject_Z (Z.of_nat i) / inject_Z (Z.of_nat nbin)).
  assert (G : forall m k, combine (removelast (map e (seq k (S m)))) (tl (map e (seq k (S m)))) = map (fun j => (e j, e (S j))) (seq k m)).
  { induction m as [|m IH]; intros k; [reflexivity|].
    change (seq k (S (S m))) with (k :: S k :: seq (S (S k)) m). cbn [map tl].
    change (removelast (e k :: e (S k) :: map e (seq (S (S k)) m))) with (e k :: removelast (map e (seq (S k) (S m)))).
    cbn [combine]. change (seq k (S m)) with (k :: seq (S k) m). cbn [map]. f_equal. exact (IH (S k)). }
  rewrite G, map_map. reflexivity.
Qed.

Lemma expo_main s e p nbin gti : (0 < nbin)%nat -> 0 < p -> 0 <= s -> s < e ->
  let gs := match gti with None => [(s, e)] | Some g => g end in
  (forall g, In g gs -> fst g <= snd g) ->
  Forall2 (fun j x => x == sum_of (map (fun g => exposure_in nbin j p (clip s e g)) (filter (touches s e) gs))) (seq 0 nbin) (phase_exposure_raw s e p nbin gti).
Proof.
  intros Hn Hp Hs He gs H. unfold phase_exposure_raw. fold gs. rewrite bins_eq, gtis_map, !map_map.
  assert (G : forall l, (forall j, In j l -> (j < nbin)%nat) ->
    Forall2 (fun j x => x == sum_of (map (fun g => exposure_in nbin j p (clip s e g)) (filter (touches s e) gs))) l
     (map (fun x => snd (fold_left (fun b g => bin_step s e p nbin g b) (filter (fun g => (qlt (fst g) e && qlt s (snd g))%bool) gs)
       (inject_Z (Z.of_nat x) / inject_Z (Z.of_nat nbin), inject_Z (Z.of_nat (S x)) / inject_Z (Z.of_nat nbin), 0))) l)).
  { induction l as [|j l IH]; intros Hl; cbn [map]; constructor; [|apply IH; intros; apply Hl; now right].
    change (fun g : Q * Q => (qlt (fst g) e && qlt s (snd g))%bool) with (touches s e).
    assert (E := fun H' => steps_main s e p nbin j (Hl j (or_introl eq_refl)) Hp (filter (touches s e) gs) 0 H'). cbv zeta in E. rewrite E; [lra|]. clear E.
    intros g Hg. apply filter_In in Hg. destruct Hg as [Hg T]. specialize (H g Hg). unfold touches in T. apply andb_true_iff in T. destruct T as [T1 T2]. qb.
    unfold qmax, qmin. destruct (qle s (fst g)) eqn:?, (qle e (snd g)) eqn:?; qb; split; lra. }
  apply G. intros j Hj. apply in_seq in Hj. lia.
Qed.

(* the specification adds up: all the turns are spent in some bin *)
Lemma clamp_sum nbin y : (0 < nbin)%nat -> 0 <= y -> forall m, (m <= nbin)%nat ->
  sum_of (map (fun j => clamp 0 (1 / inject_Z (Z.of_nat nbin)) (y - inject_Z (Z.of_nat j) / inject_Z (Z.of_nat nbin))) (seq 0 m))
  == qmin y (inject_Z (Z.of_nat m) / inject_Z (Z.of_nat nbin)).
Proof.
  intros Hn Hy. assert (Pn : 0 < inject_Z (Z.of_nat nbin)) by (unfold Qlt, inject_Z; cbn; lia).
  set (n := inject_Z (Z.of_nat nbin)) in *. assert (Wp : 0 < 1 / n) by (apply Qlt_shift_div_l; lra).
  induction m as [|m IH]; intros Hm.
  - cbn. assert (inject_Z 0 / n == 0) by (change (inject_Z 0) with 0; field; lra).
    unfold qmin. destruct (qle y (inject_Z 0 / n)) eqn:C; qb; lra.
  - rewrite seq_S, map_app. rewrite sum_of_qsum. rewrite P_rebin.qsum_app. rewrite <- !sum_of_qsum, IH by lia. cbn [map sum_of plus].
    assert (Sj : inject_Z (Z.of_nat (S m)) / n == inject_Z (Z.of_nat m) / n + 1 / n).
    { rewrite Nat2Z.inj_succ. unfold Z.succ. rewrite inject_Z_plus. change (inject_Z 1) with 1. field. lra. }
    set (u := inject_Z (Z.of_nat m) / n) in *. set (u' := inject_Z (Z.of_nat (S m)) / n) in *. set (w := 1 / n) in *.
    unfold clamp, qmin, qmax. dq; cbn [qsum fold_right]; lra.
Qed.

Lemma upto_total nbin x : (0 < nbin)%nat -> sum_of (map (fun j => exposure_upto nbin j x) (seq 0 nbin)) == x.
Proof.
  intros Hn. assert (Pn : 0 < inject_Z (Z.of_nat nbin)) by (unfold Qlt, inject_Z; cbn; lia).
  unfold exposure_upto. set (n := inject_Z (Z.of_nat nbin)) in *. set (y := x - inject_Z (Qfloor x)).
  assert (P := floor_parts x).
  assert (G : forall c (f : nat -> Q) l, sum_of (map (fun j => c + f j) l) == inject_Z (Z.of_nat (length l)) * c + sum_of (map f l)).
  { intros c f. induction l as [|a l IH]; [cbn [map sum_of length Z.of_nat]; change (inject_Z 0) with 0; lra|]. cbn [map sum_of length]. rewrite IH, Nat2Z.inj_succ. unfold Z.succ. rewrite inject_Z_plus. change (inject_Z 1) with 1. lra. }
  rewrite (G (inject_Z (Qfloor x) / n) (fun j => clamp 0 (1 / n) (y - inject_Z (Z.of_nat j) / n))).
  assert (CS := clamp_sum nbin y Hn ltac:(unfold y; lra) nbin ltac:(lia)). fold n in CS. rewrite CS.
  rewrite seq_length. fold n.
  assert (E : n / n == 1) by (field; lra). unfold qmin. destruct (qle y (n / n)) eqn:C; qb.
  - assert (n * (inject_Z (Qfloor x) / n) == inject_Z (Qfloor x)) by (field; lra). unfold y. lra.
  - unfold y in C. lra.
Qed.

Lemma exposure_total nbin p g : (0 < nbin)%nat -> 0 < p ->
  sum_of (map (fun j => exposure_in nbin j p g) (seq 0 nbin)) == (snd g - fst g) / p.
Proof.
  intros Hn Hp. unfold exposure_in.
  assert (G : forall (f h : nat -> Q) l, sum_of (map (fun j => f j - h j) l) == sum_of (map f l) - sum_of (map h l)).
  { intros f h. induction l as [|a l IH]; [cbn; lra|]. cbn [map sum_of]. rewrite IH. lra. }
  rewrite G, !upto_total by exact Hn. field. lra.
Qed.
