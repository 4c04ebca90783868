(* P_rms.v: proofs about M_spec: integrated rms and rebinned spectra. *)
From Verif Require Import Np Lib S_gti S_seg S_utils S_spec M_gti M_seg M_utils M_spec P_seg_regions P_seg_cut P_rebin P_rebin2 P_logbin P_base S_base P_filters.
From Coq Require Import Lqa Sorted.
Open Scope Q_scope.

(* Rebinning by an integer factor, frequencies included, for any representation of the new width. *)
Lemma rebin_factor x y d m (average : bool) dxn x0 xl k :
  evenly x0 d x -> 0 < d -> length y = length x -> dxn == inject_Z (Z.of_nat m) * d ->
  nth_error x 0 = Some x0 -> nth_error x (length x - 1) = Some xl ->
  (0 < m)%nat -> (0 < k)%nat -> (k * m <= length x < (k + 1) * m)%nat ->
  exists out s, rebin_data idq idq x y dxn None (method_of average) (DxScalar d) = Ok out /\
    length (r_y out) = k /\ length (r_x out) = k /\
    (forall i, (i < k)%nat -> exists f v, nth_error (r_x out) i = Some f /\ nth_error (r_y out) i = Some v /\
       f == x0 + inject_Z (Z.of_nat (i * m)) * d + (inject_Z (Z.of_nat m) - 1) * d * (1 # 2) /\
       v == (if average then total (slice y (i * m) (S i * m)) / inject_Z (Z.of_nat m) else total (slice y (i * m) (S i * m)))) /\
    r_step out = StepScalar s /\ s == inject_Z (Z.of_nat m).
Proof.
  intros He Hd Hy Hdxn Hx0 Hxl Hm Hk Hkm.
  assert (Hm1 : 1 <= inject_Z (Z.of_nat m)) by (assert (H := zof_lt 0 m Hm); change (inject_Z (Z.of_nat 0)) with 0 in H; lra).
  assert (Hdx : d <= dxn) by (rewrite Hdxn; setoid_replace d with (1 * d) at 1 by ring; apply Qmult_le_compat_r; lra).
  assert (Hpos : 0 < dxn) by lra.
  assert (Hinc : increasing x).
  { intros i j u v Hij Hu Hv. rewrite (He _ _ Hu), (He _ _ Hv). assert (Hz := zof_lt i j Hij).
    assert ((inject_Z (Z.of_nat i) + 1) * d <= inject_Z (Z.of_nat j) * d) by (apply Qmult_le_compat_r; lra). lra. }
  assert (Hw : widths_at_most dxn x).
  { intros i u v Hu Hv. rewrite (He _ _ Hu), (He _ _ Hv), zof_S. lra. }
  assert (Hxe : (0 < length x)%nat) by (destruct x; [discriminate|simpl; lia]).
  assert (HL : xl + d - x0 == inject_Z (Z.of_nat (length x)) * d).
  { rewrite (He _ _ Hxl). replace (length x) with (S (length x - 1)) at 2 by lia. rewrite zof_S. ring. }
  assert (Hprod : forall n p, inject_Z (Z.of_nat (n * p)) == inject_Z (Z.of_nat n) * inject_Z (Z.of_nat p)).
  { intros n p. rewrite Nat2Z.inj_mul, inject_Z_mult. reflexivity. }
  assert (Hk1 : inject_Z (Z.of_nat k) * dxn <= xl + d - x0).
  { rewrite HL, Hdxn. rewrite Qmult_assoc, <- Hprod. apply Qmult_le_compat_r; [apply zof_le; lia|lra]. }
  assert (Hk2 : xl + d - x0 < inject_Z (Z.of_nat k + 1) * dxn).
  { rewrite HL, Hdxn. replace (Z.of_nat k + 1)%Z with (Z.of_nat (k + 1)) by lia.
    rewrite Qmult_assoc, <- Hprod. apply Qmult_lt_r; [assumption|]. assert (Hz := zof_lt _ _ (proj2 Hkm)). lra. }
  assert (Hye : length (errors_of y None) = length y) by apply map_length.
  destruct (rebin_main x y dxn None average (DxScalar d) [d] x0 xl d d k) as (out & E & Lx & Ly & Le & P & Pst & Ps); try assumption; try reflexivity.
  { right. split; [lra|reflexivity]. }
  { intros e [<-|[] ]. assumption. }
  destruct (Ps eq_refl) as [s Es]. exists out, s. split; [assumption|]. split; [assumption|]. split; [assumption|].
  set (xe := x ++ [xl + d]) in *.
  assert (Hs : StronglySorted Qlt xe) by (apply edges_sorted; [assumption|assumption|lra]).
  assert (Hle : length xe = S (length y)) by (unfold xe; rewrite app_length; simpl; lia).
  assert (Hev : evenly x0 d xe) by (apply evenly_edges; [assumption|assumption|reflexivity]).
  assert (Hlo : forall i, x0 + inject_Z (Z.of_nat i) * dxn == x0 + inject_Z (Z.of_nat (i * m)) * d)
    by (intros i; rewrite Hprod, Hdxn; ring).
  assert (Ham : forall z i, length z = length y -> (i < k)%nat ->
      amount xe z (x0 + inject_Z (Z.of_nat i) * dxn) (x0 + inject_Z (Z.of_nat (S i)) * dxn) == total (slice z (i * m) (S i * m))).
  { intros z i Hz Hi. apply (even_amount xe z x0 d m i); try assumption; try apply Hlo; try lia.
    - rewrite zof_S. lra.
    - rewrite Hz, Hy. assert (S i * m <= k * m)%nat by (apply Nat.mul_le_mono_r; lia). lia. }
  assert (Hob : forall i, (i < k)%nat -> old_bins xe (x0 + inject_Z (Z.of_nat i) * dxn) (x0 + inject_Z (Z.of_nat (S i)) * dxn) == inject_Z (Z.of_nat m)).
  { intros i Hi. rewrite (old_bins_amount xe y) by assumption. rewrite Ham; [|apply map_length|assumption].
    assert (S i * m <= k * m)%nat by (apply Nat.mul_le_mono_r; lia).
    rewrite slice_ones by lia. replace (S i * m - i * m)%nat with m by (simpl; lia). reflexivity. }
  split; [|split].
  - intros i Hi. destruct (P i Hi) as (xm & v & e & Hx & Hv & He' & Px & Pv & Pe). exists xm, v.
    split; [assumption|]. split; [assumption|]. cbv zeta in *.
    split. { rewrite Px, Hlo, Hdxn. field. }
    destruct average; [rewrite (Hob i Hi) in Pv|]; rewrite (Ham y i eq_refl Hi) in Pv; auto.
  - assumption.
  - rewrite Es in Pst. rewrite Pst. apply (Hob 0%nat). assumption.
Qed.

(* ---------- rms ---------- *)
Lemma simplify_same (v : Q) l : (forall a, In a l -> a == v) -> l <> [] -> exists v', simplify (Each l) = One v' /\ v' == v.
Proof.
  intros H Hne. destruct l as [|a l]; [congruence|]. simpl. replace (forallb (qeq a) l) with true.
  - exists a. split; [reflexivity|]. apply H. left. reflexivity.
  - symmetry. apply forallb_forall. intros b Hb. qb. rewrite (H b), (H a); simpl; auto. reflexivity.
Qed.
Lemma simplify_diff l : (forall v, exists a, In a l /\ ~ a == v) -> simplify (Each l) = Each l.
Proof.
  intros H. destruct l as [|a l]; [reflexivity|]. simpl. destruct (forallb (qeq a) l) eqn:E; [|reflexivity].
  destruct (H a) as (b & Hb & Nb). rewrite forallb_forall in E. destruct Hb as [<-|Hb]; [exfalso; apply Nb; reflexivity|].
  specialize (E b Hb). qb. exfalso. apply Nb. rewrite E. reflexivity.
Qed.
Lemma same_or_diff (l : list Q) : l <> [] -> (exists v, forall a, In a l -> a == v) \/ (forall v, exists a, In a l /\ ~ a == v).
Proof.
  destruct l as [|a l]; [congruence|]. intros _. destruct (forallb (qeq a) l) eqn:E.
  - left. exists a. rewrite forallb_forall in E. intros b [<-|Hb]; [reflexivity|]. specialize (E b Hb). qb. rewrite E. reflexivity.
  - right. intros v. destruct (Qeq_dec a v) as [Ev|Ev]; [|exists a; split; [left; reflexivity|assumption] ].
    assert (X : exists b, In b l /\ qeq a b = false).
    { clear -E. induction l as [|b l IH]; simpl in E; [discriminate|]. destruct (qeq a b) eqn:Eb.
      - destruct (IH E) as (c & Hc & Nc). exists c. split; [right|]; assumption.
      - exists b. split; [left; reflexivity|assumption]. }
    destruct X as (b & Hb & Nb). exists b. split; [right; assumption|]. intros C. qb. apply Nb. rewrite C, Ev. reflexivity.
Qed.
(* The bins that the attributes of a spectrum describe: an attribute that is a number applies to all bins. *)
Definition same_kind (a b : perbin) : Prop := match a, b with One _, One _ | Each _, Each _ => True | _, _ => False end.
Definition per_ok (g : bin -> Q) (l : list bin) (a : perbin) : Prop := match a with One v => forall b, In b l -> g b = v | Each vs => vs = map g l end.
Definition bins_of (s : pspec) (l : list bin) : Prop :=
  ps_freq s = map b_freq l /\ Forall2 (fun b u => b_freq b <> None -> u = Some (b_unnorm b)) l (ps_unnorm s) /\
  per_ok b_k l (ps_k s) /\ per_ok b_m l (ps_m s) /\ same_kind (ps_k s) (ps_m s).
(* In every bin the numbers of averaged frequencies and of averaged powers are positive and proportional. *)
Definition proper_bins (l : list bin) : Prop :=
  exists c, forall b, In b l -> b_freq b <> None -> 0 < b_k b /\ 0 < b_m b /\ b_m b == c * b_k b.
Definition perbin_is (a : perbin) (l : list Q) : Prop := match a with One v => forall x, In x l -> x == v | Each vs => vs = l end.
Fixpoint sum3 (f : Q -> Q -> Q -> Q) (a b c : list Q) : Q :=
  match a, b, c with x :: a', y :: b', z :: c' => f x y z + sum3 f a' b' c' | _, _, _ => 0 end.
Lemma finish_main I V err2 tot : err2 == V -> tot == I ->
  exists r2 e2, (if qlt tot 0 then (0, Some 0) else (tot, if qeq tot 0 then None else Some (err2 / (4 * tot)))) = (r2, e2) /\ finished I V r2 e2.
Proof.
  intros HV HI. destruct (qlt tot 0) eqn:E1; qb.
  - exists 0, (Some 0). split; [reflexivity|]. split; [|split; [|split] ]; intros H; try (exfalso; lra). split; reflexivity.
  - destruct (qeq tot 0) eqn:E2; qb.
    + exists tot, None. split; [reflexivity|]. split; [|split; [|split] ]; intros H; try (exfalso; lra); [assumption|reflexivity].
    + eexists tot, _. split; [reflexivity|]. split; [|split; [|split] ]; intros H; try (exfalso; lra); [assumption|].
      eexists. split; [reflexivity|]. rewrite <- HV, <- HI. field. lra.
Qed.
Lemma err_sum_3 p : forall d m, length d = length p -> length m = length p -> err_sum p d m == sum3 (fun x y z => x * x * (y * y) / z) p d m.
Proof. induction p as [|x p IH]; intros [|y d] [|z m] L1 L2; simpl in *; try discriminate; [reflexivity|]. rewrite (IH d m) by lia. reflexivity. Qed.
Lemma dot_3 noise p : forall d m, length d = length p -> length m = length p -> dot (map (fun p => p - noise) p) d == sum3 (fun x y _ => (x - noise) * y) p d m.
Proof. unfold dot. induction p as [|x p IH]; intros [|y d] [|z m] L1 L2; simpl in *; try discriminate; [reflexivity|]. rewrite (IH d m) by lia. reflexivity. Qed.
Lemma sum3_const (f : Q -> Q -> Q -> Q) (g : Q -> Q) p : forall d m, length d = length p -> length m = length p ->
  (forall x y z, In x p -> In y d -> In z m -> f x y z == g x) -> sum3 f p d m == qsum (map g p).
Proof.
  induction p as [|x p IH]; intros [|y d] [|z m] L1 L2 H; simpl in *; try discriminate; [reflexivity|].
  rewrite (H x y z) by auto. rewrite (IH d m) by (auto; lia). reflexivity.
Qed.
Lemma qsum_scal (g : Q -> Q) c l : qsum (map (fun x => g x * c) l) == qsum (map g l) * c.
Proof. induction l as [|x l IH]; simpl; [ring|]. rewrite IH. ring. Qed.
Lemma qsum_nth_ext {A} (f : A -> Q) (g : nat -> Q) (l : list A) : forall s, (forall i a, nth_error l i = Some a -> f a == g (s + i)%nat) ->
  qsum (map f l) == total (map g (seq s (length l))).
Proof.
  induction l as [|a l IH]; intros s H; simpl; [reflexivity|]. rewrite (IH (S s)).
  - specialize (H 0%nat a eq_refl). rewrite H, Nat.add_0_r. reflexivity.
  - intros i b Hb. rewrite (H (S i) b Hb). replace (s + S i)%nat with (S s + i)%nat by lia. reflexivity.
Qed.
Lemma rebin4 p d : 0 < d -> (4 < length p)%nat ->
  exists r s, rebin_data idq idq (map (fun i => inject_Z (Z.of_nat i) * d) (seq 0 (length p))) p (d * 4) None MMean (DxScalar d) = Ok r /\
  length (r_y r) = (length p / 4)%nat /\ (forall i v, nth_error (r_y r) i = Some v -> v == group4 p i) /\ r_step r = StepScalar s /\ s == 4.
Proof.
  intros Hd Hp. set (x := map _ _).
  assert (Lx : length x = length p) by (unfold x; rewrite map_length, seq_length; reflexivity).
  assert (Nx : forall i, (i < length p)%nat -> nth_error x i = Some (inject_Z (Z.of_nat i) * d)).
  { intros i Hi. unfold x. rewrite nth_error_map. replace (nth_error (seq 0 (length p)) i) with (Some i); [reflexivity|].
    symmetry. rewrite (nth_error_nth' _ 0%nat) by (rewrite seq_length; assumption). f_equal. rewrite seq_nth by assumption. reflexivity. }
  pose proof (Nat.div_mod_eq (length p) 4). pose proof (Nat.mod_upper_bound (length p) 4 ltac:(lia)).
  destruct (rebin_factor x p d 4 true (d * 4) (inject_Z (Z.of_nat 0) * d) (inject_Z (Z.of_nat (length p - 1)) * d) (length p / 4))
    as (out & s & E & Ly & _ & P & Es & Hs); try assumption; try lia.
  - intros i a Ha. assert (Hi : (i < length p)%nat) by (rewrite <- Lx; apply nth_error_Some; congruence).
    rewrite (Nx i Hi) in Ha. injection Ha as <-. change (inject_Z (Z.of_nat 0)) with 0. ring.
  - change (inject_Z (Z.of_nat 4)) with 4. ring.
  - apply Nx. lia.
  - rewrite Lx. apply Nx. lia.
  - exists out, s. split; [assumption|]. split; [assumption|]. split; [|split; assumption].
    intros i v Hv. assert (Hi : (i < length p / 4)%nat) by (rewrite <- Ly; apply nth_error_Some; congruence).
    destruct (P i Hi) as (f & v' & _ & Hv' & _ & Pv). rewrite Hv in Hv'. injection Hv' as <-. rewrite Pv. unfold group4. reflexivity.
Qed.
Lemma rms_norm_main p noise df M ds ms c : length ds = length p -> length ms = length p -> perbin_is df ds -> perbin_is M ms -> same_kind df M ->
  (forall d, In d ds -> 0 < d) -> (forall m, In m ms -> 0 < m) -> Forall2 (fun d m => m == c * d) ds ms ->
  exists r2 e2 V, rms_norm p noise df M = Ok (r2, e2) /\ finished (sum3 (fun x y _ => (x - noise) * y) p ds ms) V r2 e2 /\
    ((exists m, In m ms /\ ~ m == 1) \/ (length p <= 4)%nat -> V == sum3 (fun x y z => x * x * (y * y) / z) p ds ms) /\
    (forall d, (4 < length p)%nat -> (forall m, In m ms -> m == 1) -> (forall x, In x ds -> x == d) -> V == grouped_var d p).
Proof.
  intros L1 L2 Hd Hm Hk Pd Pm Hc.
  assert (CASE : (exists d m, simplify df = One d /\ simplify M = One m /\ (forall x, In x ds -> x == d) /\ (forall x, In x ms -> x == m)) \/
                 (simplify df = Each ds /\ simplify M = Each ms /\ (p = [] \/ forall v, exists a, In a ms /\ ~ a == v))).
  { destruct df as [d|dl], M as [m|ml]; simpl in Hk; try contradiction; simpl in Hd, Hm.
    - left. exists d, m. simpl. auto.
    - subst dl ml. destruct ds as [|d0 ds'].
      { destruct ms; [|destruct p; discriminate]. right. split; [reflexivity|]. split; [reflexivity|]. left. destruct p; [reflexivity|discriminate]. }
      assert (Hcz : ~ c == 0).
      { inversion Hc; subst. intros Z. assert (X := Pm y (or_introl eq_refl)). rewrite H1, Z in X. lra. }
      set (ds := d0 :: ds') in *. destruct (same_or_diff ds ltac:(unfold ds; discriminate)) as [ [v Hv]|Hv].
      + left. assert (Hmv : forall x, In x ms -> x == c * v).
        { intros x Hx. apply In_nth_error in Hx. destruct Hx as [i Hx].
          assert (Hi : (i < length ds)%nat) by (rewrite L1, <- L2; apply nth_error_Some; congruence).
          destruct (nth_error_ex ds i Hi) as [y Hy].
          assert (F : forall (a b : list Q) i x y, Forall2 (fun d m => m == c * d) a b -> nth_error a i = Some y -> nth_error b i = Some x -> x == c * y).
          { clear. intros a b i x y H. revert i. induction H as [|u w a b H1 H2 IH]; intros [|i] A B; simpl in *; try discriminate.
            - injection A as <-. injection B as <-. assumption.
            - apply (IH i); assumption. }
          rewrite (F _ _ _ _ _ Hc Hy Hx). rewrite (Hv y); [reflexivity|]. apply nth_error_In with (n := i). assumption. }
        destruct (simplify_same v ds Hv ltac:(unfold ds; discriminate)) as (d & Ed & Dd).
        destruct (simplify_same (c * v) ms Hmv) as (m & Em & Dm). { intros Z. subst ms. unfold ds in *. rewrite <- L2 in L1. discriminate. }
        exists d, m. split; [assumption|]. split; [assumption|]. split.
        * intros x Hx. rewrite Dd. apply Hv. assumption.
        * intros x Hx. rewrite Dm. apply Hmv. assumption.
      + right. assert (Hmv : forall v, exists a, In a ms /\ ~ a == v).
        { intros w. destruct (Hv (w / c)) as (a & Ha & Na).
          assert (F : forall (a b : list Q) y, Forall2 (fun d m => m == c * d) a b -> In y a -> exists x, In x b /\ x == c * y).
          { clear. intros a b y H. induction H as [|u w a b H1 H2 IH]; intros A; [destruct A|]. destruct A as [<-|A].
            - exists w. split; [left; reflexivity|assumption].
            - destruct (IH A) as (x & Hx & Ex). exists x. split; [right|]; assumption. }
          destruct (F _ _ _ Hc Ha) as (x & Hx & Ex). exists x. split; [assumption|]. intros C. apply Na. rewrite <- C, Ex. field. assumption. }
        split; [apply simplify_diff; assumption|]. split; [apply simplify_diff; assumption|]. right. assumption. }
  unfold rms_norm. destruct CASE as [(d & m & Ed & Em & Dd & Dm)|(Ed & Em & Hms)]; rewrite Ed, Em.
  - assert (TOT : qsum (map (fun q => (q - noise) * d) p) == sum3 (fun x y _ => (x - noise) * y) p ds ms).
    { symmetry. apply sum3_const; try assumption. intros x y z _ Hy _. rewrite (Dd y Hy). reflexivity. }
    destruct (qeq m 1 && Nat.ltb 4 (length p))%bool eqn:E.
    + apply andb_prop in E. destruct E as [E1 E2]. apply Nat.ltb_lt in E2. qb.
      assert (d_pos : 0 < d). { destruct ds as [|d0 ds']; [simpl in L1; lia|]. rewrite <- (Dd d0 (or_introl eq_refl)). apply Pd. left. reflexivity. }
      destruct (rebin4 p d d_pos E2) as (r & s & Er & Lr & Pr & Es & Hs). rewrite Er. cbn [bind]. rewrite Es. cbn [bind].
      set (err2 := _ * _). set (tot := qsum _) in *.
      assert (HV : err2 == grouped_var d p).
      { unfold err2, grouped_var. rewrite Lr. rewrite (qsum_nth_ext _ (fun i => group4 p i * group4 p i * (4 * d * (4 * d)) / 4) _ 0%nat).
        - rewrite Lr. apply Qmult_comp; [reflexivity|]. rewrite Nat2Z.inj_mul, inject_Z_mult. change (inject_Z (Z.of_nat 4)) with 4. rewrite Hs. reflexivity.
        - intros i v Hv. rewrite (Pr i v Hv), Hs, Nat.add_0_l. field. }
      destruct (finish_main (sum3 (fun x y _ => (x - noise) * y) p ds ms) (grouped_var d p) err2 tot HV TOT) as (r2 & e2 & Ef & F).
      exists r2, e2, (grouped_var d p). rewrite Ef. split; [reflexivity|]. split; [assumption|]. split.
      * intros [ (m' & Hm' & Nm)|H]; [|lia]. exfalso. apply Nm. rewrite (Dm m' Hm'). assumption.
      * intros d' _ _ Hd'. assert (Edd : d == d').
        { destruct ds as [|d0 ds']; [simpl in L1; lia|]. rewrite <- (Dd d0 (or_introl eq_refl)). apply Hd'. left. reflexivity. }
        unfold grouped_var. apply Qmult_comp; [|reflexivity]. apply total_map_ext. intros i _. rewrite Edd. reflexivity.
    + cbn [bind]. set (err2 := qsum (map (fun q => q * q * (d * d) / m) p)). set (tot := qsum (map (fun q => (q - noise) * d) p)) in *.
      assert (HV : err2 == sum3 (fun x y z => x * x * (y * y) / z) p ds ms).
      { symmetry. apply sum3_const; try assumption. intros x y z _ Hy Hz. rewrite (Dd y Hy), (Dm z Hz). reflexivity. }
      destruct (finish_main _ _ err2 tot HV TOT) as (r2 & e2 & Ef & F).
      eexists r2, e2, _. rewrite Ef. split; [reflexivity|]. split; [exact F|]. split; [reflexivity|].
      intros d' Hl Hm1 Hd'. exfalso. destruct ms as [|m0 ms']; [simpl in L2; lia|].
      assert (X : m == 1) by (rewrite <- (Dm m0 (or_introl eq_refl)); apply Hm1; left; reflexivity).
      apply andb_false_iff in E. destruct E as [E|E]; [qb; contradiction|]. apply Nat.ltb_ge in E. lia.
  - rewrite L1, L2, Nat.eqb_refl. cbn [andb].
    destruct (finish_main _ _ (err_sum p ds ms) (dot (map (fun q => q - noise) p) ds) (err_sum_3 p ds ms L1 L2) (dot_3 noise p ds ms L1 L2)) as (r2 & e2 & Ef & F).
    eexists r2, e2, _. rewrite Ef. split; [reflexivity|]. split; [exact F|]. split; [reflexivity|].
    intros d' Hl Hm1 _. exfalso. destruct Hms as [->|Hms]; [simpl in Hl; lia|]. destruct (Hms 1) as (a & Ha & Na). apply Na. apply Hm1. assumption.
Qed.

Lemma sum3_map (f : Q -> Q -> Q -> Q) (g1 g2 g3 : bin -> Q) l : sum3 f (map g1 l) (map g2 l) (map g3 l) == total (map (fun b => f (g1 b) (g2 b) (g3 b)) l).
Proof. induction l as [|b l IH]; simpl; [reflexivity|]. rewrite IH. reflexivity. Qed.
Lemma select_band {A} (g : bin -> A) lo hi l : select (map g l) (map (in_limits lo hi) (map b_freq l)) = map g (band lo hi l).
Proof. unfold band. induction l as [|b l IH]; simpl; [reflexivity|]. rewrite IH. change (in_limits lo hi) with (in_band lo hi). destruct (in_band lo hi (b_freq b)); reflexivity. Qed.
Lemma select_unnorm lo hi l us : Forall2 (fun b u => b_freq b <> None -> u = Some (b_unnorm b)) l us ->
  all_some (select us (map (in_limits lo hi) (map b_freq l))) = Some (map b_unnorm (band lo hi l)).
Proof.
  unfold band. induction 1 as [|b u l us H1 H2 IH]; simpl; [reflexivity|]. change (in_limits lo hi) with (in_band lo hi) in *.
  destruct (in_band lo hi (b_freq b)) eqn:E; [|assumption]. rewrite H1; [simpl; rewrite IH; reflexivity|].
  intros C. rewrite C in E. discriminate.
Qed.
Lemma band_in lo hi l b : In b (band lo hi l) -> In b l /\ b_freq b <> None.
Proof. intros H. apply filter_In in H. destruct H as [H1 H2]. split; [assumption|]. intros C. rewrite C in H2. discriminate. Qed.
Lemma forall2_slice (l l' : list Q) i j : Forall2 Qeq l l' -> Forall2 Qeq (slice l i j) (slice l' i j).
Proof.
  intros H. unfold slice. assert (K : forall n (a b : list Q), Forall2 Qeq a b -> Forall2 Qeq (skipn n a) (skipn n b)).
  { induction n as [|n IH]; intros a b F; [assumption|]. destruct F; simpl; [constructor|apply IH; assumption]. }
  assert (K2 : forall n (a b : list Q), Forall2 Qeq a b -> Forall2 Qeq (firstn n a) (firstn n b)).
  { induction n as [|n IH]; intros a b F; [constructor|]. destruct F; simpl; constructor; [assumption|apply IH; assumption]. }
  first [apply K, K2|apply K2, K]; assumption.
Qed.
Lemma forall2_total l l' : Forall2 Qeq l l' -> total l == total l'.
Proof. induction 1 as [|a b l l' H1 H2 IH]; simpl; [reflexivity|]. rewrite H1, IH. reflexivity. Qed.
Lemma f2_length {A B} (R : A -> B -> Prop) a b : Forall2 R a b -> length a = length b.
Proof. induction 1; simpl; congruence. Qed.
Lemma grouped_ext d d' l l' : d == d' -> Forall2 Qeq l l' -> grouped_var d l == grouped_var d' l'.
Proof.
  intros Hd H. unfold grouped_var. rewrite (f2_length _ _ _ H). apply Qmult_comp; [|reflexivity]. apply total_map_ext. intros i _.
  unfold group4. rewrite (forall2_total _ _ (forall2_slice l l' (i * 4) (S i * 4) H)), Hd. reflexivity.
Qed.
Lemma rms_main s lo hi level noise l :
  bins_of s l -> proper_bins l -> 0 < ps_df s -> 0 < ps_nphots s -> 0 < ps_segment s ->
  match level with None => noise = ps_nphots s | Some v => unnorm_level v (ps_dt s) (ps_n s) (ps_nphots s) (ps_norm s) = Ok noise end ->
  let B := band lo hi l in
  let I := integral (ps_df s) (ps_nphots s) (ps_segment s) noise B in
  exists r2 e2 V, compute_rms s lo hi level = Ok (Some (r2, e2)) /\ finished I V r2 e2 /\
    ((exists b, In b B /\ ~ b_m b == 1) \/ (length B <= 4)%nat -> V == integral_var (ps_df s) (ps_nphots s) (ps_segment s) B) /\
    (forall k, (4 < length B)%nat -> (forall b, In b B -> b_m b == 1) -> (forall b, In b B -> b_k b == k) ->
       V == grouped_var (ps_df s * k) (map (fun b => frac_norm (ps_nphots s) (ps_segment s) * b_unnorm b) B)).
Proof.
  intros (Hf & Hu & HK & HM & Hkind) (c & Hc) Hdf Hn Hs Hnoise B I.
  set (good := map (in_limits lo hi) (map b_freq l)).
  assert (HB : forall b, In b B -> 0 < b_k b /\ 0 < b_m b /\ b_m b == c * b_k b).
  { intros b Hb. destruct (band_in _ _ _ _ Hb) as [H1 H2]. apply Hc; assumption. }
  assert (EK : exists K, (match ps_k s with One v => Ok (One v) | Each l0 => let! r := bool_index l0 good in Ok (Each r) end) = Ok K /\ per_ok b_k B K /\ same_kind K (ps_k s)).
  { destruct (ps_k s) as [v|vs]; simpl in HK.
    - exists (One v). split; [reflexivity|]. split; [|exact Logic.I]. intros b Hb. apply HK. apply band_in in Hb. tauto.
    - subst vs. exists (Each (map b_k B)). unfold bool_index, good. rewrite !map_length, Nat.eqb_refl. cbn [bind]. rewrite select_band.
      split; [reflexivity|]. split; [reflexivity|exact Logic.I]. }
  assert (EM : exists M, (match ps_m s with One v => Ok (One v) | Each l0 => let! r := bool_index l0 good in Ok (Each r) end) = Ok M /\ per_ok b_m B M /\ same_kind M (ps_m s)).
  { destruct (ps_m s) as [v|vs]; simpl in HM.
    - exists (One v). split; [reflexivity|]. split; [|exact Logic.I]. intros b Hb. apply HM. apply band_in in Hb. tauto.
    - subst vs. exists (Each (map b_m B)). unfold bool_index, good. rewrite !map_length, Nat.eqb_refl. cbn [bind]. rewrite select_band.
      split; [reflexivity|]. split; [reflexivity|exact Logic.I]. }
  destruct EK as (K & EK & PK & SK). destruct EM as (M & EM & PM & SM).
  assert (EN : (match level with None => Ok (ps_nphots s) | Some v => unnorm_level v (ps_dt s) (ps_n s) (ps_nphots s) (ps_norm s) end) = Ok noise).
  { destruct level; [assumption|]. subst noise. reflexivity. }
  set (tf := fun p => p * 2 / ps_nphots s / (ps_nphots s / ps_segment s)).
  assert (Htf : forall p, tf p == frac_norm (ps_nphots s) (ps_segment s) * p).
  { intros p. unfold tf, frac_norm. field. split; lra. }
  destruct (rms_norm_main (map tf (map b_unnorm B)) (tf noise) (map_perbin (Qmult (ps_df s)) K) M
              (map (fun b => ps_df s * b_k b) B) (map b_m B) (c / ps_df s)) as (r2 & e2 & V & ER & F & V1 & V2).
  - rewrite !map_length. reflexivity.
  - rewrite !map_length. reflexivity.
  - destruct K as [v|vs]; simpl in *.
    + intros x Hx. apply in_map_iff in Hx. destruct Hx as (b & <- & Hb). rewrite (PK b Hb). reflexivity.
    + subst vs. rewrite map_map. reflexivity.
  - destruct M as [v|vs]; simpl in *; [|assumption].
    intros x Hx. apply in_map_iff in Hx. destruct Hx as (b & <- & Hb). rewrite (PM b Hb). reflexivity.
  - destruct K, M, (ps_k s), (ps_m s); simpl in *; tauto.
  - intros d Hd. apply in_map_iff in Hd. destruct Hd as (b & <- & Hb). destruct (HB b Hb) as (H1 & _). 
    setoid_replace 0 with (0 * b_k b) by ring. apply Qmult_lt_r; assumption.
  - intros d Hd. apply in_map_iff in Hd. destruct Hd as (b & <- & Hb). apply HB in Hb. tauto.
  - clear -HB Hdf. induction B as [|b B IH]; simpl; constructor.
    + destruct (HB b (or_introl eq_refl)) as (_ & _ & H). rewrite H. field. lra.
    + apply IH. intros b' Hb'. apply HB. right. assumption.
  - exists r2, e2, V. split; [|split; [|split] ].
    + unfold compute_rms. rewrite Hf. fold good. rewrite EK. cbn [bind]. rewrite EM. cbn [bind]. rewrite EN. cbn [bind].
      unfold bool_index. replace (Nat.eqb (length (ps_unnorm s)) (length good)) with true.
      2:{ symmetry. apply Nat.eqb_eq. unfold good. rewrite !map_length. symmetry. apply (f2_length _ _ _ Hu). }
      cbn [bind]. unfold good. rewrite (select_unnorm lo hi l _ Hu). fold B. unfold rms_unnorm. cbv zeta. unfold tf in ER. rewrite ER. reflexivity.
    + assert (EI : sum3 (fun x y _ => (x - tf noise) * y) (map tf (map b_unnorm B)) (map (fun b => ps_df s * b_k b) B) (map b_m B) == I).
      { rewrite map_map, sum3_map. unfold I, integral. apply total_map_ext. intros b _. rewrite !Htf. ring. }
      unfold finished in *. destruct F as (F1 & F2 & F3 & F4). rewrite EI in F1, F2, F3, F4. split; [assumption|]. split; [assumption|]. split; [assumption|].
      intros HI. destruct (F4 HI) as (v & Ev & Hv). exists v. split; [assumption|]. rewrite <- EI. assumption.
    + intros HV. rewrite V1.
      * rewrite map_map, sum3_map. unfold integral_var. apply total_map_ext. intros b _. cbv zeta. rewrite !Htf. reflexivity.
      * rewrite !map_length. destruct HV as [(b & Hb & Nb)|H]; [left|right; assumption].
        exists (b_m b). split; [apply in_map; assumption|assumption].
    + intros k Hl Hm1 Hk. rewrite (V2 (ps_df s * k)).
      * apply grouped_ext; [reflexivity|]. rewrite map_map. clear -Htf. induction B; simpl; constructor; auto.
      * rewrite !map_length. assumption.
      * intros m Hm. apply in_map_iff in Hm. destruct Hm as (b & <- & Hb). apply Hm1. assumption.
      * intros x Hx. apply in_map_iff in Hx. destruct Hx as (b & <- & Hb). rewrite (Hk b Hb). reflexivity.
Qed.
