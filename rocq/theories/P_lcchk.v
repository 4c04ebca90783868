(* P_lcchk.v: checks of light curves, negation and reports: proofs. *)
From Coq Require Import String Ascii.
From Verif Require Import Np Lib S_gti M_gti M_seg M_utils M_lc M_base M_io M_mission M_object S_seg S_object S_lcops S_lcchk M_lcchk P_gti_cross P_gti_final P_seg_cut P_base2 P_mission P_object P_object2 P_lcops2.
From Coq Require Import ZArith QArith Qabs List Bool Lia Lqa.
Import ListNotations.
Open Scope Q_scope.

Lemma uneven_iff time d iv : nondecreasing time -> uneven_in time d iv = true <->
  exists k x y, pair_inside time (fst iv) (snd iv) k x y /\ (S (S k) < List.length time)%nat /\ ~ regular d (y - x).
Proof.
  intros Hs. destruct iv as [a b]. unfold uneven_in. cbn [fst snd]. rewrite existsb_exists.
  destruct (ssl_spec time a Hs) as [A1 A2]. destruct (ssl_spec time b Hs) as [B1 B2].
  set (i := searchsorted_left time a) in *. set (j := searchsorted_left time b) in *.
  assert (N : forall s, negb (np_isclose (1 # 100000) (1 # 100000000) s d) = true <-> ~ regular d s).
  { intros s. unfold np_isclose, regular. destruct (qle _ _) eqn:E; cbn [negb].
    - apply qle_t in E. split; [discriminate|intros H; contradiction].
    - apply qle_f in E. split; [intros _ H; Lqa.lra|reflexivity]. }
  split.
  - intros (s & Hin & Hb). apply neighbours_diffs in Hin. destruct Hin as (x & y & (k & Hx & Hy) & ->). apply N in Hb.
    assert (Lk : (S k < List.length (slice time i (Nat.min j (List.length time - 1))))%nat) by (apply nth_error_Some; congruence).
    rewrite slice_len in Lk. rewrite slice_nth in Hx by lia. rewrite slice_nth in Hy by lia.
    exists (i + k)%nat, x, y. split; [|split; [lia|exact Hb]]. rewrite Nat.add_succ_r in Hy. split; [exact Hx|split; [exact Hy|split]].
    + destruct (Qlt_le_dec x a) as [C|C]; [|exact C]. apply (A1 _ _ Hx) in C. lia.
    + apply (B1 _ _ Hy). lia.
  - intros (k & x & y & (Hx & Hy & Ha & Hb) & L & R). exists (y - x). split; [|apply N, R].
    apply neighbours_diffs. exists x, y. split; [|reflexivity]. apply (B1 _ _ Hy) in Hb.
    assert (i <= k)%nat. { destruct (Nat.le_gt_cases i k) as [C|C]; [exact C|]. apply (A1 _ _ Hx) in C. Lqa.lra. }
    exists (k - i)%nat. rewrite !slice_nth by lia. replace (i + (k - i))%nat with k by lia. replace (i + S (k - i))%nat with (S k) by lia. split; assumption.
Qed.
Lemma check_ok time d g : g <> [] -> well_formed g -> nondecreasing time ->
  exists w, check_lightcurve time (OneDt d) g = Ok w /\
  (w = true <-> exists a b k x y, In (a, b) g /\ pair_inside time a b k x y /\ (S (S k) < List.length time)%nat /\ ~ regular d (y - x)).
Proof.
  intros N W Hs. unfold check_lightcurve. rewrite (proj2 (check_gtis_iff g)) by (split; assumption). cbn [bind].
  eexists. split; [reflexivity|]. rewrite existsb_exists. split.
  - intros ([a b] & Hin & H). apply (uneven_iff time d (a, b) Hs) in H. destruct H as (k & x & y & H). exists a, b, k, x, y. split; [exact Hin|exact H].
  - intros (a & b & k & x & y & Hin & H). exists (a, b). split; [exact Hin|]. apply (uneven_iff time d (a, b) Hs). exists k, x, y. exact H.
Qed.
Lemma check_regular time d g : g <> [] -> well_formed g -> nondecreasing time ->
  (forall a b k x y, In (a, b) g -> pair_inside time a b k x y -> regular d (y - x)) -> check_lightcurve time (OneDt d) g = Ok false.
Proof.
  intros N W Hs H. destruct (check_ok time d g N W Hs) as ([|] & E & I); [|exact E].
  destruct (proj1 I eq_refl) as (a & b & k & x & y & Hin & P & _ & R). exfalso. apply R, (H a b k x y); assumption.
Qed.
Lemma check_many time l g : g <> [] -> well_formed g -> check_lightcurve time (ManyDt l) g = Ok true.
Proof. intros N W. unfold check_lightcurve. now rewrite (proj2 (check_gtis_iff g)) by (split; assumption). Qed.
Lemma check_bad time d g : ~ (g <> [] /\ well_formed g) -> check_lightcurve time d g = Err ValueError.
Proof. intros H. unfold check_lightcurve. rewrite check_gtis_error; [reflexivity|]. intros C. apply H, check_gtis_iff, C. Qed.

(* negation *)
Lemma ends_err_iff n : ends_err n = true <-> err_name n.
Proof.
  unfold ends_err, err_name. split.
  - intros H. destruct (rev n) as [|a [|b [|c [|d m]]]] eqn:E; try discriminate. apply str_eqb_spec in H. exists (rev m).
    rewrite <- (rev_involutive n), E. cbn [rev]. rewrite <- !app_assoc. cbn [app]. now rewrite H.
  - intros (m & ->). rewrite rev_app_distr. reflexivity.
Qed.
Definition upd (l : list str) (o : obj) : obj := map (fun p => (fst p, if mem (fst p) l then negated (snd p) else snd p)) o.
Lemma upd_names l o : map fst (upd l o) = map fst o.
Proof. unfold upd. rewrite map_map. reflexivity. Qed.
Lemma upd_nil o : upd [] o = o.
Proof. unfold upd. rewrite <- (map_id o) at 2. apply map_ext. intros [n v]. reflexivity. Qed.
Lemma upd_cons_out n D o : ~ In n (map fst o) -> upd (n :: D) o = upd D o.
Proof.
  intros H. unfold upd. apply map_ext_in. intros [m v] Hin. cbn [fst snd]. unfold mem. cbn [existsb].
  rewrite str_eqb_neq; [reflexivity|]. intros ->. apply H, in_map_iff. exists (n, v). split; [reflexivity|exact Hin].
Qed.
Lemma set_upd n v D o : proper o -> attr o n = Some v -> set_attr (upd D o) n (negated v) = upd (n :: D) o.
Proof.
  unfold proper. induction o as [|[m w] o IH]; intros P A; [discriminate|]. cbn [map fst] in P. inversion P as [|? ? P1 P2]. subst.
  cbn [upd map fst snd set_attr]. fold (upd D o). fold (upd (n :: D) o). cbn [attr] in A. destruct (str_eqb m n) eqn:E.
  - injection A as ->. apply str_eqb_spec in E. subst m. unfold mem. cbn [existsb]. rewrite str_eqb_refl. cbn [orb]. now rewrite upd_cons_out.
  - rewrite (IH P2 A). unfold mem at 2. cbn [existsb]. fold (mem m D). now rewrite E.
Qed.
Lemma neg_loop_upd c o : proper o -> forall l D, (forall n, In n l -> exists v, attr o n = Some v) ->
  (forall n, In n l -> c_gti c = false \/ n <> % "gti") -> neg_loop c o (upd D o) l = Ok (upd (rev l ++ D) o).
Proof.
  intros P. induction l as [|n l IH]; intros D A G; [reflexivity|]. cbn [neg_loop]. destruct (A n (or_introl eq_refl)) as [v Hv].
  unfold get_attr. rewrite Hv. cbn [bind]. unfold setattr.
  assert (E : (c_gti c && str_eqb n (% "gti"))%bool = false).
  { destruct (G n (or_introl eq_refl)) as [->|H]; [reflexivity|]. rewrite (str_eqb_neq _ _ H). apply andb_false_r. }
  rewrite E, (set_upd n v D o P Hv), IH by (intros; (apply A || apply G); now right). cbn [rev]. now rewrite <- app_assoc.
Qed.
Lemma upd_same l l' o : (forall x, In x l <-> In x l') -> upd l o = upd l' o.
Proof.
  intros H. unfold upd. apply map_ext. intros [n v]. cbn [fst snd]. destruct (mem n l) eqn:E, (mem n l') eqn:E'; try reflexivity.
  - apply mem_iff, H, mem_iff in E. congruence.
  - apply mem_iff, H, mem_iff in E'. congruence.
Qed.
Lemma neg_eq c o n l : proper o -> long c o n -> (c_gti c = true -> In (% "gti") (c_not_array c)) -> default_operated_attrs c o = Ok l ->
  obj_neg c o = Ok (upd l o) /\ forall x, In x l <-> column c o n x /\ ~ err_name x.
Proof.
  intros P L G E. destruct (array_list c o n P L) as (a & Ea & Ia). unfold default_operated_attrs in E. rewrite Ea in E. cbn [bind] in E. injection E as <-.
  assert (I : forall x, In x (filter (fun m => negb (ends_err m)) a) <-> column c o n x /\ ~ err_name x).
  { intros x. rewrite filter_In, Ia. rewrite negb_true_iff, <- ends_err_iff, not_true_iff_false. reflexivity. }
  split; [|exact I]. unfold obj_neg, default_operated_attrs. rewrite Ea. cbn [bind]. rewrite <- (upd_nil o) at 2. rewrite neg_loop_upd.
  - f_equal. apply upd_same. intros x. rewrite app_nil_r, <- in_rev. reflexivity.
  - exact P.
  - intros x Hx. apply I in Hx. destruct Hx as [(_ & _ & _ & s & d & Hin) _]. exists (VArr (n :: s) d). now apply in_attr.
  - intros x Hx. apply I in Hx. destruct Hx as [(_ & _ & N & _) _]. destruct (c_gti c); [right|now left]. intros ->. apply N, G. reflexivity.
Qed.
Lemma attr_upd l o x : attr (upd l o) x = option_map (fun v => if mem x l then negated v else v) (attr o x).
Proof.
  induction o as [|[m w] o IH]; [reflexivity|]. cbn [upd map attr fst snd]. fold (upd l o). destruct (str_eqb m x) eqn:E; [|exact IH].
  apply str_eqb_spec in E. subst. reflexivity.
Qed.
Lemma operated_ok c o n : proper o -> long c o n -> exists l, default_operated_attrs c o = Ok l.
Proof. intros P L. destruct (array_list c o n P L) as (a & Ea & _). unfold default_operated_attrs. rewrite Ea. cbn [bind]. now eexists. Qed.
Lemma neg_ok c o n : proper o -> long c o n -> (c_gti c = true -> In (% "gti") (c_not_array c)) ->
  exists r, obj_neg c o = Ok r /\ map fst r = map fst o /\
  (forall x s d, column c o n x -> ~ err_name x -> In (x, VArr s d) o -> exists d', In (x, VArr s d') r /\ Forall2 opposite d d') /\
  (forall x v, In (x, v) o -> (column c o n x -> err_name x) -> In (x, v) r).
Proof.
  intros P L G. destruct (operated_ok c o n P L) as [l El]. destruct (neg_eq c o n l P L G El) as [E I]. exists (upd l o).
  split; [exact E|]. split; [apply upd_names|]. assert (P' : proper (upd l o)) by (unfold proper; now rewrite upd_names). split.
  - intros x s d C N Hin. exists (map (option_map Qopp) d). split.
    + apply (attr_iff _ _ _ P'). rewrite attr_upd, (in_attr o x _ P Hin). cbn [option_map]. rewrite (proj2 (mem_iff x l)) by (apply I; split; assumption). reflexivity.
    + clear. induction d as [|[p|] d IH]; constructor; try exact IH; cbn; [ring|exact Logic.I].
  - intros x v Hin N. apply (attr_iff _ _ _ P'). rewrite attr_upd, (in_attr o x _ P Hin). cbn [option_map].
    rewrite (proj2 (mem_not x l)); [reflexivity|]. intros Hx. apply I in Hx. destruct Hx as [C E']. apply E', N, C.
Qed.
Lemma negated_twice v : negated (negated v) = v.
Proof.
  assert (H : forall x, option_map Qopp (option_map Qopp x) = x) by (intros [[p q]|]; [unfold option_map, Qopp; cbn; now rewrite Z.opp_involutive|reflexivity]).
  destruct v; cbn [negated]; try reflexivity; [now rewrite H|]. rewrite map_map. rewrite <- (map_id data) at 2. f_equal. apply map_ext, H.
Qed.
Lemma column_upd c o n l x : proper o -> column c (upd l o) n x <-> column c o n x.
Proof.
  intros P. assert (P' : proper (upd l o)) by (unfold proper; now rewrite upd_names). unfold column.
  assert (H : (exists s d, In (x, VArr (n :: s) d) (upd l o)) <-> (exists s d, In (x, VArr (n :: s) d) o)); [|rewrite H; reflexivity].
  split; intros (s & d & Hin).
  - apply (attr_iff _ _ _ P') in Hin. rewrite attr_upd in Hin. destruct (attr o x) as [v|] eqn:E; [|discriminate]. cbn [option_map] in Hin. apply attr_in in E.
    injection Hin as Hin. destruct (mem x l); [|subst v; now exists s, d]. rewrite <- (negated_twice v), Hin in E. cbn [negated] in E. now eexists _, _; apply E.
  - apply (attr_iff _ _ _ P) in Hin. assert (A : attr (upd l o) x = Some (if mem x l then negated (VArr (n :: s) d) else VArr (n :: s) d)) by now rewrite attr_upd, Hin.
    apply attr_in in A. destruct (mem x l); cbn [negated] in A; now eexists _, _; apply A.
Qed.
Lemma neg_twice c o n r : proper o -> long c o n -> (c_gti c = true -> In (% "gti") (c_not_array c)) -> obj_neg c o = Ok r -> obj_neg c r = Ok o.
Proof.
  intros P L G E. destruct (operated_ok c o n P L) as [l El]. destruct (neg_eq c o n l P L G El) as [E' I]. rewrite E' in E. injection E as <-.
  assert (P' : proper (upd l o)) by (unfold proper; now rewrite upd_names).
  assert (L' : long c (upd l o) n).
  { destruct L as (s & d & Hin). exists s, d. apply (attr_iff _ _ _ P'). rewrite attr_upd, (in_attr o _ _ P Hin). cbn [option_map].
    rewrite (proj2 (mem_not _ l)); [reflexivity|]. intros C. apply I in C. destruct C as [(_ & C & _) _]. now apply C. }
  destruct (operated_ok c _ n P' L') as [l' El']. destruct (neg_eq c _ n l' P' L' G El') as [E2 I2]. rewrite E2. f_equal.
  rewrite (upd_same l' l) by (intros x; rewrite I2, I, column_upd by exact P; reflexivity).
  unfold upd. rewrite map_map. rewrite <- (map_id o) at 2. apply map_ext. intros [m v]. cbn [fst snd]. destruct (mem m l); [now rewrite negated_twice|reflexivity].
Qed.
Lemma neg_empty c o : attr o (c_main c) = Some VNone -> obj_neg c o = Ok o.
Proof. intros H. unfold obj_neg, default_operated_attrs. destruct (empty_lists c o H) as [-> _]. reflexivity. Qed.

(* light curves *)
Lemma lc_neg_ok s : l_time (lc_neg s) = l_time s /\ l_err (lc_neg s) = l_err s /\ l_gti (lc_neg s) = l_gti s /\ l_mjdref (lc_neg s) = l_mjdref s /\
  l_dt (lc_neg s) = l_dt s /\ Forall2 (fun a b => a + b == 0) (l_counts s) (l_counts (lc_neg s)) /\
  Forall2 Qeq (l_counts s) (l_counts (lc_neg (lc_neg s))).
Proof.
  repeat match goal with |- _ /\ _ => split end; try reflexivity; cbn [lc_neg l_counts].
  - induction (l_counts s); constructor; [ring|assumption].
  - rewrite map_map. induction (l_counts s); constructor; [ring|assumption].
Qed.

(* number of averages *)
Lemma warns_one n : warns_n_ave (OneN n) = true <-> (n < 30)%nat.
Proof. apply Nat.ltb_lt. Qed.
Lemma warns_many l : warns_n_ave (ManyN l) = true.
Proof. cbn. now destruct (np_any l). Qed.

(* reports *)
Lemma isclose_iff rtol atol x y : np_isclose rtol atol x y = true <-> close rtol atol x y.
Proof. unfold np_isclose, close. apply qle_t. Qed.
Lemma all_close rtol atol v1 : forall v2, List.length v1 = List.length v2 ->
  forallb (fun p => np_isclose rtol atol (fst p) (snd p)) (combine v1 v2) = true <-> Forall2 (close rtol atol) v1 v2.
Proof.
  induction v1 as [|x v1 IH]; intros [|y v2] L; try discriminate; [split; [constructor|reflexivity]|]. cbn [combine forallb fst snd].
  rewrite andb_true_iff, isclose_iff, IH by (cbn in L; lia). split; [intros [A B]; now constructor|intros H; inversion H; subst; now split].
Qed.
Lemma print_fine v1 v2 rtol atol : check_allclose_and_print v1 v2 rtol atol = Fine <-> Forall2 (close rtol atol) v1 v2.
Proof.
  unfold check_allclose_and_print, allclose. destruct (Nat.eqb (List.length v1) (List.length v2)) eqn:E.
  - apply Nat.eqb_eq in E. rewrite <- (all_close rtol atol v1 v2 E). destruct (forallb _ _); split; congruence.
  - split; [discriminate|]. intros H. apply Nat.eqb_neq in E. exfalso. apply E. clear E. induction H as [|x y l l' A B IH]; [reflexivity|cbn; now rewrite IH].
Qed.
Lemma print_lengths v1 v2 rtol atol : List.length v1 <> List.length v2 -> check_allclose_and_print v1 v2 rtol atol = Broken ValueError.
Proof. intros H. unfold check_allclose_and_print, allclose. now rewrite (proj2 (Nat.eqb_neq _ _) H). Qed.
Lemma select_pairs (f : Q * Q -> bool) v1 : forall v2, List.length v1 = List.length v2 ->
  select v1 (map f (combine v1 v2)) = map fst (filter f (combine v1 v2)) /\ select v2 (map f (combine v1 v2)) = map snd (filter f (combine v1 v2)).
Proof.
  induction v1 as [|x v1 IH]; intros [|y v2] L; try discriminate; [now split|]. cbn [combine map select filter].
  destruct (IH v2 ltac:(cbn in L; lia)) as [A B]. destruct (f (x, y)); cbn [map fst snd]; rewrite A, B; now split.
Qed.
Lemma print_values v1 v2 rtol atol : List.length v1 = List.length v2 -> ~ Forall2 (close rtol atol) v1 v2 ->
  exists b1 b2 p1 p2, check_allclose_and_print v1 v2 rtol atol = Differ b1 b2 p1 p2 /\
  b1 = map fst (filter (fun p => qle (atol + rtol * Qabs (snd p)) (Qabs (fst p - snd p))) (combine v1 v2)) /\
  b2 = map snd (filter (fun p => qle (atol + rtol * Qabs (snd p)) (Qabs (fst p - snd p))) (combine v1 v2)) /\
  (forall x y, In (x, y) (combine v1 v2) -> ~ close rtol atol x y -> In (x, y) (combine b1 b2)) /\
  (forall x y, In (x, y) (combine b1 b2) -> In (x, y) (combine v1 v2) /\ (~ close rtol atol x y \/ Qabs (x - y) == atol + rtol * Qabs y)).
Proof.
  intros L N. unfold check_allclose_and_print, allclose. rewrite L, Nat.eqb_refl. destruct (forallb _ _) eqn:E.
  - exfalso. apply N, (all_close rtol atol v1 v2 L), E.
  - set (f := fun p : Q * Q => qle (atol + rtol * Qabs (snd p)) (Qabs (fst p - snd p))). destruct (select_pairs f v1 v2 L) as [A B].
    do 4 eexists. split; [reflexivity|]. rewrite A, B. split; [reflexivity|]. split; [reflexivity|].
    assert (C : forall l : list (Q * Q), combine (map fst l) (map snd l) = l) by (intros l; induction l as [|[x y] l IH]; [reflexivity|cbn; now rewrite IH]).
    rewrite C. split.
    + intros x y Hin H. apply filter_In. split; [exact Hin|]. unfold f. cbn [fst snd]. apply qle_t. unfold close in H. Lqa.lra.
    + intros x y H. apply filter_In in H. destruct H as [Hin H]. split; [exact Hin|]. unfold f in H. cbn [fst snd] in H. apply qle_t in H.
      destruct (Qlt_le_dec (atol + rtol * Qabs y) (Qabs (x - y))) as [D|D]; [left; unfold close; Lqa.lra|right; Lqa.lra].
Qed.
Lemma error_attrs c o n : proper o -> long c o n -> exists l, default_error_attrs c o = Ok l /\ forall x, In x l <-> column c o n x /\ err_name x.
Proof.
  intros P L. destruct (array_list c o n P L) as (a & Ea & Ia). unfold default_error_attrs. rewrite Ea. cbn [bind]. eexists. split; [reflexivity|].
  intros x. rewrite filter_In, Ia, ends_err_iff. reflexivity.
Qed.
Lemma rest_names s : attr (l_rest (lc_neg s)) (% "mission") = Some VNone /\ attr (l_rest (lc_neg s)) (% "instr") = Some VNone /\ attr (l_rest (lc_neg s)) (% "header") = Some VNone /\
  attr (l_rest (lc_neg s)) (% "bg_counts") = Some VNone /\ attr (l_rest (lc_neg s)) (% "bg_ratio") = Some VNone /\ attr (l_rest (lc_neg s)) (% "frac_exp") = Some VNone /\
  attr (l_rest (lc_neg s)) (% "err_dist") = Some (VText (% "poisson")).
Proof. repeat split; reflexivity. Qed.
