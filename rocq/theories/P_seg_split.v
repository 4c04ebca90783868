(* P_seg_split.v: split_gtis_by_exposure. *)
From Verif Require Import Np Lib S_gti S_seg M_gti M_seg P_gti_ops P_seg_regions P_seg_cut P_seg_bins.
Open Scope Q_scope.

Fixpoint pairs (l : list Q) : gtis :=
  match l with x :: ((y :: _) as l') => (x, y) :: pairs l' | _ => [] end.
Lemma combine_pairs l : combine (removelast l) (tl l) = pairs l.
Proof.
  induction l as [|x l IH]; [reflexivity|]. destruct l as [|y l]; [reflexivity|].
  change (removelast (x :: y :: l)) with (x :: removelast (y :: l)). simpl tl.
  change (pairs (x :: y :: l)) with ((x, y) :: pairs (y :: l)). rewrite <- IH. reflexivity.
Qed.
Lemma pairs_in l a b : In (a, b) (pairs l) -> exists i, nth_error l i = Some a /\ nth_error l (S i) = Some b.
Proof.
  induction l as [|x l IH]; [intros []|]. destruct l as [|y l]; [intros []|].
  intros [E|H].
  - inversion E; subst. exists 0%nat. split; reflexivity.
  - destruct (IH H) as (i & H1 & H2). exists (S i). split; assumption.
Qed.
Lemma pairs_main l : forall x z, nondecreasing (x :: l ++ [z]) ->
  exposure (pairs (x :: l ++ [z])) == z - x /\
  (forall t, covered (pairs (x :: l ++ [z])) t <-> x <= t /\ t < z) /\
  (forall a b, In (a, b) (pairs (x :: l ++ [z])) -> x <= a /\ a <= b /\ b <= z) /\
  StronglySorted (fun p q : Q * Q => snd p <= fst q) (pairs (x :: l ++ [z])) /\ x <= z.
Proof.
  induction l as [|y l IH]; intros x z Hs; apply (proj2 (ss_nth Qle _)) in Hs.
  - apply StronglySorted_inv in Hs. destruct Hs as [_ Hf]. inversion Hf; subst. simpl.
    split; [ring|]. split; [|split; [|split; [repeat constructor|assumption]]].
    + intros t. split; [intros (a & b & [E|[]] & H); inversion E; subst; assumption|].
      intros H. exists x, z. split; [left; reflexivity|assumption].
    + intros a b [E|[]]; inversion E; subst. lra.
  - simpl app in *. assert (Hs' := Hs). apply StronglySorted_inv in Hs'. destruct Hs' as [Hs' Hf].
    inversion Hf as [|? ? Hxy Hf']; subst.
    destruct (IH y z) as (E1 & E2 & E3 & E4 & E5); [unfold nondecreasing; apply (proj1 (ss_nth Qle _)); assumption|].
    change (pairs (x :: y :: l ++ [z])) with ((x, y) :: pairs (y :: l ++ [z])).
    split; [simpl; rewrite E1; ring|]. split; [|split; [|split; [|lra]]].
    + intros t. split.
      * intros (a & b & [E|Hin] & H); [inversion E; subst; lra|].
        assert (C : covered (pairs (y :: l ++ [z])) t) by (exists a, b; auto). apply E2 in C. lra.
      * intros H. destruct (Qlt_le_dec t y) as [D|D].
        -- exists x, y. split; [left; reflexivity|lra].
        -- destruct (proj2 (E2 t)) as (a & b & Hin & Hab); [lra|]. exists a, b. split; [right; assumption|assumption].
    + intros a b [E|Hin]; [inversion E; subst; lra|]. apply E3 in Hin. lra.
    + constructor; [assumption|]. apply Forall_forall. intros [a b] Hin. apply E3 in Hin. simpl. lra.
Qed.

Lemma last_map {A B} (f : A -> B) l d : last (map f l) (f d) = f (last l d).
Proof. induction l as [|x l IH]; [reflexivity|]. destruct l as [|y l]; [reflexivity|]. exact IH. Qed.

Lemma cut_main chunk iv : 0 < chunk -> fst iv <= snd iv ->
  exposure (cut_gti chunk iv) == snd iv - fst iv /\
  (forall t, covered (cut_gti chunk iv) t <-> fst iv <= t /\ t < snd iv) /\
  (forall a b, In (a, b) (cut_gti chunk iv) -> a <= b /\ b - a <= chunk /\ fst iv <= a /\ b <= snd iv) /\
  StronglySorted (fun x y : Q * Q => snd x <= fst y) (cut_gti chunk iv).
Proof.
  intros Hc Hab. destruct iv as [a b]. simpl fst in *; simpl snd in *. unfold cut_gti. simpl fst; simpl snd.
  destruct (qlt chunk (b - a)) eqn:E; qb.
  - set (n := arange_len a b chunk).
    assert (Hn : (1 < n)%nat).
    { apply arange_len_spec; [assumption|]. simpl. change (inject_Z 1) with 1. lra. }
    assert (Hlast : last (arange a b chunk) a < b).
    { assert (Hin : In (last (arange a b chunk) a) (arange a b chunk)).
      { apply last_In. unfold arange. fold n. destruct n; [lia|]. discriminate. }
      apply in_arange in Hin; [|assumption]. destruct Hin as (i & Ei & Hi). rewrite Ei. assumption. }
    replace (qlt (last (arange a b chunk) a) b) with true by (symmetry; qb; assumption).
    rewrite combine_pairs.
    assert (Ha : exists l, arange a b chunk = (a + inject_Z 0 * chunk) :: l).
    { unfold arange. fold n. destruct n as [|n']; [lia|]. eexists. reflexivity. }
    destruct Ha as (l & El).
    assert (Hnd : nondecreasing (arange a b chunk ++ [b])).
    { unfold nondecreasing. apply (proj1 (ss_nth Qle _)). apply ss_app. split; [|split; [repeat constructor|]].
      - apply ss_nth. intros i j x y Hij Hx Hy. apply nth_arange in Hx; [|assumption]. apply nth_arange in Hy; [|assumption].
        destruct Hx as [-> _], Hy as [-> _]. apply zof_lt in Hij.
        assert (H : inject_Z (Z.of_nat i) * chunk <= inject_Z (Z.of_nat j) * chunk) by (apply Qmult_le_compat_r; lra). lra.
      - intros x y Hx [<-|[]]. apply in_arange in Hx; [|assumption]. destruct Hx as (i & -> & Hx). lra. }
    assert (Hstep : forall x y, In (x, y) (pairs (arange a b chunk ++ [b])) -> y - x <= chunk).
    { intros x y Hin. apply pairs_in in Hin. destruct Hin as (i & Hx & Hy).
      assert (Hlen : length (arange a b chunk) = n) by (unfold arange; rewrite map_length, seq_length; reflexivity).
      destruct (Nat.lt_ge_cases i n) as [Hi|Hi].
      - rewrite nth_error_app1 in Hx by lia. apply nth_arange in Hx; [|assumption]. destruct Hx as [-> _].
        destruct (Nat.lt_ge_cases (S i) n) as [Hi2|Hi2].
        + rewrite nth_error_app1 in Hy by lia. apply nth_arange in Hy; [|assumption]. destruct Hy as [-> _].
          rewrite zof_S. assert (Er : (inject_Z (Z.of_nat i) + 1) * chunk == inject_Z (Z.of_nat i) * chunk + chunk) by ring. lra.
        + rewrite nth_error_app2 in Hy by lia. replace (S i - length (arange a b chunk))%nat with 0%nat in Hy by lia.
          inversion Hy; subst.
          assert (Hno : ~ (S i < arange_len a y chunk)%nat) by (fold n; lia).
          rewrite (arange_len_spec a y chunk (S i) Hc) in Hno. rewrite zof_S in Hno.
          assert (Er : (inject_Z (Z.of_nat i) + 1) * chunk == inject_Z (Z.of_nat i) * chunk + chunk) by ring. lra.
      - assert (C : (S i < length (arange a b chunk ++ [b]))%nat) by (apply nth_error_Some; congruence).
        rewrite app_length in C. simpl in C. lia. }
    rewrite El in *. simpl app in *. destruct (pairs_main l (a + inject_Z 0 * chunk) b Hnd) as (E1 & E2 & E3 & E4 & E5).
    assert (E0 : a + inject_Z 0 * chunk == a) by (change (inject_Z 0) with 0; ring).
    split; [rewrite E1, E0; reflexivity|]. split; [|split; [|assumption]].
    + intros t. rewrite E2. rewrite E0. reflexivity.
    + intros x y Hin. assert (H1 := Hstep _ _ Hin). apply E3 in Hin. lra.
  - simpl. split; [ring|]. split; [|split; [|repeat constructor]].
    + intros t. split; [intros (x & y & [Eq|[]] & H); inversion Eq; subst; assumption|].
      intros H. exists a, b. split; [left; reflexivity|assumption].
    + intros x y [Eq|[]]; inversion Eq; subst. lra.
Qed.

Lemma exposure_app g h : exposure (g ++ h) == exposure g + exposure h.
Proof. induction g as [|[a b] g IH]; simpl; [ring|]. rewrite IH. ring. Qed.

Definition wf2 (g : gtis) := Forall (fun iv : Q * Q => fst iv <= snd iv) g /\ StronglySorted (fun x y : Q * Q => snd x <= fst y) g.
Lemma wf2_iff g : well_formed g <-> wf2 g.
Proof.
  unfold well_formed, wf2. rewrite ss_nth, Forall_forall. split; intros [H1 H2]; split.
  - intros [a b] H; apply (H1 a b H).
  - intros i j [a b] [c d] Hij Hi Hj. simpl. eapply H2; eassumption.
  - intros a b H; apply (H1 (a, b) H).
  - intros i j a b c d Hij Hi Hj. apply (H2 i j (a, b) (c, d) Hij Hi Hj).
Qed.

Lemma cut_all chunk g : 0 < chunk -> well_formed g ->
  exposure (flat_map (cut_gti chunk) g) == exposure g /\
  (forall t, covered (flat_map (cut_gti chunk) g) t <-> covered g t) /\
  well_formed (flat_map (cut_gti chunk) g) /\
  (forall a b, In (a, b) (flat_map (cut_gti chunk) g) -> b - a <= chunk /\ exists c d, In (c, d) g /\ c <= a /\ b <= d).
Proof.
  intros Hc Hwf. rewrite wf2_iff in *. destruct Hwf as [Hp Hs].
  assert (Hsub : forall g0, Forall (fun iv : Q * Q => fst iv <= snd iv) g0 -> forall a b, In (a, b) (flat_map (cut_gti chunk) g0) ->
    a <= b /\ b - a <= chunk /\ exists c d, In (c, d) g0 /\ c <= a /\ b <= d).
  { intros g0 Hp0 a b Hin. apply in_flat_map in Hin. destruct Hin as ([c d] & Hcd & Hin). rewrite Forall_forall in Hp0.
    destruct (cut_main chunk (c, d) Hc (Hp0 _ Hcd)) as (_ & _ & H & _). apply H in Hin. simpl in Hin.
    split; [tauto|]. split; [tauto|]. exists c, d. tauto. }
  split; [|split; [|split; [split|]]].
  - clear Hs Hsub. induction Hp as [|[a b] g Hab Hp IH]; simpl; [reflexivity|].
    rewrite exposure_app, IH. destruct (cut_main chunk (a, b) Hc Hab) as (-> & _). simpl. reflexivity.
  - intros t. rewrite Forall_forall in Hp. split.
    + intros (a & b & Hin & H). apply in_flat_map in Hin. destruct Hin as ([c d] & Hcd & Hin).
      destruct (cut_main chunk (c, d) Hc (Hp _ Hcd)) as (_ & H1 & _). exists c, d. split; [assumption|].
      apply (H1 t). exists a, b. auto.
    + intros (c & d & Hcd & H). destruct (cut_main chunk (c, d) Hc (Hp _ Hcd)) as (_ & H1 & _).
      destruct (proj2 (H1 t)) as (a & b & Hin & Hab); [assumption|]. exists a, b. split; [|assumption].
      apply in_flat_map. exists (c, d). auto.
  - apply Forall_forall. intros [a b] Hin. apply (Hsub g Hp) in Hin. simpl. tauto.
  - revert Hp. induction Hs as [|[a b] g Hs IH Hf]; intros Hp; simpl; [constructor|]. inversion Hp; subst.
    apply ss_app. split; [|split; [auto|]].
    + apply (cut_main chunk (a, b) Hc). assumption.
    + intros [x y] [x' y'] Hx Hy. destruct (cut_main chunk (a, b) Hc H1) as (_ & _ & H & _). apply H in Hx.
      apply (Hsub g H2) in Hy. destruct Hy as (_ & _ & c & d & Hcd & Hc1 & Hc2). rewrite Forall_forall in Hf. specialize (Hf _ Hcd).
      simpl in *. lra.
  - intros a b Hin. apply (Hsub g Hp) in Hin. tauto.
Qed.

(* cumulative exposure *)
Lemma exposure_edges_len g : forall acc, length (exposure_edges acc g) = length g.
Proof. induction g as [|iv g IH]; intros acc; simpl; [reflexivity|]. rewrite IH. reflexivity. Qed.
Lemma exposure_edges_nth g : forall acc k e, nth_error (exposure_edges acc g) k = Some e -> e == acc + exposure (firstn k g).
Proof.
  induction g as [|[a b] g IH]; intros acc [|k] e H; simpl in *; try discriminate.
  - inversion H; subst. ring.
  - apply IH in H. rewrite H. simpl. ring.
Qed.
Lemma exposure_nonneg g : Forall (fun iv : Q * Q => fst iv <= snd iv) g -> 0 <= exposure g.
Proof. induction 1 as [|[a b] g Hab Hg IH]; simpl in *; lra. Qed.
Lemma exposure_edges_sorted g : Forall (fun iv : Q * Q => fst iv <= snd iv) g -> forall acc, 
  nondecreasing (exposure_edges acc g).
Proof.
  intros Hg acc. unfold nondecreasing. apply (proj1 (ss_nth Qle _)). revert acc.
  induction Hg as [|[a b] g Hab Hg IH]; intros acc; simpl; [constructor|]. constructor; [apply IH|].
  apply Forall_forall. intros e He. apply In_nth_error in He. destruct He as [k Hk].
  apply exposure_edges_nth in Hk. simpl in Hab.
  assert (0 <= exposure (firstn k g)); [|lra]. apply exposure_nonneg. apply Forall_forall. intros iv Hiv.
  rewrite Forall_forall in Hg. apply Hg. rewrite <- (firstn_skipn k g). apply in_app_iff. left; assumption.
Qed.
Lemma exposure_qsum' g : qsum (get_gti_lengths g) == exposure g.
Proof. induction g as [|[a b] g IH]; simpl; [reflexivity|]. unfold qsum, get_gti_lengths in *. simpl. rewrite IH. ring. Qed.

Lemma slice_exposure g M v w per : Forall (fun iv : Q * Q => fst iv <= snd iv) g -> 0 <= M ->
  (forall a b, In (a, b) g -> b - a <= M) -> v <= w -> w <= v + per ->
  exposure (slice g (searchsorted_left (exposure_edges 0 g) v) (searchsorted_left (exposure_edges 0 g) w)) <= per + M.
Proof.
  intros Hg HM0 HM Hvw Hper. assert (Hs := exposure_edges_sorted g Hg 0).
  destruct (ssl_spec _ v Hs) as [A1 A2]. destruct (ssl_spec _ w Hs) as [B1 B2]. assert (Hm := ssl_mono _ v w Hs Hvw).
  rewrite exposure_edges_len in *.
  set (i := searchsorted_left (exposure_edges 0 g) v) in *. set (j := searchsorted_left (exposure_edges 0 g) w) in *.
  destruct (Nat.eq_dec i j) as [Eij|Nij].
  - unfold slice. rewrite Eij, Nat.sub_diag. simpl. lra.
  - assert (E : exposure (firstn i g) + exposure (slice g i j) == exposure (firstn j g)).
    { rewrite <- exposure_app. rewrite slice_concat by assumption. reflexivity. }
    destruct (nth_error_ex (exposure_edges 0 g) i) as [ei Ei]; [rewrite exposure_edges_len; lia|].
    destruct (nth_error_ex (exposure_edges 0 g) (j - 1)) as [ej Ej]; [rewrite exposure_edges_len; lia|].
    assert (v <= ei) by (apply Qnot_lt_le; intros C; apply (A1 _ _ Ei) in C; lia).
    assert (ej < w) by (apply (B1 _ _ Ej); lia).
    apply exposure_edges_nth in Ei. apply exposure_edges_nth in Ej.
    destruct (nth_error_ex g (j - 1)) as [[a b] Eg]; [lia|].
    assert (Efj : firstn j g = firstn (j - 1) g ++ [(a, b)]).
    { clear - Eg Nij Hm. replace j with (S (j - 1)) at 1 by lia. revert Eg. generalize (j - 1)%nat. clear. intros n. revert g.
      induction n as [|n IH]; intros [|x g] E; simpl in *; try discriminate; [inversion E; reflexivity|].
      rewrite <- IH; [reflexivity|assumption]. }
    rewrite Efj, exposure_app in E. simpl in E. assert (b - a <= M) by (apply HM; eapply nth_error_In; eassumption). lra.
Qed.

Lemma split_loop_bound g M per (Hg : Forall (fun iv : Q * Q => fst iv <= snd iv) g) (HM0 : 0 <= M)
  (HM : forall a b, In (a, b) g -> b - a <= M) (Hper : 0 <= per) :
  let f := fun v => Z.of_nat (searchsorted_left (exposure_edges 0 g) v) in
  forall vs v0, (forall i x y, nth_error (v0 :: vs) i = Some x -> nth_error (v0 :: vs) (S i) = Some y -> x <= y /\ y <= x + per) ->
  forall p, In p (fst (split_loop g (f v0) (map f vs))) -> exposure p <= per + M.
Proof.
  intros f. induction vs as [|v vs IH]; intros v0 Hc p Hp; [destruct Hp|].
  simpl map in Hp. cbn [split_loop fst] in Hp. destruct Hp as [<-|Hp].
  - destruct (Hc 0%nat v0 v) as [H1 H2]; [reflexivity|reflexivity|].
    unfold zslice, f. rewrite !norm_pos by lia. rewrite !Nat2Z.id. apply slice_exposure; assumption.
  - apply (IH v); [|assumption]. intros i x y Hx Hy. apply (Hc (S i)); assumption.
Qed.

Lemma rint_half x : inject_Z (rint x) - (1 # 2) <= x /\ x <= inject_Z (rint x) + (1 # 2).
Proof.
  unfold rint. assert (H1 := Qfloor_le x). assert (H2 := Qlt_floor x).
  rewrite inject_Z_plus in *. change (inject_Z 1) with 1 in *.
  destruct (qlt _ (1 # 2)) eqn:E1; qb; [lra|]. destruct (qlt (1 # 2) _) eqn:E2; qb.
  - rewrite inject_Z_plus. change (inject_Z 1) with 1. lra.
  - destruct (Z.even _); [lra|]. rewrite inject_Z_plus. change (inject_Z 1) with 1. lra.
Qed.

(* Bound on the length of any GTI, and the result of the split by exposure. *)
Lemma split_by_exposure_main g chunk M : 0 < chunk -> well_formed g -> (forall a b, In (a, b) g -> b - a <= M) -> 0 <= M ->
  exists parts, split_gtis_by_exposure g chunk None = Ok parts /\
    well_formed (concat parts) /\ exposure (concat parts) == exposure g /\
    (forall t, covered (concat parts) t <-> covered g t) /\
    (forall p, In p parts -> exposure p <= (3 # 2) * chunk + M).
Proof.
  intros Hc Hwf HM HM0. unfold split_gtis_by_exposure, split_gtis_by_exposure_nogap.
  set (n := rint (qsum (get_gti_lengths g) / chunk)).
  assert (Hr := rint_half (qsum (get_gti_lengths g) / chunk)). fold n in Hr. rewrite exposure_qsum' in Hr.
  assert (Hg : Forall (fun iv : Q * Q => fst iv <= snd iv) g) by (apply wf2_iff in Hwf; apply Hwf).
  assert (Hx0 := exposure_nonneg g Hg).
  assert (Hdm := qdiv_mul (exposure g) chunk Hc).
  destruct (n <=? 1)%Z eqn:En.
  - apply Z.leb_le in En. exists [g]. split; [reflexivity|]. simpl. rewrite app_nil_r.
    repeat split; try apply Hwf; try tauto.
    intros p [<-|[]]. assert (Hn1 : inject_Z n <= 1) by (change 1 with (inject_Z 1); rewrite <- Zle_Qle; assumption).
    assert (exposure g / chunk <= 3 # 2) by lra.
    assert (exposure g / chunk * chunk <= (3 # 2) * chunk) by (apply Qmult_le_compat_r; lra). lra.
  - apply Z.leb_gt in En.
    assert (Hn2 : 2 <= inject_Z n) by (change 2 with (inject_Z 2); rewrite <- Zle_Qle; lia).
    assert (Hpos : 0 < exposure g).
    { apply Qnot_le_lt. intros C. assert (E0 : exposure g == 0) by lra. rewrite E0 in Hr.
      assert (0 / chunk == 0) by (unfold Qdiv; ring). lra. }
    set (g' := if (Z.of_nat (length g) <=? n)%Z then flat_map (cut_gti chunk) g else g).
    assert (Hg' : exposure g' == exposure g /\ (forall t, covered g' t <-> covered g t) /\ well_formed g' /\
                  (forall a b, In (a, b) g' -> b - a <= M)).
    { unfold g'. destruct (Z.of_nat (length g) <=? n)%Z.
      - destruct (cut_all chunk g Hc Hwf) as (E1 & E2 & E3 & E4). split; [assumption|]. split; [assumption|]. split; [assumption|].
        intros a b Hin. apply E4 in Hin. destruct Hin as (_ & c & d & Hcd & H1 & H2). apply HM in Hcd. lra.
      - split; [reflexivity|]. split; [tauto|]. split; assumption. }
    destruct Hg' as (Ex & Ecov & Hwf' & HM'). clearbody g'.
    assert (Hgp : Forall (fun iv : Q * Q => fst iv <= snd iv) g') by (apply wf2_iff in Hwf'; apply Hwf').
    set (total := qsum (get_gti_lengths g')). assert (Et : total == exposure g) by (unfold total; rewrite exposure_qsum'; assumption).
    clearbody total.
    set (per := total / inject_Z n).
    assert (Hpm : per * inject_Z n == total) by (apply qdiv_mul; lra).
    assert (Hper : 0 < per). { unfold per. apply Qlt_shift_div_l; lra. }
    assert (Hpb : per <= (3 # 2) * chunk).
    { unfold per. apply Qle_shift_div_r; [lra|].
      assert (exposure g / chunk * chunk <= (inject_Z n + (1 # 2)) * chunk) by (apply Qmult_le_compat_r; lra).
      assert (2 * chunk <= inject_Z n * chunk) by (apply Qmult_le_compat_r; lra).
      assert (Er1 : (inject_Z n + (1 # 2)) * chunk == inject_Z n * chunk + (1#2) * chunk) by ring.
      assert (Er2 : (3 # 2) * chunk * inject_Z n == (3 # 2) * (inject_Z n * chunk)) by ring.
      rewrite Hdm in H. rewrite Er1 in H. rewrite Er2, Et.
      clear - H H0 Hc. set (z := inject_Z n * chunk) in *. clearbody z. lra. }
    set (f := fun v => Z.of_nat (searchsorted_left (exposure_edges 0 g') v)).
    set (vs := arange 0 (total + per) per).
    assert (Hlen2 : (1 < arange_len 0 (total + per) per)%nat).
    { apply arange_len_spec; [assumption|]. simpl. change (inject_Z 1) with 1. lra. }
    assert (Hvs : exists v1 vr, vs = (0 + inject_Z 0 * per) :: v1 :: vr /\ v1 == per).
    { unfold vs, arange. destruct (arange_len 0 (total + per) per) as [|[|k]]; [lia|lia|].
      eexists _, _. split; [reflexivity|]. simpl. change (inject_Z 1) with 1. ring. }
    destruct Hvs as (v1 & vr & Evs & Ev1).
    assert (Hg0 : g' <> []). { intros ->. simpl in Ex. lra. }
    assert (Hf0 : f (0 + inject_Z 0 * per) = 0%Z).
    { unfold f. destruct g' as [|iv g'']; [congruence|]. simpl. replace (qlt 0 (0 + inject_Z 0 * per)) with false; [reflexivity|].
      symmetry. qb. change (inject_Z 0) with 0. lra. }
    assert (Hf1 : (0 < f v1)%Z).
    { unfold f. destruct g' as [|iv g'']; [congruence|]. simpl. replace (qlt 0 v1) with true; [lia|].
      symmetry. qb. lra. }
    assert (Hcons : forall i x y, nth_error vs i = Some x -> nth_error vs (S i) = Some y -> x <= y /\ y <= x + per).
    { intros i x y Hx Hy. apply nth_arange in Hx; [|assumption]. apply nth_arange in Hy; [|assumption].
      destruct Hx as [-> _], Hy as [-> _]. rewrite zof_S.
      assert (Er : (inject_Z (Z.of_nat i) + 1) * per == inject_Z (Z.of_nat i) * per + per) by ring. lra. }
    assert (Hvsort : nondecreasing vs).
    { intros i j x y Hij Hx Hy. apply nth_arange in Hx; [|assumption]. apply nth_arange in Hy; [|assumption].
      destruct Hx as [-> _], Hy as [-> _]. apply zof_lt in Hij.
      assert (inject_Z (Z.of_nat i) * per <= inject_Z (Z.of_nat j) * per) by (apply Qmult_le_compat_r; lra). lra. }
    assert (Hidx : nondec_nat (map f vs)).
    { split; [apply Forall_forall; intros z Hz; apply in_map_iff in Hz; destruct Hz as (v & <- & _); unfold f; lia|].
      apply ss_nth. intros i j x y Hij Hx Hy. rewrite nth_error_map in Hx, Hy.
      destruct (nth_error vs i) eqn:E1; [|discriminate]. destruct (nth_error vs j) eqn:E2; [|discriminate].
      simpl in Hx, Hy. inversion Hx; inversion Hy; subst. unfold f. apply inj_le. apply ssl_mono; [apply exposure_edges_sorted; assumption|].
      eapply Hvsort; eassumption. }
    destruct (split_at_main g' (map f vs) Hidx) as (parts & Ep & Ec).
    { rewrite Evs. exists (f v1). split; [right; left; reflexivity|lia]. }
    exists parts. split; [assumption|]. rewrite Ec. split; [assumption|]. split; [assumption|]. split; [assumption|].
    intros p Hp.
    (* the parts *)
    assert (Hparts : In p (fst (split_loop g' (f (0 + inject_Z 0 * per)) (map f (v1 :: vr)))) \/
                     exists k, (forall e, nth_error (exposure_edges 0 g') k = Some e -> total <= e) /\ p = skipn k g').
    { unfold split_gtis_at_indices in Ep. rewrite Evs in Ep. 
      change (map f (0 + inject_Z 0 * per :: v1 :: vr)) with (f (0 + inject_Z 0 * per) :: map f (v1 :: vr)) in Ep.
      rewrite Hf0 in Ep. change (0 =? 0)%Z with true in Ep. cbv iota zeta in Ep.
      apply bind_ok in Ep. destruct Ep as (lz & El & Ep).
      assert (Elz : lz = last (map f (v1 :: vr)) 0%Z).
      { rewrite (get_last_ok (map f (v1 :: vr)) 0%Z) in El by discriminate. inversion El. reflexivity. }
      destruct (split_loop_main g' (map f (v1 :: vr)) 0%Z) as (_ & S2 & _).
      - lia.
      - apply Forall_forall. intros z Hz. apply in_map_iff in Hz. destruct Hz as (v & <- & _). unfold f. lia.
      - destruct Hidx as [_ Hi]. rewrite Evs in Hi. apply StronglySorted_inv in Hi. apply Hi.
      - rewrite Hf0. remember (split_loop g' 0 (map f (v1 :: vr))) as sl eqn:Esl. clear Esl. destruct (negb _ && _).
        + injection Ep as <-. apply in_app_iff in Hp. destruct Hp as [Hp|[<-|[]]]; [left; exact Hp|]. right.
          rewrite S2.
          assert (Hlv : exists vl, last (map f (v1 :: vr)) 0%Z = f vl /\ total <= vl).
          { exists (last (v1 :: vr) v1). split.
            - rewrite (last_default (map f (v1 :: vr)) 0%Z (f v1)) by discriminate. apply last_map.
            - assert (Hl : last (v1 :: vr) v1 = last vs v1).
              { rewrite Evs. change (last (0 + inject_Z 0 * per :: v1 :: vr) v1) with (last (v1 :: vr) v1). reflexivity. }
              rewrite Hl. assert (Hne : vs <> []) by (rewrite Evs; discriminate).
              destruct (exists_last Hne) as (l' & x & El'). rewrite El', last_last.
              assert (Hx : nth_error vs (length l') = Some x) by (rewrite El', nth_error_app2, Nat.sub_diag by lia; reflexivity).
              assert (Hlen : length vs = arange_len 0 (total + per) per) by (unfold vs, arange; rewrite map_length, seq_length; reflexivity).
              rewrite El', app_length in Hlen. simpl in Hlen.
              apply nth_arange in Hx; [|assumption]. destruct Hx as [-> _].
              assert (Hno : ~ (S (length l') < arange_len 0 (total + per) per)%nat) by lia.
              rewrite (arange_len_spec _ _ _ _ Hper) in Hno. rewrite zof_S in Hno.
              assert (Er : (inject_Z (Z.of_nat (length l')) + 1) * per == inject_Z (Z.of_nat (length l')) * per + per) by ring. lra. }
          destruct Hlv as (vl & Evl & Hvl). rewrite Evl. rewrite norm_pos by (unfold f; lia). unfold f. rewrite Nat2Z.id.
          exists (searchsorted_left (exposure_edges 0 g') vl). split; [|reflexivity].
          intros e He. apply Qle_trans with vl; [assumption|]. apply Qnot_lt_le. intros C.
          apply (proj1 (ssl_spec _ vl (exposure_edges_sorted g' Hgp 0)) _ _ He) in C. lia.
        + injection Ep as <-. left; exact Hp. }
    destruct Hparts as [Hp1|(k & Hk & ->)].
    + assert (exposure p <= per + M); [|lra].
      apply (split_loop_bound g' M per Hgp HM0 HM' (Qlt_le_weak _ _ Hper) (v1 :: vr) (0 + inject_Z 0 * per)); [|exact Hp1].
      rewrite <- Evs. exact Hcons.
    + destruct (Nat.lt_ge_cases k (length g')) as [Hlt|Hge].
      * destruct (nth_error_ex (exposure_edges 0 g') k) as [e He]; [rewrite exposure_edges_len; assumption|].
        assert (H := Hk _ He). apply exposure_edges_nth in He.
        assert (E : exposure (firstn k g') + exposure (skipn k g') == exposure g') by (rewrite <- exposure_app, firstn_skipn; reflexivity).
        assert ((3 # 2) * chunk + M >= 0) by lra. lra.
      * rewrite skipn_all2 by assumption. simpl. lra.
Qed.

(* with a separation limit *)
Lemma split_each_main chunk M : 0 < chunk -> 0 <= M -> forall base, Forall well_formed base ->
  (forall g a b, In g base -> In (a, b) g -> b - a <= M) ->
  exists parts, split_each chunk base = Ok parts /\
    exposure (concat parts) == exposure (concat base) /\
    (forall t, covered (concat parts) t <-> covered (concat base) t) /\
    (forall p, In p parts -> exposure p <= (3 # 2) * chunk + M).
Proof.
  intros Hc HM0. induction base as [|g base IH]; intros Hwf HM.
  - exists []. split; [reflexivity|]. simpl. repeat split; tauto.
  - inversion Hwf; subst. destruct (split_by_exposure_main g chunk M Hc H1) as (p1 & E1 & _ & X1 & C1 & B1); [intros a b; apply (HM g a b); left; reflexivity|assumption|].
    destruct (IH H2) as (p2 & E2 & X2 & C2 & B2); [intros g' a b Hg; apply (HM g' a b); right; assumption|].
    exists (p1 ++ p2). simpl in E1 |- *. rewrite E1, E2. simpl. split; [reflexivity|].
    rewrite !concat_app. split; [rewrite !exposure_app, X1, X2; reflexivity|]. split.
    + assert (Hca : forall g1 g2 t, covered (g1 ++ g2) t <-> covered g1 t \/ covered g2 t).
      { intros g1 g2 t. unfold covered. split.
        - intros (a & b & Hin & H). apply in_app_iff in Hin. destruct Hin; [left|right]; exists a, b; auto.
        - intros [(a & b & Hin & H)|(a & b & Hin & H)]; exists a, b; split; auto; apply in_app_iff; auto. }
      intros t. rewrite !Hca, C1, C2. reflexivity.
    + intros p Hp. apply in_app_iff in Hp. destruct Hp; auto.
Qed.

Lemma split_by_exposure_nogap_crash : exists g chunk limit,
  good g /\ split_gtis_by_exposure g chunk (Some limit) = Err IndexError.
Proof.
  exists [(0, 30); (40, 50)], 400, 86400. split.
  - split; [discriminate|]. split; [split|].
    + intros a b [E|[E|[]]]; inversion E; discriminate.
    + intros [|[|i]] [|[|j]]; simpl; intros a b c d H E1 E2; try lia; try (destruct j; discriminate); try (destruct i; discriminate).
      inversion E1; inversion E2; subst. lra.
    + intros a b [E|[E|[]]]; inversion E; reflexivity.
  - vm_compute. reflexivity.
Qed.
Lemma split_by_exposure_empty_part : exists g chunk parts,
  good g /\ split_gtis_by_exposure g chunk None = Ok parts /\ In [] parts.
Proof.
  exists [(0, 1); (2, 3); (4, 104)], 51. eexists. split; [|split].
  - split; [discriminate|]. split.
    + apply wf2_iff. split; repeat constructor; simpl; try lra.
    + intros a b [E|[E|[E|[]]]]; inversion E; reflexivity.
  - vm_compute. reflexivity.
  - right. left. reflexivity.
Qed.
Lemma split_at_zero_crash : forall g, split_gtis_at_indices g [0%Z] = Err IndexError.
Proof. reflexivity. Qed.
Lemma split_at_neg : exists g parts, split_gtis_at_indices g [(-1)%Z] = Ok parts /\ concat parts <> g.
Proof. exists [(0, 1); (2, 3)]. eexists. split; [vm_compute; reflexivity|]. vm_compute. discriminate. Qed.

(* Large gaps: exactly the gaps longer than the limit, each reported at its middle. *)
Lemma large_btis_main limit g : 0 <= limit -> forall e, wf2 g -> (forall a b, In (a, b) g -> e <= a) ->
  StronglySorted Qle (large_btis limit e g) /\ (forall m, In m (large_btis limit e g) -> e < m).
Proof.
  intros Hl. induction g as [|[a b] g IH]; intros e [Hp Hs] He; simpl.
  - split; [constructor|intros m []].
  - inversion Hp; subst. apply StronglySorted_inv in Hs. destruct Hs as [Hs Hf]. rewrite Forall_forall in Hf.
    simpl in H1. assert (e <= a) by (apply (He a b); left; reflexivity).
    destruct (IH b) as [I1 I2]; [split; assumption|intros x y Hx; apply (Hf _ Hx)|].
    destruct (qlt limit (a - e)) eqn:E; qb; simpl.
    + assert (Hm : e < (a + e) / 2 /\ (a + e) / 2 <= b). { unfold Qdiv. change (/ 2) with (1 # 2). lra. }
      split.
      * constructor; [assumption|]. apply Forall_forall. intros m Hm'. apply I2 in Hm'. lra.
      * intros m [<-|Hm']; [tauto|]. apply I2 in Hm'. lra.
    + split; [assumption|]. intros m Hm'. apply I2 in Hm'. lra.
Qed.
Lemma large_btis_iff limit g : forall e m, In m (large_btis limit e g) <->
  exists pre a b post, g = pre ++ (a, b) :: post /\
    limit < a - last (map snd pre) e /\ m = (a + last (map snd pre) e) / 2.
Proof.
  induction g as [|[a b] g IH]; intros e m; simpl.
  - split; [intros []|]. intros (pre & a & b & post & E & _). destruct pre; discriminate.
  - rewrite in_app_iff, IH. split.
    + intros [H|(pre & x & y & post & -> & H1 & H2)].
      * exists [], a, b, g. split; [reflexivity|]. simpl. destruct (qlt limit (a - e)) eqn:E; [|destruct H].
        qb. destruct H as [<-|[]]. auto.
      * exists ((a, b) :: pre), x, y, post. split; [reflexivity|]. simpl map.
        replace (last (b :: map snd pre) e) with (last (map snd pre) b); [auto|].
        destruct (map snd pre); [reflexivity|]. change (last (b :: q :: l) e) with (last (q :: l) e). apply last_default. discriminate.
    + intros (pre & x & y & post & E & H1 & H2). destruct pre as [|[p q] pre]; simpl in E; inversion E; subst; simpl in *.
      * left. replace (qlt limit (x - e)) with true by (symmetry; qb; assumption). left; reflexivity.
      * right. exists pre, x, y, post. split; [reflexivity|].
        replace (last (map snd pre) q) with (match map snd pre with [] => q | _ :: _ => last (map snd pre) e end); [auto|].
        destruct (map snd pre); [reflexivity|]. apply last_default. discriminate.
Qed.

Lemma wf2_part g g1 g2 g3 : wf2 g -> g = g1 ++ g2 ++ g3 -> wf2 g2.
Proof.
  intros [H1 H2] ->. rewrite !Forall_app in H1. apply ss_app in H2. destruct H2 as (_ & H2 & _). apply ss_app in H2.
  split; tauto.
Qed.
Lemma concat_part {A} (l : list (list A)) x : In x l -> exists a b, concat l = a ++ x ++ b.
Proof.
  induction l as [|y l IH]; [intros []|]. intros [-> |H].
  - exists [], (concat l). reflexivity.
  - destruct (IH H) as (a & b & E). exists (y ++ a), b. simpl. rewrite E, <- app_assoc. reflexivity.
Qed.

Lemma split_by_exposure_sep g chunk limit M : 0 < chunk -> 0 <= limit -> well_formed g ->
  (forall a b, In (a, b) g -> b - a <= M) -> 0 <= M ->
  (exists i a b c d, nth_error g i = Some (a, b) /\ nth_error g (S i) = Some (c, d) /\ limit < c - b) ->
  exists parts, split_gtis_by_exposure g chunk (Some limit) = Ok parts /\
    exposure (concat parts) == exposure g /\
    (forall t, covered (concat parts) t <-> covered g t) /\
    (forall p, In p parts -> exposure p <= (3 # 2) * chunk + M).
Proof.
  intros Hc Hl Hwf HM HM0 (i & a & b & c & d & Hi & Hj & Hgap).
  assert (Hw2 := proj1 (wf2_iff g) Hwf). destruct g as [|[x y] g]; [destruct i; discriminate|].
  unfold split_gtis_by_exposure, find_large_bad_time_intervals. cbn [bind fst].
  set (ed := large_btis limit x ((x, y) :: g)).
  assert (Hed : ed = large_btis limit y g).
  { unfold ed. simpl. replace (qlt limit (x - x)) with false by (symmetry; qb; lra). reflexivity. }
  destruct (large_btis_main limit g Hl y) as [S1 S2].
  { destruct Hw2 as [Hp Hs]. inversion Hp; subst. apply StronglySorted_inv in Hs. split; tauto. }
  { intros u v Huv. destruct Hw2 as [_ Hs]. apply StronglySorted_inv in Hs. destruct Hs as [_ Hf]. rewrite Forall_forall in Hf.
    apply (Hf _ Huv). }
  rewrite <- Hed in S1, S2.
  assert (Hne : exists m, In m ed).
  { exists ((c + b) / 2). unfold ed. apply large_btis_iff.
    assert (Hsp : exists pre post, (x, y) :: g = (pre ++ [(a, b)]) ++ (c, d) :: post).
    { clear - Hi Hj. revert i Hi Hj. generalize ((x, y) :: g). clear. intros l. induction l as [|z l IH]; intros i Hi Hj; [destruct i; discriminate|].
      destruct i as [|i]; simpl in Hi, Hj.
      - inversion Hi; subst. destruct l; [discriminate|]. inversion Hj; subst. exists [], l. reflexivity.
      - destruct (IH _ Hi Hj) as (pre & post & ->). exists (z :: pre), post. reflexivity. }
    destruct Hsp as (pre & post & Esp). exists (pre ++ [(a, b)]), c, d, post. split; [assumption|].
    rewrite map_app. simpl. rewrite last_last. auto. }
  clearbody ed. clear Hed.
  assert (Hends : nondecreasing (map snd ((x, y) :: g))).
  { destruct Hwf as [W1 W2]. intros p q u v Hpq Hu Hv. rewrite nth_error_map in Hu, Hv.
    destruct (nth_error ((x, y) :: g) p) as [[a1 b1]|] eqn:E1; [|discriminate]. destruct (nth_error ((x, y) :: g) q) as [[a2 b2]|] eqn:E2; [|discriminate].
    simpl in Hu, Hv. inversion Hu; inversion Hv; subst. assert (u <= a2) by (eapply W2; eassumption).
    assert (a2 <= v) by (apply W1; eapply nth_error_In; eassumption). lra. }
  set (f := fun e => Z.of_nat (searchsorted_left (map snd ((x, y) :: g)) e)).
  destruct (split_at_main ((x, y) :: g) (map f ed)) as (base & Eb & Ec).
  { split.
    - apply Forall_forall. intros z Hz. apply in_map_iff in Hz. destruct Hz as (v & <- & _). unfold f. lia.
    - apply ss_nth. intros p q u v Hpq Hu Hv. rewrite nth_error_map in Hu, Hv.
      destruct (nth_error ed p) eqn:E1; [|discriminate]. destruct (nth_error ed q) eqn:E2; [|discriminate].
      simpl in Hu, Hv. inversion Hu; inversion Hv; subst. unfold f. apply inj_le. apply ssl_mono; [assumption|].
      apply (proj1 (ss_nth Qle ed)) with (i := p) (j := q); assumption. }
  { destruct Hne as [m Hm]. exists (f m). split; [apply in_map; assumption|]. apply S2 in Hm.
    unfold f. simpl. replace (qlt y m) with true by (symmetry; qb; assumption). lia. }
  rewrite Eb. cbn [bind].
  destruct (split_each_main chunk M Hc HM0 base) as (parts & Ep & X & C & B).
  { apply Forall_forall. intros p Hp. apply wf2_iff. destruct (concat_part base p Hp) as (u & v & E).
    eapply wf2_part; [exact Hw2|]. rewrite <- Ec. exact E. }
  { intros p u v Hp Huv. apply HM. rewrite <- Ec. apply in_concat. eauto. }
  exists parts. split; [assumption|]. rewrite Ec in X, C. auto.
Qed.
