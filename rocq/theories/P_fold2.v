(* P_fold2.v: fast profiles, phase dispersion, search segments, normalized exposure *)
From Verif Require Import Np Lib S_gti M_gti S_utils M_utils S_lc M_lc P_hist P_helpers P_lc_make P_seg_cut M_fold S_fold P_fold P_expo.
From Coq Require Import Lqa Qpower.
Open Scope Q_scope.

(* ---- _profile_fast ---- *)
Definition dec_first (l : list Z) : list Z := match l with [] => [] | a :: r => (a - 1)%Z :: r end.
Definition dec_last (l : list Z) : list Z := match rev l with [] => [] | a :: r => rev ((a - 1)%Z :: r) end.

Lemma nth_dec_first l j : (j < length l)%nat -> nth j (dec_first l) 0%Z = (nth j l 0 - if Nat.eqb j 0 then 1 else 0)%Z.
Proof. destruct l as [|a r]; cbn [length]; [lia|]. destruct j; cbn; lia. Qed.
Lemma dec_first_len l : length (dec_first l) = length l.
Proof. destruct l; reflexivity. Qed.
Lemma dec_last_snoc l a : dec_last (l ++ [a]) = l ++ [(a - 1)%Z].
Proof. unfold dec_last. rewrite rev_app_distr. cbn. now rewrite rev_involutive. Qed.
Lemma nth_dec_last l j : (j < length l)%nat -> nth j (dec_last l) 0%Z = (nth j l 0 - if Nat.eqb j (length l - 1) then 1 else 0)%Z.
Proof.
  destruct l as [|x l'] using rev_ind; [cbn; lia|]. clear IHl'. intros H. rewrite dec_last_snoc. rewrite app_length in *. cbn [length] in *.
  destruct (Nat.eqb_spec j (length l' + 1 - 1)) as [E|E].
  - rewrite !app_nth2 by lia. replace (j - length l')%nat with 0%nat by lia. reflexivity.
  - rewrite !app_nth1 by lia. lia.
Qed.
Lemma dec_last_len l : length (dec_last l) = length l.
Proof. destruct l as [|x l'] using rev_ind; [reflexivity|]. rewrite dec_last_snoc, !app_length. reflexivity. Qed.

Lemma fold_max_top l n : (forall z, In z l -> (z <= n)%Z) -> In n l -> forall m, (m <= n)%Z -> fold_left Z.max l m = n.
Proof.
  induction l as [|a l IH]; intros H I m Hm; [destruct I|]. cbn.
  destruct I as [->|I].
  - rewrite Z.max_r by exact Hm. apply fold_max_bound. intros; apply H; now right.
  - apply IH; [intros; apply H; now right|exact I|]. specialize (H a (or_introl eq_refl)). lia.
Qed.


Lemma bin_range nbin x : (0 < nbin)%nat -> 0 <= x < 1 -> (0 <= bin_of nbin x < Z.of_nat nbin)%Z.
Proof.
  intros Hn [A B]. unfold bin_of. set (n := inject_Z (Z.of_nat nbin)). assert (Pn : 0 < n) by (unfold n, Qlt, inject_Z; cbn; lia).
  assert (P := floor_parts (x * n)). split.
  - assert ((0 < Qfloor (x * n) + 1)%Z); [|lia]. rewrite Zlt_Qlt, inject_Z_plus. change (inject_Z 1) with 1. change (inject_Z 0) with 0. nra.
  - rewrite Zlt_Qlt. fold n. nra.
Qed.

Lemma fast_main phases nbin : (0 < nbin)%nat -> (forall x, In x phases -> 0 <= x < 1) ->
  profile_fast phases nbin = Ok (map (fun j => Z.of_nat (number_in nbin j phases)) (seq 0 nbin)).
Proof.
  intros Hn H. unfold profile_fast.
  change (fun p => Qfloor (p * inject_Z (Z.of_nat nbin))) with (bin_of nbin).
  set (l := map (bin_of nbin) phases ++ [0; Z.of_nat nbin - 1]%Z).
  assert (R : forall z, In z l -> (0 <= z < Z.of_nat nbin)%Z).
  { intros z Hz. apply in_app_or in Hz. destruct Hz as [Hz|[<-|[<-|[]]]]; [|lia|lia].
    apply in_map_iff in Hz. destruct Hz as (x & <- & Hx). apply bin_range; [exact Hn|now apply H]. }
  assert (B : bincount l 0 = Ok (map (fun i => length (filter (fun z => z =? Z.of_nat i)%Z l)) (seq 0 nbin))).
  { unfold bincount. replace (0 <? 0)%Z with false by reflexivity.
    replace (existsb (fun z => z <? 0)%Z l) with false.
    2:{ symmetry. apply not_true_is_false. intros C. apply existsb_exists in C. destruct C as (z & Hz & C). apply Z.ltb_lt in C. specialize (R z Hz). lia. }
    cbn [orb]. f_equal. rewrite (fold_max_top _ (Z.of_nat nbin)); [rewrite Nat2Z.id; reflexivity| | |lia].
    - intros z Hz. apply in_map_iff in Hz. destruct Hz as (y & <- & Hy). specialize (R y Hy). lia.
    - apply in_map_iff. exists (Z.of_nat nbin - 1)%Z. split; [lia|]. apply in_or_app. right. cbn. tauto. }
  rewrite B. cbn [bind]. f_equal. rewrite map_map.
  set (bc := map (fun i => Z.of_nat (length (filter (fun z => z =? Z.of_nat i)%Z l))) (seq 0 nbin)).
  change (dec_last (dec_first bc) = map (fun j => Z.of_nat (number_in nbin j phases)) (seq 0 nbin)).
  assert (Lb : length bc = nbin) by (unfold bc; now rewrite map_length, seq_length).
  apply nth_ext with (d := 0%Z) (d' := 0%Z).
  - rewrite dec_last_len, dec_first_len, Lb, map_length, seq_length. reflexivity.
  - intros j Hj. rewrite dec_last_len, dec_first_len, Lb in Hj.
    rewrite nth_dec_last by (rewrite dec_first_len, Lb; exact Hj). rewrite nth_dec_first by (rewrite Lb; exact Hj).
    rewrite dec_first_len, Lb.
    set (f := fun i => Z.of_nat (length (filter (fun z => z =? Z.of_nat i)%Z l))) in *.
    set (g := fun j => Z.of_nat (number_in nbin j phases)).
    rewrite (nth_indep _ 0%Z (f 0%nat)) by (rewrite Lb; exact Hj). unfold bc. rewrite map_nth, seq_nth by exact Hj.
    rewrite (nth_indep (map g _) 0%Z (g 0%nat)) by (rewrite map_length, seq_length; exact Hj). rewrite map_nth, seq_nth by exact Hj.
    cbn [plus]. unfold f, g, l, number_in. rewrite filter_app, app_length.
    assert (E : length (filter (fun z => z =? Z.of_nat j)%Z (map (bin_of nbin) phases)) = length (filter (fun x => bin_of nbin x =? Z.of_nat j)%Z phases)).
    { clear. induction phases as [|x ph IH]; [reflexivity|]. cbn [map filter]. destruct (bin_of nbin x =? Z.of_nat j)%Z; cbn [length]; rewrite IH; reflexivity. }
    rewrite E. cbn [filter]. destruct (Z.eqb_spec 0 (Z.of_nat j)), (Z.eqb_spec (Z.of_nat nbin - 1) (Z.of_nat j)), (Nat.eqb_spec j 0), (Nat.eqb_spec j (nbin - 1)); cbn [length]; lia.
Qed.

(* ---- phase dispersion ---- *)
Lemma np_var_scatter l v : np_var l = Some v -> scatter l (v * inject_Z (Z.of_nat (length l))).
Proof.
  intros E. unfold np_var in E. destruct l as [|a r]; [discriminate|]. set (l := a :: r) in *.
  assert (Pn : 0 < inject_Z (Z.of_nat (length l))) by (unfold Qlt, inject_Z; cbn; lia).
  set (n := inject_Z (Z.of_nat (length l))) in *. apply (f_equal (fun o => match o with Some x => x | None => 0 end)) in E. subst v.
  exists (qsum l / n). split; [unfold average_is; fold n; rewrite (sum_of_qsum l); field; lra|].
  set (f := fun x => (x - qsum l / n) * (x - qsum l / n)). transitivity (qsum (map f l)); [field; lra|].
  assert (G := sum_of_qsum (map f l)). rewrite <- G. reflexivity.
Qed.

Lemma allclose_iff w : allclose1 w = true <-> forall v, In v w -> Qabs (v - 1) <= 1001 # 100000000.
Proof.
  unfold allclose1. rewrite forallb_forall. split; intros H v Hv; specialize (H v Hv).
  - apply qle_t in H. eapply Qle_trans; [exact H|]. vm_compute. discriminate.
  - apply qle_t. eapply Qle_trans; [exact H|]. vm_compute. discriminate.
Qed.
Lemma pdm_weights phases w nbin : (forall v, In v w -> Qabs (v - 1) <= 1001 # 100000000) -> fold_pdm phases w nbin = Err ValueError.
Proof. intros H. unfold fold_pdm. apply allclose_iff in H. now rewrite H. Qed.
Lemma pdm_weights_ok phases w nbin : length w = length phases -> (exists v, In v w /\ (1001 # 100000000) < Qabs (v - 1)) ->
  exists prof, fold_pdm phases w nbin = Ok prof.
Proof.
  intros L (v & Hv & C). unfold fold_pdm. destruct (allclose1 w) eqn:A.
  - exfalso. assert (B := proj1 (allclose_iff w) A v Hv). lra.
  - rewrite L, Nat.eqb_refl. cbn [negb]. eauto.
Qed.
Lemma sum_opt_some l : exists s, sum_opt (map Some l) = Some s /\ s == sum_of l.
Proof.
  induction l as [|a l (s & E & Q)]; [now exists 0|]. cbn [map sum_opt]. rewrite E. eexists. split; [reflexivity|]. cbn. rewrite Q. reflexivity.
Qed.
Lemma pdm_stat l var n : (length l < n)%nat -> ~ var == 0 ->
  exists v, pdm_profile_stat (map Some l) var n = Some v /\ v * (inject_Z (Z.of_nat (n - length l)) * var) == sum_of l.
Proof.
  intros Hn Hv. destruct (sum_opt_some l) as (s & E & Q). unfold pdm_profile_stat. rewrite E, map_length. cbn [option_map].
  eexists. split; [reflexivity|]. rewrite Nat2Z.inj_sub by lia. rewrite <- Q.
  assert (D : 0 < inject_Z (Z.of_nat n - Z.of_nat (length l))) by (change 0 with (inject_Z 0); rewrite <- Zlt_Qlt; lia).
  replace (inject_Z (Z.of_nat n - Z.of_nat (length l))) with (inject_Z (Z.of_nat n + - Z.of_nat (length l))) in * by (f_equal; lia).
  rewrite inject_Z_plus, inject_Z_opp in *. field. split; [lra|exact Hv].
Qed.

Lemma pdm_main phases w nbin : (0 < nbin)%nat -> length w = length phases -> (forall x, In x phases -> 0 <= x < 1) ->
  (exists v, In v w /\ (1001 # 100000000) < Qabs (v - 1)) ->
  exists prof, fold_pdm phases w nbin = Ok prof /\
    Forall2 (fun j p => match p with
                        | Some s => weights_in nbin j (combine phases w) <> [] /\ scatter (weights_in nbin j (combine phases w)) s
                        | None => weights_in nbin j (combine phases w) = []
                        end) (seq 0 nbin) prof.
Proof.
  intros Hn L H (v0 & Hv & Cv).
  assert (A : allclose1 w = false).
  { destruct (allclose1 w) eqn:A; [|reflexivity]. assert (B := proj1 (allclose_iff w) A v0 Hv). lra. }
  unfold fold_pdm. rewrite A, L, Nat.eqb_refl. cbn [negb].
  rewrite (values_main nbin _ Hn).
  2:{ intros [a b] Hp. apply in_combine_l in Hp. now apply H. }
  eexists. split; [reflexivity|]. rewrite map_map. induction (seq 0 nbin) as [|j l IH]; cbn [map]; constructor; [|exact IH].
  set (x := weights_in nbin j (combine phases w)). destruct (np_var x) as [v|] eqn:E; cbn [option_map].
  - split; [intros C; rewrite C in E; discriminate|]. now apply np_var_scatter.
  - unfold np_var in E. destruct x; [reflexivity|discriminate].
Qed.

Lemma sum_opt_none l : In None l -> sum_opt l = None.
Proof.
  induction l as [|[a|] l IH]; intros H; [destruct H| |reflexivity]. destruct H as [H|H]; [discriminate|].
  cbn. now rewrite IH.
Qed.

(* one empty bin makes the statistic nan *)
Lemma pdm_refuted : exists phases w nbin prof, (0 < nbin)%nat /\ length w = length phases /\ (forall x, In x phases -> 0 <= x < 1) /\
  (nbin < length phases)%nat /\ fold_pdm phases w nbin = Ok prof /\ forall var n, pdm_profile_stat prof var n = None.
Proof.
  exists [0; 1 # 8; 1 # 4; 3 # 4; 7 # 8], [1; 2; 3; 4; 5], 3%nat. eexists. split; [lia|]. split; [reflexivity|].
  split; [cbn; intros x [<-|[<-|[<-|[<-|[<-|[]]]]]]; split; try lra; discriminate|]. split; [cbn; lia|]. split; [vm_compute; reflexivity|].
  intros var n. reflexivity.
Qed.

(* ---- segments of the search ---- *)
Lemma segments_main times size segs t0 tl : folding_segments times (Some size) = Ok segs ->
  get times 0 = Ok t0 -> get_last times = Ok tl -> 0 < size <= tl - t0 ->
  (* every segment used holds events of one window [k size, (k+1) size) after the first event, in order, spanning at least 20% *)
  (forall s, In s segs -> exists k : nat, s = filter (fun t => (qle (inject_Z (Z.of_nat k) * size) t && qlt t ((inject_Z (Z.of_nat k) + 1) * size))%bool) (map (fun t => t - t0) times) /\
     s <> [] /\ (2 # 10) * size <= last s 0 - hd 0 s).
Proof.
  intros E G0 Gl Hs. unfold folding_segments in E. rewrite G0 in E. cbn [bind] in E.
  assert (Gl' : get_last (map (fun t => t - t0) times) = Ok (tl - t0)).
  { unfold get_last in *. rewrite <- map_rev. destruct (rev times); [discriminate|]. injection Gl as ->. reflexivity. }
  rewrite Gl' in E. cbn [bind] in E.
  assert (G0' : get (map (fun t => t - t0) times) 0 = Ok (t0 - t0)).
  { unfold get in *. destruct times; [discriminate|]. cbn in *. injection G0 as ->. reflexivity. }
  rewrite G0' in E. cbn [bind] in E. replace (qlt (tl - t0) size) with false in E by (symmetry; apply qlt_f; lra).
  destruct (qeq size 0) eqn:Z0; [qb; lra|]. injection E as <-. intros s Hi. apply filter_In in Hi. destruct Hi as [Hi T].
  apply in_map_iff in Hi. destruct Hi as (a & <- & Ha). apply in_arange in Ha; [|lra]. destruct Ha as (k & -> & Hk). exists k.
  assert (F : filter (fun t => (qle (t0 - t0 + inject_Z (Z.of_nat k) * size) t && qlt t (t0 - t0 + inject_Z (Z.of_nat k) * size + size))%bool) (map (fun t => t - t0) times) =
    filter (fun t => (qle (inject_Z (Z.of_nat k) * size) t && qlt t ((inject_Z (Z.of_nat k) + 1) * size))%bool) (map (fun t => t - t0) times)).
  { apply filter_ext. intros t. f_equal; apply eq_true_iff_eq.
    - rewrite !qle_t. split; intros; lra.
    - rewrite !qlt_t. split; intros; lra. }
  rewrite F in T |- *. split; [reflexivity|].
  destruct (filter _ (map (fun t => t - t0) times)) as [|x r]; [discriminate|]. split; [discriminate|].
  cbn [hd]. apply negb_true_iff in T. qb. exact T.
Qed.

Lemma segments_exact times size t0 tl : get times 0 = Ok t0 -> get_last times = Ok tl -> t0 < tl ->
  (match size with Some s => 0 < s | None => True end) ->
  let len := match size with Some s => qmin s (tl - t0) | None => tl - t0 end in
  exists n, (forall k, (k < n)%nat <-> inject_Z (Z.of_nat k) * len < tl - t0) /\
    folding_segments times size = Ok (filter (spans_fifth len) (map (fun k => window_events len k (map (fun t => t - t0) times)) (seq 0 n))).
Proof.
  intros G0 Gl H0 Hs len. unfold folding_segments. rewrite G0. cbn [bind].
  assert (Gl' : get_last (map (fun t => t - t0) times) = Ok (tl - t0)).
  { unfold get_last in *. rewrite <- map_rev. destruct (rev times); [discriminate|]. injection Gl as ->. reflexivity. }
  rewrite Gl'. cbn [bind].
  assert (G0' : get (map (fun t => t - t0) times) 0 = Ok (t0 - t0)).
  { unfold get in *. destruct times; [discriminate|]. cbn in *. injection G0 as ->. reflexivity. }
  rewrite G0'. cbn [bind].
  replace (match size with Some s => if qlt (tl - t0) s then tl - t0 else s | None => tl - t0 end) with len.
  2:{ unfold len. destruct size as [s|]; [|reflexivity]. unfold qmin.
      destruct (qle s (tl - t0)) eqn:A; destruct (qlt (tl - t0) s) eqn:B; try reflexivity; qb; lra. }
  assert (P : 0 < len) by (unfold len; destruct size as [s|]; [unfold qmin; destruct (qle s (tl - t0)); lra|lra]).
  destruct (qeq len 0) eqn:Z0; [qb; lra|].
  exists (arange_len (t0 - t0) (tl - t0) len). split.
  - intros k. rewrite arange_len_spec by exact P. split; intros; lra.
  - f_equal. unfold arange. rewrite map_map.
    assert (M : forall k, filter (fun t => (qle (t0 - t0 + inject_Z (Z.of_nat k) * len) t && qlt t (t0 - t0 + inject_Z (Z.of_nat k) * len + len))%bool) (map (fun t => t - t0) times)
      = window_events len k (map (fun t => t - t0) times)).
    { intros k. unfold window_events. apply filter_ext. intros t. f_equal; apply eq_true_iff_eq.
      - rewrite !qle_t. split; intros; lra.
      - rewrite !qlt_t. split; intros; lra. }
    rewrite (map_ext _ _ M). apply filter_ext. intros [|a r]; [reflexivity|]. unfold spans_fifth.
    apply eq_true_iff_eq. rewrite negb_true_iff, qlt_f, qle_t. unfold Qdiv. change (/ 5) with (1 # 5). split; intros; lra.
Qed.

Lemma last_dropped times segs t0 tl : folding_segments times None = Ok segs ->
  get times 0 = Ok t0 -> get_last times = Ok tl ->
  forall s t, t0 <= tl -> In s segs -> In t s -> t < tl - t0.
Proof.
  intros E G0 Gl s t Hle Hs Ht. unfold folding_segments in E. rewrite G0 in E. cbn [bind] in E.
  assert (Gl' : get_last (map (fun t => t - t0) times) = Ok (tl - t0)).
  { unfold get_last in *. rewrite <- map_rev. destruct (rev times); [discriminate|]. injection Gl as ->. reflexivity. }
  rewrite Gl' in E. cbn [bind] in E.
  assert (G0' : get (map (fun t => t - t0) times) 0 = Ok (t0 - t0)).
  { unfold get in *. destruct times; [discriminate|]. cbn in *. injection G0 as ->. reflexivity. }
  rewrite G0' in E. cbn [bind] in E. destruct (qeq (tl - t0) 0) eqn:Z0; [discriminate|]. qb. injection E as <-.
  assert (P : 0 < tl - t0) by (destruct (Qlt_le_dec 0 (tl - t0)); [assumption|]; exfalso; apply Z0; lra).
  apply filter_In in Hs. destruct Hs as [Hs _]. apply in_map_iff in Hs. destruct Hs as (a & <- & Ha). apply in_arange in Ha; [|exact P].
  destruct Ha as (k & -> & Hk). apply filter_In in Ht. destruct Ht as [_ Ht]. apply andb_true_iff in Ht. destruct Ht as [_ Ht]. qb.
  assert (K : k = 0%nat).
  { destruct k as [|k]; [reflexivity|]. exfalso. assert (1 <= inject_Z (Z.of_nat (S k))) by (change 1 with (inject_Z 1); rewrite <- Zle_Qle; lia). nra. }
  subst k. change (inject_Z (Z.of_nat 0)) with 0 in Ht. lra.
Qed.

Lemma search_refuted : exists times segs, StronglySorted Qle times /\ (3 <= length times)%nat /\
  folding_segments times None = Ok segs /\ (length (concat segs) < length times)%nat.
Proof.
  exists [0; 1; 2]. eexists. split; [repeat constructor; lra|]. split; [cbn; lia|]. split; [vm_compute; reflexivity|]. cbn. lia.
Qed.
Lemma search_empty_refuted : exists times, StronglySorted Qle times /\ (3 <= length times)%nat /\ folding_segments times None = Ok [].
Proof.
  exists [0; 1; 2; 3; 100]. split; [repeat constructor; lra|]. split; [cbn; lia|]. vm_compute. reflexivity.
Qed.

(* ---- normalized exposure ---- *)
Lemma clamp_mono w x y : 0 <= w -> x <= y -> clamp 0 w x <= clamp 0 w y /\ 0 <= clamp 0 w x <= w.
Proof. intros W E. unfold clamp, qmin, qmax. dq; lra. Qed.

Lemma upto_mono nbin j x y : (0 < nbin)%nat -> x <= y -> exposure_upto nbin j x <= exposure_upto nbin j y.
Proof.
  intros Hn L. unfold exposure_upto. set (n := inject_Z (Z.of_nat nbin)).
  assert (Pn : 0 < n) by (unfold n, Qlt, inject_Z; cbn; lia). assert (Wp : 0 < 1 / n) by (apply Qlt_shift_div_l; lra).
  assert (F := Qfloor_resp_le x y L). set (u := inject_Z (Z.of_nat j) / n).
  destruct (Z.eq_dec (Qfloor x) (Qfloor y)) as [E|E].
  - rewrite E. apply Qplus_le_compat; [apply Qle_refl|]. apply clamp_mono; lra.
  - assert (G : (Qfloor x + 1 <= Qfloor y)%Z) by lia. rewrite Zle_Qle, inject_Z_plus in G. change (inject_Z 1) with 1 in G.
    destruct (clamp_mono (1 / n) (x - inject_Z (Qfloor x) - u) (x - inject_Z (Qfloor x) - u) ltac:(lra) (Qle_refl _)) as [_ A].
    destruct (clamp_mono (1 / n) (y - inject_Z (Qfloor y) - u) (y - inject_Z (Qfloor y) - u) ltac:(lra) (Qle_refl _)) as [_ B].
    assert (D : inject_Z (Qfloor x) / n + 1 / n <= inject_Z (Qfloor y) / n).
    { assert (E1 : inject_Z (Qfloor x) / n + 1 / n == (inject_Z (Qfloor x) + 1) / n) by (field; lra). rewrite E1.
      unfold Qdiv. apply Qmult_le_compat_r; [exact G|]. apply Qlt_le_weak, Qinv_lt_0_compat. exact Pn. }
    lra.
Qed.

Lemma expo_norm s e p nbin gti l : (0 < nbin)%nat -> 0 < p -> 0 <= s -> s < e ->
  (forall g, In g (match gti with None => [(s, e)] | Some g => g end) -> fst g <= snd g) ->
  phase_exposure s e p nbin gti = Ok (Some l) ->
  length l = nbin /\ (forall x, In x l -> 0 <= x <= 1) /\ exists x, In x l /\ x == 1.
Proof.
  intros Hn Hp Hs He H E. assert (M := expo_main s e p nbin gti Hn Hp Hs He H). cbv zeta in M. unfold phase_exposure in E.
  set (ex := phase_exposure_raw s e p nbin gti) in *.
  assert (L : length ex = nbin).
  { assert (G := P_filters.forall2_len _ _ _ M). rewrite seq_length in G. now symmetry. }
  destruct (qmax_list_ok ex) as (m & Em & Im & Bm); [intros C; rewrite C in L; cbn in L; lia|].
  rewrite Em in E. cbn [bind] in E. destruct (qeq m 0) eqn:Z0; [discriminate|]. injection E as <-. qb.
  assert (N : forall x, In x ex -> 0 <= x).
  { intros x Hx. clear - M Hx Hn Hp H Hs He. set (gs := match gti with None => [(s, e)] | Some g => g end) in *.
    induction M as [|j y js ys Hy M IH]; [destruct Hx|]. destruct Hx as [->|Hx]; [|now apply IH]. rewrite Hy.
    assert (G : forall l, (forall g, In g l -> fst g <= snd g) -> (forall g, In g l -> touches s e g = true) -> 0 <= sum_of (map (fun g => exposure_in nbin j p (clip s e g)) l)).
    { induction l as [|g l IHl]; intros A B; [cbn; lra|]. cbn [map sum_of].
      specialize (IHl (fun g Hg => A g (or_intror Hg)) (fun g Hg => B g (or_intror Hg))).
      assert (0 <= exposure_in nbin j p (clip s e g)); [|lra].
      unfold exposure_in, clip. cbn [fst snd]. assert (qmax s (fst g) <= qmin e (snd g)).
      { specialize (A g (or_introl eq_refl)). specialize (B g (or_introl eq_refl)). unfold touches in B. apply andb_true_iff in B. destruct B. qb.
        unfold qmax, qmin. dq; lra. }
      assert (X := upto_mono nbin j (qmax s (fst g) / p) (qmin e (snd g) / p) Hn).
      assert (qmax s (fst g) / p <= qmin e (snd g) / p) by (unfold Qdiv; apply Qmult_le_compat_r; [assumption|apply Qlt_le_weak, Qinv_lt_0_compat; exact Hp]).
      specialize (X ltac:(assumption)). lra. }
    apply G; intros g Hg; apply filter_In in Hg; destruct Hg as [Hg T]; [now apply H|exact T]. }
  assert (Pm : 0 < m) by (assert (X := N m Im); destruct (Qlt_le_dec 0 m); [assumption|]; exfalso; apply Z0; lra).
  split; [now rewrite map_length|]. split.
  - intros x Hx. apply in_map_iff in Hx. destruct Hx as (y & <- & Hy). specialize (N y Hy). specialize (Bm y Hy).
    split; [apply Qle_shift_div_l; lra|apply Qle_shift_div_r; lra].
  - exists (m / m). split; [apply in_map_iff; now exists m|]. field. lra.
Qed.

(* folding before the reference time *)
Lemma expo_refuted : exists s e p nbin, (0 < nbin)%nat /\ 0 < p /\ s < e /\
  0 < exposure_in nbin 1 p (s, e) /\ phase_exposure s e p nbin None = Ok None.
Proof. exists (-(1 # 2)), 0, 1, 2%nat. split; [lia|]. split; [lra|]. split; [lra|]. split; [vm_compute; reflexivity|]. vm_compute. reflexivity. Qed.

Lemma fold_expo_refuted : exists times fs nbin ref c prof err, (2 <= length times)%nat /\ StronglySorted Qlt times /\
  fold_events times fs nbin (WScalar 1) None ref true = Ok (c, prof, err) /\
  (exists j, 0 < sum_of (weights_in nbin j (folded times fs (map (fun _ => 1) times) ref)) /\ nth_error prof j = Some None).
Proof.
  exists [1 # 2; 3 # 4], [1], 2%nat, 1. eexists. eexists. eexists. split; [cbn; lia|]. split; [repeat constructor; lra|].
  split; [vm_compute; reflexivity|]. exists 1%nat. split; [vm_compute; reflexivity|]. reflexivity.
Qed.

(* exposure-corrected folding *)
Lemma get_last_map {A B} (f : A -> B) l x : get_last l = Ok x -> get_last (map f l) = Ok (f x).
Proof. unfold get_last. rewrite <- map_rev. destruct (rev l); [discriminate|]. injection 1 as <-. reflexivity. Qed.


(* x == y for pairs *)
Definition pqe (a b : Q * Q) : Prop := fst a == fst b /\ snd a == snd b.
Lemma exposure_in_proper nbin j a b a' b' g h : a == a' -> b == b' -> pqe g h -> exposure_in nbin j 1 (clip a b g) == exposure_in nbin j 1 (clip a' b' h).
Proof.
  intros A B [G1 G2]. unfold exposure_in, clip. cbn [fst snd].
  assert (M : qmax a (fst g) == qmax a' (fst h)) by (unfold qmax; dq; lra).
  assert (N : qmin b (snd g) == qmin b' (snd h)) by (unfold qmin; dq; lra).
  rewrite (upto_proper nbin j (qmin b (snd g) / 1) (qmin b' (snd h) / 1)) by (rewrite N; reflexivity).
  rewrite (upto_proper nbin j (qmax a (fst g) / 1) (qmax a' (fst h) / 1)) by (rewrite M; reflexivity). reflexivity.
Qed.
Lemma touches_proper a b a' b' g h : a == a' -> b == b' -> pqe g h -> touches a b g = touches a' b' h.
Proof.
  intros A B [G1 G2]. unfold touches. f_equal; apply eq_true_iff_eq; rewrite !qlt_t; split; intros; lra.
Qed.
Lemma exposures_proper nbin j a b a' b' : a == a' -> b == b' -> forall gs hs, Forall2 pqe gs hs ->
  sum_of (map (fun g => exposure_in nbin j 1 (clip a b g)) (filter (touches a b) gs)) ==
  sum_of (map (fun g => exposure_in nbin j 1 (clip a' b' g)) (filter (touches a' b') hs)).
Proof.
  intros A B gs hs F. induction F as [|g h gs hs P F IH]; [reflexivity|].
  cbn [filter]. rewrite (touches_proper a b a' b' g h A B P). destruct (touches a' b' h); [|exact IH].
  cbn [map sum_of]. rewrite IH, (exposure_in_proper nbin j a b a' b' g h A B P). reflexivity.
Qed.

Lemma forall2_map_seq {A} (f : nat -> A) (P : nat -> A -> Prop) l : (forall j, In j l -> P j (f j)) -> Forall2 P l (map f l).
Proof. intros H. induction l as [|j l IH]; cbn; constructor; [apply H; now left|apply IH; intros; apply H; now right]. Qed.

Lemma fold_expo_main times fs nbin w gti ref : (0 < nbin)%nat -> (2 <= length times)%nat ->
  length (weight_list times w) = length times ->
  forall t0 t1 tl, get times 0 = Ok t0 -> get times 1 = Ok t1 -> get_last times = Ok tl ->
  let s := turns fs (t0 - ref) in
  let e := turns fs (tl - ref + Qabs (t1 - t0)) in
  let gs := map (phase_ivl fs ref) (match gti with None => [(t0, tl)] | Some g => g end) in
  let E := fun j => sum_of (map (fun g => exposure_in nbin j 1 (clip s e g)) (filter (touches s e) gs)) in
  0 <= s -> s < e -> (forall g, In g gs -> fst g <= snd g) -> (forall j, (j < nbin)%nat -> 0 < E j) ->
  exists cs prof err2 m, fold_events times fs nbin w gti ref true = Ok (cs, prof, err2) /\
    0 < m /\ (forall j, (j < nbin)%nat -> E j <= m) /\ (exists j, (j < nbin)%nat /\ E j == m) /\
    Forall2 (fun j p => exists v, p = Some v /\ v * E j == m * sum_of (weights_in nbin j (folded times fs (weight_list times w) ref))) (seq 0 nbin) prof /\
    Forall2 (fun j p => exists v, p = Some v /\ v * (E j * E j) == m * m * sum_of (weights_in nbin j (folded times fs (weight_list times w) ref))) (seq 0 nbin) err2.
Proof.
  intros Hn Ht Hw t0 t1 tl G0 G1 Gl s e gs E Hs He Hg HE.
  unfold fold_events. rewrite G0, Gl. cbn [bind].
  set (tt := map (fun t => t - ref) times).
  assert (G0' : get tt 0 = Ok (t0 - ref)).
  { unfold get, tt in *. rewrite nth_error_map. destruct (nth_error times 0); [|discriminate]. injection G0 as ->. reflexivity. }
  assert (G1' : get tt 1 = Ok (t1 - ref)).
  { unfold get, tt in *. rewrite nth_error_map. destruct (nth_error times 1); [|discriminate]. injection G1 as ->. reflexivity. }
  assert (Gl' : get_last tt = Ok (tl - ref)) by (now apply (get_last_map (fun t => t - ref))).
  rewrite G0', G1', Gl'. cbn [bind].
  assert (L : Nat.eqb (length (weight_list times w)) (length (pulse_phase tt fs 0 true)) = true).
  { apply Nat.eqb_eq. unfold pulse_phase, tt. rewrite !map_length. exact Hw. }
  rewrite L. cbn [negb].
  set (s' := add_terms 0 fs (t0 - ref) 0). set (e' := add_terms 0 fs (tl - ref + Qabs (t1 - ref - (t0 - ref))) 0).
  set (g0 := match gti with None => [(t0, tl)] | Some g => g end) in *.
  set (gs' := map (fun g => (add_terms 0 fs (fst g) 0, add_terms 0 fs (snd g) 0)) (map (fun g => (fst g - ref, snd g - ref)) g0)).
  assert (Es : s' == s) by (unfold s', s; rewrite add_terms_turns; lra).
  assert (NP : forall k x y, x == y -> nested k fs x == nested k fs y).
  { clear. induction fs as [|f fs IH]; intros k x y E; [reflexivity|]. cbn. rewrite (IH (Pos.succ k) x y E), E. reflexivity. }
  assert (Ee : e' == e).
  { unfold e', e. rewrite add_terms_turns. unfold turns. rewrite (NP 1%positive (tl - ref + Qabs (t1 - ref - (t0 - ref))) (tl - ref + Qabs (t1 - t0))); [lra|].
    assert (X : t1 - ref - (t0 - ref) == t1 - t0) by lra. rewrite X. reflexivity. }
  assert (Fg : Forall2 pqe gs' gs).
  { unfold gs', gs. rewrite map_map. clear. induction g0 as [|g r IH]; cbn [map]; constructor; [|exact IH].
    unfold pqe, phase_ivl. cbn [fst snd]. rewrite !add_terms_turns. split; lra. }
  assert (Hg' : forall g, In g gs' -> fst g <= snd g).
  { clear - Fg Hg. induction Fg as [|a b l m [P1 P2] F IH]; intros g Hi; [destruct Hi|]. destruct Hi as [->|Hi].
    - specialize (Hg b (or_introl eq_refl)). lra.
    - apply IH; [intros; apply Hg; now right|exact Hi]. }
  assert (M := expo_main s' e' 1 nbin (Some gs') Hn ltac:(lra) ltac:(lra) ltac:(lra) Hg'). cbv zeta in M. cbv iota in M.
  unfold phase_exposure. set (ex := phase_exposure_raw s' e' 1 nbin (Some gs')) in *.
  assert (Lx : length ex = nbin).
  { assert (G := P_filters.forall2_len _ _ _ M). rewrite seq_length in G. now symmetry. }
  assert (V : forall j, (j < nbin)%nat -> nth j ex 0 == E j).
  { intros j Hj. unfold E. rewrite <- (exposures_proper nbin j s' e' s e Es Ee gs' gs Fg).
    assert (X : forall (P : nat -> Q -> Prop) k l m, Forall2 P (seq k m) l -> forall i, (i < m)%nat -> P (k + i)%nat (nth i l 0)).
    { clear. intros P k l m. revert k l. induction m as [|m IH]; intros k l F i Hi; [lia|]. inversion F; subst. destruct i; [rewrite Nat.add_0_r; assumption|].
      cbn. replace (k + S i)%nat with (S k + i)%nat by lia. apply IH; [assumption|lia]. }
    exact (X _ 0%nat ex nbin M j Hj). }
  destruct (qmax_list_ok ex) as (m & Em & Im & Bm); [intros C; rewrite C in Lx; cbn in Lx; lia|].
  rewrite Em. cbn [bind].
  destruct (In_nth _ _ 0 Im) as (jm & Hjm & Ejm). rewrite Lx in Hjm.
  assert (Pm : 0 < m) by (rewrite <- Ejm, V by exact Hjm; now apply HE).
  replace (qeq m 0) with false by (symmetry; destruct (qeq m 0) eqn:C; [qb; lra|reflexivity]). cbn [bind].
  rewrite hist_of_values, (values_main nbin _ Hn).
  2:{ intros p Hp. destruct p as [a b]. apply in_combine_l in Hp. cbn. eapply phase_range. exact Hp. }
  unfold tt. rewrite (map_ext _ _ (fun j => weights_folded nbin j ref fs times (weight_list times w))).
  set (pts := folded times fs (weight_list times w) ref).
  eexists. eexists. eexists. exists m. split; [reflexivity|]. split; [exact Pm|].
  split; [intros j Hj; rewrite <- V by exact Hj; apply Bm; apply nth_In; lia|].
  split; [exists jm; split; [exact Hjm|rewrite <- V by exact Hjm; rewrite Ejm; reflexivity]|].
  assert (Ex : ex = map (fun j => nth j ex 0) (seq 0 nbin)).
  { rewrite <- Lx. clear. induction ex as [|a r IH]; [reflexivity|]. cbn [length seq map nth]. f_equal. rewrite <- seq_shift, map_map. exact IH. }
  rewrite Ex. rewrite !map_map.
  assert (C : forall (f : nat -> Q) (h : nat -> option Q) l, combine (map f l) (map h l) = map (fun j => (f j, h j)) l).
  { clear. intros f h. induction l as [|a l IH]; [reflexivity|]. cbn. now rewrite IH. }
  rewrite C, !map_map. split; apply forall2_map_seq; intros j Hj; apply in_seq in Hj; cbn [fst snd].
  all: assert (Pj : 0 < nth j ex 0) by (rewrite V by lia; apply HE; lia).
  all: destruct (qeq (nth j ex 0 / m) 0) eqn:Cq.
  1,3: qb; exfalso; assert (Hq : nth j ex 0 / m * m == nth j ex 0) by (field; lra); rewrite Cq in Hq; lra.
  all: eexists; split; [reflexivity|]; rewrite <- V by lia; rewrite (sum_of_qsum (weights_in nbin j pts)); field; split; lra.
Qed.
