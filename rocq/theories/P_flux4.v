(* P_flux4.v: averaged spectra of light curves, whole observations. *)
From Coq Require Import Reals Qreals Lqa Lia.
From Verif Require Import Np Lib M_gti M_seg M_utils Cplx M_fourier M_flux S_gti S_seg S_utils S_flux S_fourier P_gti_final P_seg_cut P_seg_split P_base2 P_lc_make P_hist P_helpers P_flux P_flux2 P_flux3.
Open Scope Q_scope.

Lemma flux_lc numba times g size nb dt f errors l n : 0 < dt -> well_formed g -> increasing times -> (2 <= n)%nat -> size == nq n * dt ->
  get_flux_iterable numba times g (Some size) nb dt (Some f) errors = Ok l ->
  exists l0 st, generate_indices_of_segment_boundaries_binned times g size dt = Ok l0 /\ map snd l0 = map (fun s => (s, s + n)%nat) st /\
  st <> [] /\ bin_segments times g size dt n st /\ map real_item l = map (lc_segment f errors n) st.
Proof.
  intros Hd Hw Hi Hn Es E. unfold get_flux_iterable in E.
  assert (E' : exists l0, generate_indices_of_segment_boundaries_binned times g size dt = Ok l0 /\
     l = map (fun s : Q * Q * (nat * nat) => let '(start, _, (idx0, idx1)) := s in if (Z.of_nat idx1 - Z.of_nat idx0 <? 2)%Z then None
               else Some (slice f idx0 idx1, option_map (fun e => slice e idx0 idx1) errors)) l0).
  { destruct nb; apply bind_ok in E; destruct E as ([sz l0] & E1 & E); apply bind_ok in E1; destruct E1 as (l1 & E1 & E2);
    assert (IO : forall x y : list flux_item, Ok x = Ok y -> x = y) by congruence; apply IO in E; subst l; injection E2 as <- <-; exists l1; split; assumption || reflexivity. }
  destruct E' as (l0 & E1 & ->). destruct (binned_form times g size dt l0 Hd Hw Hi E1) as (st & A1 & A2 & A3 & A4).
  assert (Z : rint (size / dt) = Z.of_nat n).
  { assert (X : size / dt == inject_Z (Z.of_nat n)) by (rewrite Es; field; lra).
    destruct (rint_half (size / dt)) as [H1 H2]. set (z := rint (size / dt)) in *. clearbody z.
    assert (B1 : inject_Z z < inject_Z (Z.of_nat n + 1)) by (rewrite inject_Z_plus; change (inject_Z 1) with 1; lra).
    assert (B2 : inject_Z (Z.of_nat n) < inject_Z (z + 1)) by (rewrite inject_Z_plus; change (inject_Z 1) with 1; lra).
    rewrite <- Zlt_Qlt in B1, B2. lia. }
  rewrite Z, Nat2Z.id in A3, A4. exists l0, st. split; [exact E1|]. split; [exact A3|]. split; [exact A2|]. split; [exact A4|].
  clear - A3 Hn. revert st A3. induction l0 as [|[[ta tb] [i0 i1]] l0 IH]; intros [|s st] A3; try discriminate; [reflexivity|].
  cbn [map snd] in A3. assert (X : i0 = s /\ i1 = (s + n)%nat /\ map snd l0 = map (fun s => (s, s + n)%nat) st) by (injection A3; auto).
  destruct X as (-> & -> & A4). cbn [map]. f_equal; [|now apply IH].
  replace (Z.of_nat (s + n) - Z.of_nat s)%Z with (Z.of_nat n) by lia. unfold slice. replace (s + n - s)%nat with n by lia.
  destruct (Z.ltb_spec (Z.of_nat n) 2); [lia|]. unfold real_item, lc_segment. cbn [option_map fst snd]. now destruct errors.
Qed.
Lemma pds_lc numba times g rq dt norm common subcs n f errors res : 0 < dt -> well_formed g -> increasing times -> (2 <= n)%nat -> rq == nq n * dt ->
  avg_pds_from_timeseries numba times g (Some rq) dt norm common (Some f) errors subcs = Ok res ->
  exists st, st <> [] /\ bin_segments times g (nq n * dt) dt n st /\ avg_pds (map (lc_segment f errors n) st) (Q2R dt) norm common subcs = Ok res.
Proof.
  intros Hd Hw Hi Hn Er E. unfold avg_pds_from_timeseries, segment_and_bins in E. rewrite (fix_exact rq dt n Hd Er) in E. cbn [bind fst snd] in E.
  apply bind_ok in E. destruct E as (l & E1 & E2).
  destruct (flux_lc _ _ _ _ _ _ _ _ _ n Hd Hw Hi Hn (Qeq_refl _) E1) as (l0 & st & _ & _ & N & B & M). exists st. rewrite <- M. auto.
Qed.
Lemma cs_lc numba times g rq dt norm common fullspec silent pt f1 f2 e1 e2 auxil subcs n res : 0 < dt -> well_formed g -> increasing times -> (2 <= n)%nat -> rq == nq n * dt ->
  avg_cs_from_timeseries numba times times g (Some rq) dt norm common fullspec silent pt (Some f1) (Some f2) e1 e2 auxil subcs = Ok res ->
  exists st, st <> [] /\ bin_segments times g (nq n * dt) dt n st /\
  avg_cs (map (lc_segment f1 e1 n) st) (map (lc_segment f2 e2 n) st) (Q2R dt) norm common fullspec pt auxil subcs = Ok res.
Proof.
  intros Hd Hw Hi Hn Er E. unfold avg_cs_from_timeseries, segment_and_bins in E. rewrite (fix_exact rq dt n Hd Er) in E. cbn [bind fst snd] in E.
  apply bind_ok in E. destruct E as (l1 & E1 & E). apply bind_ok in E. destruct E as (l2 & E2 & E). cbn [andb] in E.
  destruct (flux_lc _ _ _ _ _ _ _ _ _ n Hd Hw Hi Hn (Qeq_refl _) E1) as (l0 & st & G1 & M1 & N & B & R1).
  destruct (flux_lc _ _ _ _ _ _ _ _ _ n Hd Hw Hi Hn (Qeq_refl _) E2) as (l0' & st' & G2 & M2 & _ & _ & R2).
  assert (l0' = l0) by congruence. subst l0'. assert (st' = st).
  { rewrite M1 in M2. apply (f_equal (map fst)) in M2. rewrite !map_map in M2. cbn [fst] in M2. rewrite !map_id in M2. congruence. }
  subst st'. exists st. rewrite <- R1, <- R2. auto.
Qed.
(* segment_size=None *)
Lemma flux_whole numba times a b g n dt errors : let e := last (map snd ((a, b) :: g)) b in
  a < e -> (0 < n)%nat -> (forall t, In t times -> ~ t == e) ->
  exists it, get_flux_iterable numba times ((a, b) :: g) None (Some n) dt None errors = Ok [it] /\
  real_item it = if Nat.ltb (length times) 2 then None else Some {| s_flux := binned_counts times (e - a) n a; s_err := None |}.
Proof.
  intros e Hae Hn Ht. unfold get_flux_iterable. cbn [get nth_error bind].
  assert (GL : exists x, get_last ((a, b) :: g) = Ok (x, e)).
  { destruct (exists_last (l := (a, b) :: g) ltac:(discriminate)) as (l' & [x y] & El). exists x. rewrite El, get_last_app. unfold e. rewrite El, map_app. cbn [map snd].
    now rewrite last_last. }
  destruct GL as (x & ->). cbn [bind fst snd map]. eexists. split; [reflexivity|]. rewrite Z.sub_0_r.
  destruct (Z.ltb_spec (Z.of_nat (length times)) 2), (Nat.ltb_spec (length times) 2); try lia; [reflexivity|].
  unfold real_item. cbn [option_map fst snd]. do 2 f_equal. unfold slice. cbn [skipn]. rewrite Nat.sub_0_r, firstn_all.
  assert (Hs : 0 < e - a) by lra.
  rewrite (q2r_list _ _ (hist_counts numba (map (fun t => t - a) times) n (0, e - a) Hs Hn ltac:(
    intros t Hi; apply in_map_iff in Hi; destruct Hi as (u & <- & Hu); cbn [snd]; intros C; apply (Ht u Hu); lra))).
  rewrite map_map. unfold binned_counts. apply map_ext_in. intros k Hk. apply in_seq in Hk. rewrite q2r_nat. f_equal.
  rewrite count_map. unfold events_in. rewrite <- count_filter_len. apply count_ext. intros t _.
  unfold in_bin. cbn [fst snd].
  assert (E1 : forall j, nq j * ((e - a - 0) / nq n) == nq j * ((e - a) / nq n)) by (intros j; apply Qmult_comp; [reflexivity|]; unfold Qdiv; apply Qmult_comp; [lra|reflexivity]).
  assert (G : inject_Z (Z.of_nat k + 1) * ((e - a - 0) / nq n) == nq (S k) * ((e - a) / nq n)).
  { replace (Z.of_nat k + 1)%Z with (Z.of_nat (S k)) by lia. apply E1. }
  pose proof (E1 k) as K1.
  apply eq_true_iff_eq. rewrite !andb_true_iff, !qle_t, !qlt_t. rewrite K1, G. split; intros [U V]; split; lra.
Qed.
