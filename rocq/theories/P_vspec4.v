(* P_vspec4.v: overlap of two energy bands, photon counts, the excess variance spectrum (rationals). *)
From Coq Require Import Reals Qreals.
From Verif Require Import Np Lib M_gti M_seg M_utils M_lc M_exvar Cplx M_fourier M_flux M_vspec S_gti S_seg S_utils S_flux S_fourier S_vspec P_lc_make P_segan P_vspec.
From Coq Require Import ZArith QArith Lqa List Bool Arith Sorting.Sorted Sorting.Permutation Lia.
Import ListNotations.
Open Scope Q_scope.

Lemma qmax_val a b : (a <= b -> qmax a b = b) /\ (b < a -> qmax a b = a).
Proof. unfold qmax. destruct (qle a b) eqn:E; qb; split; intros; try reflexivity; lra. Qed.
Lemma one_start a e : opening_pos [a] e = if qlt a e then Ok 0%nat else Err ValueError.
Proof. unfold opening_pos. cbn [filter]. destruct (qlt a e); reflexivity. Qed.
Lemma step_one gs ge me st x a b c d :
  gs (t_tag x) = [a] -> gs (negb (t_tag x)) = [c] -> ge (negb (t_tag x)) = [d] -> t_end x = b ->
  cross_step gs ge me st x =
    if (qlt a b && qlt c b)%bool then
      if qle (qmax a c) (fst st) then st
      else if ((qlt (qmax a c) d && qlt d b) || qlt d (qmax a c) || qlt me b)%bool then st else (b, (qmax a c, b) :: snd st)
    else st.
Proof.
  intros H1 H2 H3 H4. unfold cross_step. rewrite H1, H2, H3, H4, !one_start. destruct (qlt a b), (qlt c b); try reflexivity. cbn [andb nth_error existsb]. now rewrite orb_false_r.
Qed.
Definition pair_overlap (a b c d : Q) : bool := (qlt (qmax a c) b && qlt (qmax a c) d)%bool.
Lemma cross_pair srt a b c d : sorts_by t_end srt -> a < b -> c < d ->
  exists l, cross_two_gtis srt [(a, b)] [(c, d)] = Ok l /\ Nat.ltb 0 (length l) = pair_overlap a b c d.
Proof.
  intros Hs Hab Hcd. unfold cross_two_gtis. cbn [bind join_equal_gti_boundaries join_equal_loop].
  assert (K : forall u v, u < v -> check_gtis [(u, v)] = Ok tt). { intros u v H. cbn. destruct (qle u v) eqn:B; [reflexivity|qb; lra]. }
  rewrite (K a b Hab), (K c d Hcd). cbn [bind tag_list map fst snd app]. destruct (Hs [(a, b, false); (c, d, true)]) as [P S].
  apply Permutation_sym in P. apply Permutation_length_2_inv in P. unfold pair_overlap. pose proof (qmax_val a c) as [M1 M2].
  destruct P as [P|P]; rewrite P in *; cbn [rev app].
  - assert (O : b <= d). { exact (S 0%nat 1%nat _ _ (Nat.lt_0_succ 0) eq_refl eq_refl). }
    cbn [fold_left]. rewrite (step_one _ _ _ _ (a, b, false) a b c d) by reflexivity. rewrite (step_one _ _ _ _ (c, d, true) c d a b) by reflexivity. cbn [t_start t_end fst snd].
    destruct (qle a c) eqn:AC; qb.
    + rewrite (M1 AC). assert (MC : qmax c a == c) by (unfold qmax; destruct (qle c a) eqn:X; qb; lra). 
      destruct (qlt a b) eqn:E1; qb; [|lra]. destruct (qlt c b) eqn:E2; qb; cbn [andb].
      * destruct (qle c (a - 1)) eqn:E3; qb; [lra|]. destruct (qlt c d) eqn:E4; qb; [|lra]. destruct (qlt d b) eqn:E5; qb; [lra|]. destruct (qlt d c) eqn:E6; qb; [lra|]. destruct (qlt b b) eqn:E7; qb; [lra|]. cbn [andb orb].
        destruct (qlt a d) eqn:E8; qb; [|lra]. cbn [fst snd]. destruct (qle (qmax c a) b) eqn:E9; qb; [|lra]. eexists; split; reflexivity.
      * destruct (qlt c d) eqn:E4; qb; [|lra]. destruct (qlt a d) eqn:E8; qb; [|lra]. cbn [andb fst snd]. destruct (qle (qmax c a) (a - 1)) eqn:E9; qb; [lra|]. destruct (qlt b d) eqn:E10; qb; [|lra]. rewrite orb_true_r. eexists; split; reflexivity.
    + rewrite (M2 AC). assert (MC : qmax c a == a) by (unfold qmax; destruct (qle c a) eqn:X; qb; lra).
      destruct (qlt a b) eqn:E1; qb; [|lra]. destruct (qlt c b) eqn:E2; qb; [|lra]. cbn [andb].
      destruct (qle a (a - 1)) eqn:E3; qb; [lra|]. destruct (qlt a d) eqn:E4; qb; [|lra]. destruct (qlt d b) eqn:E5; qb; [lra|]. destruct (qlt d a) eqn:E6; qb; [lra|]. destruct (qlt b b) eqn:E7; qb; [lra|]. cbn [andb orb].
      destruct (qlt c d) eqn:E8; qb; [|lra]. cbn [fst snd]. destruct (qle (qmax c a) b) eqn:E9; qb; [|lra]. eexists; split; reflexivity.
  - assert (O : d <= b). { exact (S 0%nat 1%nat _ _ (Nat.lt_0_succ 0) eq_refl eq_refl). }
    cbn [fold_left]. rewrite (step_one _ _ _ _ (a, b, false) a b c d) by reflexivity. rewrite (step_one _ _ _ _ (c, d, true) c d a b) by reflexivity. cbn [t_start t_end fst snd].
    destruct (qle a c) eqn:AC; qb.
    + rewrite (M1 AC). assert (MC : qmax c a == c) by (unfold qmax; destruct (qle c a) eqn:X; qb; lra). 
      destruct (qlt c d) eqn:E1; qb; [|lra]. destruct (qlt a d) eqn:E2; qb; [|lra]. cbn [andb].
      destruct (qle (qmax c a) (c - 1)) eqn:E3; qb; [lra|]. destruct (qlt (qmax c a) b) eqn:E4; qb; [|lra]. destruct (qlt b d) eqn:E5; qb; [lra|]. destruct (qlt b (qmax c a)) eqn:E6; qb; [lra|]. destruct (qlt d d) eqn:E7; qb; [lra|]. cbn [andb orb].
      destruct (qlt a b) eqn:E8; qb; [|lra]. destruct (qlt c b) eqn:E9; qb; [|lra]. cbn [andb fst snd]. destruct (qle c d) eqn:E10; qb; [|lra]. eexists; split; reflexivity.
    + rewrite (M2 AC). assert (MC : qmax c a == a) by (unfold qmax; destruct (qle c a) eqn:X; qb; lra).
      destruct (qlt c d) eqn:E1; qb; [|lra]. destruct (qlt a d) eqn:E2; qb; cbn [andb].
      * destruct (qle (qmax c a) (c - 1)) eqn:E3; qb; [lra|]. destruct (qlt (qmax c a) b) eqn:E4; qb; [|lra]. destruct (qlt b d) eqn:E5; qb; [lra|]. destruct (qlt b (qmax c a)) eqn:E6; qb; [lra|]. destruct (qlt d d) eqn:E7; qb; [lra|]. cbn [andb orb].
        destruct (qlt a b) eqn:E8; qb; [|lra]. destruct (qlt c b) eqn:E9; qb; [|lra]. cbn [andb fst snd]. destruct (qle a d) eqn:E10; qb; [|lra]. eexists; split; reflexivity.
      * destruct (qlt a b) eqn:E8; qb; [|lra]. destruct (qlt c b) eqn:E9; qb; [|lra]. cbn [andb fst snd]. destruct (qle a (c - 1)) eqn:E10; qb; [lra|]. destruct (qlt d b) eqn:E11; qb; [|lra]. rewrite orb_true_r. eexists; split; reflexivity.
Qed.
Lemma share_pair a b : fst a < snd a -> fst b < snd b -> (share a b <-> pair_overlap (fst a) (snd a) (fst b) (snd b) = true).
Proof.
  destruct a as [a b0], b as [c d]. cbn [fst snd]. intros Ha Hb. unfold share, pair_overlap, in_range. cbn [fst snd]. pose proof (qmax_val a c) as [M1 M2]. rewrite andb_true_iff. split.
  - intros (e & H1 & H2). apply andb_true_iff in H1, H2. destruct H1, H2. qb. destruct (qle a c) eqn:X; qb; [rewrite (M1 X)|rewrite (M2 X)]; split; (apply qlt_t; lra).
  - intros [H1 H2]. qb. exists (qmax a c). destruct (qle a c) eqn:X; qb; [rewrite (M1 X) in *|rewrite (M2 X) in *]; split; apply andb_true_iff; split; try (apply qle_t; lra); apply qlt_t; lra.
Qed.
Lemma overlaps_same srt a b : sorts_by t_end srt -> fst a < snd a -> fst b < snd b -> exists o, overlaps srt true a [b] = Ok o /\ (o = true <-> share a b).
Proof.
  intros Hs Ha Hb. destruct a as [a1 a2], b as [b1 b2]. destruct (cross_pair srt a1 a2 b1 b2 Hs Ha Hb) as (l & E & L). unfold overlaps. rewrite E. cbn [bind]. eexists. split; [reflexivity|]. rewrite L, (share_pair _ _ Ha Hb). reflexivity.
Qed.
Lemma cross_pair_ok srt a b : sorts_by t_end srt -> fst a < snd a -> fst b < snd b -> exists l, cross_two_gtis srt [a] [b] = Ok l.
Proof. intros Hs Ha Hb. destruct a as [a1 a2], b as [b1 b2]. destruct (cross_pair srt a1 a2 b1 b2 Hs Ha Hb) as (l & E & _). eauto. Qed.

(* ---- photon counts ---- *)
Definition column (up : bool) (ev : events) : option (list Q) := if up then ev_pi ev else ev_energy ev.
Lemma times_col (up : bool) ev en iv : column up ev = Some en -> length en = length (ev_time ev) -> times_from_energy up ev iv = Ok (band_times (ev_time ev) en iv).
Proof.
  intros E L. unfold times_from_energy. unfold column in E. rewrite E. exact (mask_get_two (in_range iv) (ev_time ev) en L).
Qed.
Lemma band_count times en iv : length en = length times -> length (band_times times en iv) = length (filter (in_range iv) en).
Proof.
  unfold band_times. rewrite map_length. revert en. induction times as [|t times IH]; intros [|e en] L; try discriminate; [reflexivity|]. cbn [combine filter snd]. destruct (in_range iv e); cbn [length]; rewrite IH by (cbn in L; congruence); reflexivity.
Qed.
Lemma count_main (up : bool) ev en ivs : column up ev = Some en -> length en = length (ev_time ev) ->
  count_spectrum up ev ivs = Ok (map (fun iv => (INR (length (filter (in_range iv) en)), sqrt (INR (length (filter (in_range iv) en))))) ivs).
Proof.
  intros E L. unfold count_spectrum. induction ivs as [|iv ivs IH]; [reflexivity|]. cbn [map_result map]. rewrite (times_col up ev en iv E L). cbn [bind]. rewrite IH. cbn [bind]. now rewrite (band_count _ _ _ L).
Qed.
Lemma count_none up ev iv ivs : column up ev = None -> count_spectrum up ev (iv :: ivs) = Err TypeError.
Proof. intros E. unfold count_spectrum. cbn [map_result]. unfold times_from_energy. unfold column in E. rewrite E. reflexivity. Qed.
Lemma count_split en a b c : a <= b -> b <= c -> (length (filter (in_range (a, b)) en) + length (filter (in_range (b, c)) en))%nat = length (filter (in_range (a, c)) en).
Proof.
  intros H1 H2. induction en as [|e en IH]; [reflexivity|]. cbn [filter]. unfold in_range in *. cbn [fst snd] in *.
  destruct (qle a e) eqn:A; destruct (qlt e b) eqn:B; destruct (qle b e) eqn:C; destruct (qlt e c) eqn:D; qb; cbn [andb length]; try lra; lia.
Qed.
Lemma count_total en edges : nondecreasing edges -> edges <> [] ->
  fold_right Nat.add 0%nat (map (fun iv => length (filter (in_range iv) en)) (energy_intervals edges)) = length (filter (in_range (hd 0 edges, last edges 0)) en).
Proof.
  intros S N. apply (proj2 (ss_nth Qle _)) in S. induction edges as [|a [|b l] IH]; [contradiction| |].
  - clear IH. cbn. induction en as [|e en IH]; [reflexivity|]. cbn [filter]. unfold in_range at 1. cbn [fst snd]. destruct (qle a e) eqn:A; destruct (qlt e a) eqn:B; qb; cbn [andb]; try lra; exact IH.
  - change (energy_intervals (a :: b :: l)) with ((a, b) :: energy_intervals (b :: l)). cbn [map fold_right]. rewrite IH; [|now inversion S|discriminate]. cbn [hd]. change (last (a :: b :: l) 0) with (last (b :: l) 0). apply count_split.
    + inversion S; subst. now apply (Forall_inv H2).
    + inversion S; subst. clear - H1. revert b H1. induction l as [|c l IH]; intros b H; [cbn; lra|]. change (last (b :: c :: l) 0) with (last (c :: l) 0). inversion H; subst. apply (Qle_trans _ c); [now apply (Forall_inv H3)|now apply IH].
Qed.
Lemma centers_mid edges i a b : nth_error edges i = Some a -> nth_error edges (S i) = Some b -> nth_error (energy_centers (energy_intervals edges)) i = Some ((a + b) / 2).
Proof.
  intros A B. assert (X : nth_error (energy_intervals edges) i = Some (a, b)).
  { unfold energy_intervals. revert edges A B. induction i as [|i IH]; intros [|e [|e2 l]] A B; cbn [nth_error] in A, B; try discriminate.
    - cbn. congruence.
    - exact (IH (e2 :: l) A B). }
  unfold energy_centers. rewrite nth_error_map, X. reflexivity.
Qed.

(* ---- excess variance ---- *)
Lemma excess_nan srt up ev ivs dt rows : excess_variance_spectrum srt up ev ivs dt = Ok rows -> length rows = length ivs /\ Forall (fun v => v = (None, None)) rows.
Proof.
  unfold excess_variance_spectrum. destruct (map_result _ ivs); [|discriminate]. cbn [bind]. intros E. injection E as <-. rewrite map_length. split; [reflexivity|]. apply Forall_forall. intros v H. apply in_map_iff in H. destruct H as (iv & <- & _). reflexivity.
Qed.
Definition ex_ev : events := mkEv [1 # 2; 3 # 4; 3 # 2; 9 # 4; 5 # 2; 11 # 4; 23 # 8; 7 # 2] (Some [1; 2; 1; 1; 1; 2; 1; 1]) (Some [10; 20; 10; 10; 10; 20; 10; 10]) [(0, 4)].
Lemma excess_example : excess_variance_spectrum (isort_by t_end) false ex_ev [(1, 3 # 2)] 1 = Ok [(None, None)] /\
  exists lc, base_lightcurve (isort_by t_end) false ex_ev 1 (1, 3 # 2) = Ok lc /\ lc_counts lc = [1; 1; 3; 1].
Proof. split; [reflexivity|]. eexists. split; [vm_compute; reflexivity|reflexivity]. Qed.
