(* P_search2.v: proofs about the pulsation searches: the statistic of each window. *)
From Coq Require Import Reals Qreals.
From Verif Require Import Np Lib S_lc S_fold M_gti M_utils M_lc M_seg M_fold P_fold P_fold2 Cplx S_fourier S_zn M_zn P_zn P_helpers P_filters M_search S_search S_search2 P_search.
From Coq Require Import List Bool Arith Permutation Lia Lra.
Import ListNotations.
Open Scope Q_scope.


Lemma profile_stat_value k p : kind_ok k -> p <> [] -> (0 < rlsum p)%R -> profile_stat k p = Ok (value_of k p).
Proof.
  intros Hk Hp Hs. destruct k as [|n]; cbn [profile_stat value_of].
  - f_equal. unfold ef_profile_stat, flat_chi2. cbv zeta. f_equal. apply map_ext. intros x. rewrite pow2_sqrt; [reflexivity|].
    apply Rlt_le, Rdiv_lt_0_compat; [exact Hs|]. apply lt_0_INR. destruct p; [congruence|cbn; lia].
  - destruct (binned_value p n Hp ltac:(Lra.lra) Hk) as [E _]. exact E.
Qed.

(* everything depends on the value of the times only *)
Lemma nested_proper fs : forall k x y, x == y -> nested k fs x == nested k fs y.
Proof. induction fs as [|f fs IH]; intros k x y E; cbn [nested]; [reflexivity|]. rewrite (IH _ _ _ E), E. reflexivity. Qed.
Lemma turns_proper fs x y : x == y -> turns fs x == turns fs y.
Proof. apply nested_proper. Qed.
Lemma frac_proper x y : x == y -> frac x == frac y.
Proof. intros E. unfold frac. rewrite (Qfloor_comp _ _ E), E. reflexivity. Qed.
Lemma bin_proper nbin x y : x == y -> bin_of nbin x = bin_of nbin y.
Proof. intros E. unfold bin_of. apply Qfloor_comp. rewrite E. reflexivity. Qed.
Lemma sum_of_proper l l' : Forall2 Qeq l l' -> sum_of l == sum_of l'.
Proof. induction 1 as [|a b l l' E _ IH]; cbn [sum_of]; [reflexivity|]. rewrite E, IH. reflexivity. Qed.
Lemma forall2_filter {A B} (R : A -> B -> Prop) p q l l' : (forall a b, R a b -> p a = q b) -> Forall2 R l l' -> Forall2 R (filter p l) (filter q l').
Proof. intros H. induction 1 as [|a b l l' E _ IH]; cbn; [constructor|]. rewrite (H a b E). destruct (q b); [constructor|]; assumption. Qed.
Lemma forall2_map {A B C D} (R : A -> B -> Prop) (S : C -> D -> Prop) f g l l' : (forall a b, R a b -> S (f a) (g b)) -> Forall2 R l l' -> Forall2 S (map f l) (map g l').
Proof. intros H. induction 1; cbn; constructor; auto. Qed.
Lemma forall2_len {A B} (R : A -> B -> Prop) l l' : Forall2 R l l' -> length l = length l'.
Proof. induction 1; cbn; congruence. Qed.
Lemma weights_proper nbin j l l' : Forall2 pqe l l' -> Forall2 Qeq (weights_in nbin j l) (weights_in nbin j l').
Proof.
  intros H. unfold weights_in. apply (forall2_map pqe); [intros a b [_ E]; exact E|]. apply forall2_filter; [|exact H].
  intros a b [E _]. rewrite (bin_proper nbin _ _ E). reflexivity.
Qed.
Lemma folded_proper f fd l l' : Forall2 pqe l l' -> Forall2 pqe (folded_events f fd l) (folded_events f fd l').
Proof.
  unfold folded_events. apply forall2_map. intros a b [E1 E2]. split; cbn [fst snd]; [|exact E2]. apply frac_proper, turns_proper, E1.
Qed.
Lemma profile_proper nbin f fd l l' : Forall2 pqe l l' -> profile_of nbin f fd l = profile_of nbin f fd l'.
Proof. intros H. unfold profile_of. apply map_ext. intros j. apply Qeq_eqR. apply sum_of_proper, weights_proper, folded_proper, H. Qed.
Lemma forall2_refl_pqe l : Forall2 pqe l l.
Proof. induction l; constructor; [split; reflexivity|assumption]. Qed.

(* the total of a profile *)
Lemma rlsum_q2r {A} (g : A -> Q) l : rlsum (map (fun j => Q2R (g j)) l) = Q2R (sum_of (map g l)).
Proof.
  induction l as [|a l IH]; [cbn; unfold Q2R; cbn; Lra.lra|]. cbn [map sum_of]. rewrite Q2R_plus. cbn. f_equal. exact IH.
Qed.
Lemma folded_range f fd ev p : In p (folded_events f fd ev) -> 0 <= fst p < 1.
Proof. intros H. apply in_map_iff in H. destruct H as (e & <- & _). cbn [fst]. destruct (frac_floor (turns [f; fd] (fst e))) as (A & B & _). split; assumption. Qed.
Lemma profile_of_total nbin f fd ev : (0 < nbin)%nat -> rlsum (profile_of nbin f fd ev) = Q2R (sum_of (map snd ev)).
Proof.
  intros Hn. unfold profile_of. rewrite rlsum_q2r. apply Qeq_eqR. rewrite (profile_total nbin _ Hn (folded_range f fd ev)).
  unfold folded_events. rewrite map_map. reflexivity.
Qed.
Lemma sum_of_pos l : l <> [] -> (forall x, In x l -> 0 < x) -> 0 < sum_of l.
Proof.
  intros Hne H. assert (G : forall m, (forall x, In x m -> 0 < x) -> 0 <= sum_of m).
  { induction m as [|a m IH]; intros Hm; cbn; [Lqa.lra|]. assert (A := Hm a (or_introl eq_refl)). assert (B := IH (fun x Hx => Hm x (or_intror Hx))). Lqa.lra. }
  destruct l as [|a l]; [congruence|]. cbn. assert (A := H a (or_introl eq_refl)). assert (B := G l (fun x Hx => H x (or_intror Hx))). Lqa.lra.
Qed.
Lemma profile_pos nbin f fd ev : (0 < nbin)%nat -> ev <> [] -> (forall e, In e ev -> 0 < snd e) ->
  profile_of nbin f fd ev <> [] /\ (0 < rlsum (profile_of nbin f fd ev))%R.
Proof.
  intros Hn He Hw. split.
  - unfold profile_of. destruct nbin; [lia|discriminate].
  - rewrite profile_of_total by exact Hn. rewrite <- RMicromega.Q2R_0. apply Qlt_Rlt. apply sum_of_pos; [destruct ev; [congruence|discriminate]|].
    intros x Hx. apply in_map_iff in Hx. destruct Hx as (e & <- & Hi). now apply Hw.
Qed.

(* the fast profile *)
Lemma number_sum nbin j f fd : forall ts ws, length ws = length ts -> (forall x, In x ws -> x = 1) ->
  sum_of (weights_in nbin j (folded_events f fd (combine ts ws))) == inject_Z (Z.of_nat (number_in nbin j (pulse_phase_fast ts f fd))).
Proof.
  unfold number_in, weights_in, folded_events. induction ts as [|t ts IH]; intros [|w ws] L H; try discriminate; [reflexivity|]. injection L as L.
  cbn [combine map filter fst snd pulse_phase_fast]. unfold pulse_phase_fast. cbn [map filter]. fold (pulse_phase_fast ts f fd).
  assert (B : bin_of nbin (frac (turns [f; fd] t)) = bin_of nbin (t * f + (1 # 2) * t ^ 2 * fd - inject_Z (Qfloor (t * f + (1 # 2) * t ^ 2 * fd)))).
  { apply bin_proper. change (t * f + (1 # 2) * t ^ 2 * fd - inject_Z (Qfloor (t * f + (1 # 2) * t ^ 2 * fd))) with (frac (t * f + (1 # 2) * t ^ 2 * fd)).
    apply frac_proper. unfold turns. cbn. unfold Qpower, Qpower_positive. cbn. field. }
  rewrite B. specialize (IH ws L (fun x Hx => H x (or_intror Hx))).
  destruct (bin_of nbin _ =? Z.of_nat j)%Z; [|exact IH]. cbn [map sum_of length snd]. rewrite IH, (H w (or_introl eq_refl)).
  rewrite Nat2Z.inj_succ, <- Z.add_1_r, inject_Z_plus. change (inject_Z 1) with 1. ring.
Qed.
Lemma fast_range ts f fd x : In x (pulse_phase_fast ts f fd) -> 0 <= x < 1.
Proof.
  intros H. apply in_map_iff in H. destruct H as (t & <- & _). cbv zeta. destruct (frac_floor (t * f + (1 # 2) * t ^ 2 * fd)) as (A & B & _). split; assumption.
Qed.
Lemma fast_profile nbin ts ws f fd : (0 < nbin)%nat -> length ws = length ts -> (forall x, In x ws -> x = 1) ->
  exists p, profile_fast (pulse_phase_fast ts f fd) nbin = Ok p /\ map IZR p = profile_of nbin f fd (combine ts ws).
Proof.
  intros Hn L H. rewrite (fast_main _ nbin Hn (fun x => fast_range ts f fd x)). eexists. split; [reflexivity|].
  unfold profile_of. rewrite map_map. apply map_ext. intros j. rewrite (Qeq_eqR _ _ (number_sum nbin j f fd ts ws L H)).
  unfold Q2R, inject_Z. cbn. Lra.lra.
Qed.

Lemma all_some_forall l g : forall js, Forall2 (fun j p => exists v, p = Some v /\ v == g j) js l -> all_some l = Some (map (fun j : nat => Q2R (g j)) js).
Proof.
  induction l as [|a l IH]; intros js H; inversion H as [|j p js' l' (v & -> & E) F]; subst; [reflexivity|]. cbn [all_some]. rewrite (IH _ F). cbn. rewrite (Qeq_eqR _ _ E). reflexivity.
Qed.
(* fold_events without exposure correction gives the same profile *)
Lemma slow_profile nbin ts ws W f fd gti : (0 < nbin)%nat -> (2 <= length ts)%nat -> weight_list ts W = ws -> length ws = length ts ->
  exists c p e, fold_events ts [f; fd] nbin W gti 0 false = Ok (c, p, e) /\ all_some p = Some (profile_of nbin f fd (combine ts ws)).
Proof.
  intros Hn Ht Ew L. destruct (fold_main ts [f; fd] nbin W gti 0 Hn Ht ltac:(now rewrite Ew)) as (c & p & e & E & _ & _ & Hp & _).
  exists c, p, e. split; [exact E|]. rewrite Ew in Hp. erewrite all_some_forall by exact Hp. f_equal. unfold profile_of. apply map_ext. intros j. apply Qeq_eqR.
  apply sum_of_proper, weights_proper. unfold folded, folded_events. clear -L. revert ws L. induction ts as [|t ts IH]; intros [|w ws] L; try discriminate; [constructor|].
  cbn [map combine]. constructor; [|apply IH; now injection L]. split; cbn [fst snd]; [|reflexivity]. apply frac_proper, turns_proper. Lqa.lra.
Qed.
