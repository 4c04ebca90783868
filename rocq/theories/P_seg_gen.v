(* P_seg_gen.v: proofs about the binned generators of segment and GTI boundaries. *)
From Verif Require Import Lib S_gti M_gti P_gti_cross P_gti_final S_seg M_seg P_seg_regions P_seg_cut P_seg_bins.
From Coq Require Import Lqa.
Open Scope Q_scope.

Definition binned_loop (times : list Q) (dt : Q) :=
  (fix go (l : list (nat * nat)) : result (list (Q * Q * (nat * nat))) :=
     match l with
     | [] => Ok []
     | (i0, i1) :: l' =>
       let! ta := get times i0 in
       let! tb := get times (Nat.min i1 (length times - 1)) in
       let! r := go l' in
       Ok ((ta - dt / 2, tb - dt / 2, (i0, i1)) :: r)
     end).
Lemma binned_loop_main times dt : forall l, times <> [] -> (forall i j, In (i, j) l -> (i < length times)%nat) ->
  exists out, binned_loop times dt l = Ok out /\ map snd out = l /\
    forall s e i j, In (s, e, (i, j)) out -> exists ta tb, nth_error times i = Some ta /\
      nth_error times (Nat.min j (length times - 1)) = Some tb /\ s = ta - dt / 2 /\ e = tb - dt / 2.
Proof.
  induction l as [|[i j] l IH]; intros N H.
  - exists []. split; [reflexivity|]. split; [reflexivity|]. intros ? ? ? ? [].
  - destruct (nth_error_ex times i) as (ta & Ha). { apply (H i j). left; reflexivity. }
    destruct (nth_error_ex times (Nat.min j (length times - 1))) as (tb & Hb).
    { destruct times; [congruence|]. simpl. lia. }
    destruct (IH N) as (out & E & Em & Eo). { intros x y Hx. apply (H x y). right; assumption. }
    exists ((ta - dt / 2, tb - dt / 2, (i, j)) :: out). split.
    + simpl. unfold get. rewrite Ha. simpl. rewrite Hb. simpl. rewrite E. reflexivity.
    + split; [simpl; congruence|]. intros s e i' j' [Q|Hin].
      * inversion Q; subst. exists ta, tb. auto.
      * apply Eo; assumption.
Qed.
Lemma combine_map_r {A} (f : nat -> A) : forall st, combine st (map f st) = map (fun s => (s, f s)) st.
Proof. induction st as [|x st IH]; simpl; [reflexivity|]. f_equal. assumption. Qed.

(* Evenly sampled: time[k] = t0 + k d. *)
Lemma binned_main g seg n t0 d out :
  0 < d -> well_formed g ->
  let time := map (fun k => t0 + inject_Z (Z.of_nat k) * d) (seq 0 n) in
  let nbin := Z.to_nat (rint (seg / d)) in
  (exists r, bin_intervals_from_gtis g seg time d 1 (1 # 1000) = Ok r) ->
  generate_indices_of_segment_boundaries_binned time g seg d = Ok out ->
  (0 < nbin)%nat /\
  (forall s e i j, In (s, e, (i, j)) out -> (i < j <= n)%nat /\ j = (i + nbin)%nat /\
     (exists ta, nth_error time i = Some ta /\ s == ta - d / 2) /\
     (exists a b, In (a, b) g /\ forall k, (i <= k < j)%nat -> exists t, nth_error time k = Some t /\ bin_inside t d ((1 # 1000) * d) a b) /\
     ((j < n)%nat -> e - s == inject_Z (Z.of_nat nbin) * d)) /\
  (forall p q s e i j s' e' i' j', (p < q)%nat -> nth_error out p = Some (s, e, (i, j)) ->
     nth_error out q = Some (s', e', (i', j')) -> (j <= i')%nat).
Proof.
  intros Hd W time nbin ([st en] & E) H. unfold generate_indices_of_segment_boundaries_binned in H.
  rewrite E in H. cbn [bind fst snd] in H.
  assert (Hinc : increasing time).
  { intros p q x y Hpq Hp Hq. unfold time in Hp, Hq.
    rewrite nth_error_map in Hp, Hq.
    destruct (nth_error (seq 0 n) p) as [p'|] eqn:Ep; [|discriminate]. destruct (nth_error (seq 0 n) q) as [q'|] eqn:Eq; [|discriminate].
    injection Hp as <-. injection Hq as <-.
    assert (Hp' : (p < length (seq 0 n))%nat) by (apply nth_error_Some; rewrite Ep; discriminate).
    assert (Hq' : (q < length (seq 0 n))%nat) by (apply nth_error_Some; rewrite Eq; discriminate).
    rewrite seq_length in Hp', Hq'.
    apply (nth_error_nth _ _ 0%nat) in Ep. apply (nth_error_nth _ _ 0%nat) in Eq. rewrite seq_nth in Ep, Eq by assumption.
    simpl in Ep, Eq. subst p' q'.
    assert (Hz : inject_Z (Z.of_nat p) < inject_Z (Z.of_nat q)) by (rewrite <- Zlt_Qlt; lia).
    apply (Qmult_lt_r _ _ d Hd) in Hz. lra. }
  destruct (bin_intervals_main g seg time d (1 # 1000) st en Hd) as (Hn & Hst & Hen & Hin & Hdis & _); try assumption; try lra.
  fold nbin in Hn, Hen, Hin, Hdis. split; [assumption|].
  assert (Hlen : length time = n) by (unfold time; rewrite map_length, seq_length; reflexivity).
  assert (Hnth : forall k t, nth_error time k = Some t -> (k < n)%nat /\ t = t0 + inject_Z (Z.of_nat k) * d).
  { intros k t Hk. assert (Hk' : (k < n)%nat) by (rewrite <- Hlen; apply nth_error_Some; rewrite Hk; discriminate).
    split; [assumption|]. unfold time in Hk. rewrite nth_error_map in Hk.
    destruct (nth_error (seq 0 n) k) as [k'|] eqn:Ek; [|discriminate]. injection Hk as <-.
    apply (nth_error_nth _ _ 0%nat) in Ek. rewrite seq_nth in Ek by assumption. simpl in Ek. subst k'. reflexivity. }
  assert (Hin' : forall s, In s st -> (s + nbin <= n)%nat).
  { intros s Hs. destruct (Hin s Hs) as (a & b & _ & Hk). destruct (Hk (s + nbin - 1)%nat) as (t & Ht & _); [lia|].
    apply Hnth in Ht. lia. }
  subst en. rewrite combine_map_r in H.
  assert (Nt : time <> []).
  { intros Ht. destruct st as [|s st']; [congruence|]. specialize (Hin' s (or_introl eq_refl)). rewrite Ht in Hlen. simpl in Hlen. lia. }
  destruct (binned_loop_main time d (map (fun s => (s, (s + nbin)%nat)) st) Nt) as (out' & E' & Em & Eo).
  { intros i j Hi. apply in_map_iff in Hi. destruct Hi as (s & Q & Hs). injection Q as <- <-. specialize (Hin' s Hs). lia. }
  unfold binned_loop in E'. rewrite H in E'. injection E' as <-.
  assert (Hout : forall s e i j, In (s, e, (i, j)) out -> In i st /\ j = (i + nbin)%nat).
  { intros s e i j Ho. apply (in_map snd) in Ho. rewrite Em in Ho. simpl in Ho. apply in_map_iff in Ho.
    destruct Ho as (x & Q & Hx). injection Q as <- <-. auto. }
  split.
  - intros s e i j Ho. destruct (Hout _ _ _ _ Ho) as [Hi ->]. specialize (Hin' i Hi).
    split; [lia|]. split; [reflexivity|]. destruct (Eo _ _ _ _ Ho) as (ta & tb & Ha & Hb & -> & ->).
    split; [exists ta; split; [assumption|reflexivity]|]. split; [apply Hin; assumption|].
    intros Hj. rewrite Hlen in Hb. rewrite Nat.min_l in Hb by lia. apply Hnth in Ha, Hb. destruct Ha as [_ ->], Hb as [_ ->].
    rewrite Nat2Z.inj_add, inject_Z_plus. ring.
  - intros p q s e i j s' e' i' j' Hpq Hp Hq.
    apply (map_nth_error snd) in Hp. apply (map_nth_error snd) in Hq. rewrite Em in Hp, Hq. simpl in Hp, Hq.
    rewrite nth_error_map in Hp, Hq.
    destruct (nth_error st p) as [x|] eqn:Ex; [|discriminate]. destruct (nth_error st q) as [y|] eqn:Ey; [|discriminate].
    injection Hp as <- <-. injection Hq as <- <-. apply (Hdis p q x y Hpq Ex Ey).
Qed.
Lemma binned_last : exists g seg time d s e i j out,
  good g /\ (forall k x y, nth_error time k = Some x -> nth_error time (S k) = Some y -> y - x == d) /\
  generate_indices_of_segment_boundaries_binned time g seg d = Ok out /\ In (s, e, (i, j)) out /\
  ~ e - s == seg /\ inject_Z (Z.of_nat (j - i)) * d == seg.
Proof.
  exists [(0, 4)], 2, [1 # 2; 3 # 2; 5 # 2; 7 # 2], 1. eexists. eexists. exists 2%nat, 4%nat. eexists.
  split; [apply good_dec; reflexivity|]. split.
  - intros [|[|[|[|k]]]] x y A B; inversion A; inversion B; subst; reflexivity || (destruct k; discriminate).
  - split; [vm_compute; reflexivity|]. split; [right; left; reflexivity|]. split; [|reflexivity]. vm_compute. discriminate.
Qed.
Lemma gti_boundaries_main times g out : increasing times ->
  generate_indices_of_gti_boundaries times g = Ok out ->
  map fst out = g /\
  (forall a b i j, In (a, b, (i, j)) out -> (j <= length times)%nat /\
     forall k t, nth_error times k = Some t -> ((i <= k < j)%nat <-> a <= t /\ t <= b)).
Proof.
  intros Hi H. unfold generate_indices_of_gti_boundaries in H. apply bind_ok in H. destruct H as (l & E & H).
  injection H as <-. assert (F := gti_border_bins_main g times 0 (1 # 1000) l Hi E). clear E. split.
  - induction F; simpl; [reflexivity|]. f_equal. assumption.
  - intros a b i j Hin. induction F as [|[a' b'] [i' j'] g l Hx F IH]; [destruct Hin|].
    destruct Hin as [Q|Hin]; [|auto]. inversion Q; subst. cbn [fst snd] in Hx. destruct Hx as [A B]. split; [assumption|].
    intros k t Hk. rewrite (B k t Hk). unfold bin_inside. setoid_replace (0 / 2) with 0 by reflexivity. setoid_replace ((1 # 1000) * 0) with 0 by ring.
    split; intros []; split; lra.
Qed.
