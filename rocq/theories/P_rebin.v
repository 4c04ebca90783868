(* P_rebin.v: proofs about rebin_data. *)
From Verif Require Import Np Lib S_gti S_seg S_utils M_gti M_seg M_utils P_seg_regions P_seg_cut.
From Coq Require Import Lqa Sorted.
Open Scope Q_scope.

(* Position of t clamped to the bin, as a fraction of it. *)
Definition frac (lo hi t : Q) : Q := (qmin hi (qmax lo t) - lo) / (hi - lo).
Fixpoint cum (xe y : list Q) (t : Q) : Q :=
  match xe, y with
  | lo :: ((hi :: _) as xe'), v :: y' => v * frac lo hi t + cum xe' y' t
  | _, _ => 0
  end.

Lemma overlap_frac lo hi a b : lo < hi -> a <= b -> overlap lo hi a b / (hi - lo) == frac lo hi b - frac lo hi a.
Proof.
  intros H Hab. unfold overlap, frac.
  assert (E : qmax 0 (qmin hi b - qmax lo a) == qmin hi (qmax lo b) - qmin hi (qmax lo a)).
  { destruct (qmax_cases lo a) as [ [-> Ha]|[-> Ha] ]; destruct (qmax_cases lo b) as [ [-> Hb]|[-> Hb] ];
    destruct (qmin_cases hi b) as [ [-> Hc]|[-> Hc] ]; 
    repeat match goal with
    | |- context [qmax ?u ?v] => destruct (qmax_cases u v) as [ [-> ?]|[-> ?] ]
    | |- context [qmin ?u ?v] => destruct (qmin_cases u v) as [ [-> ?]|[-> ?] ]
    end; lra. }
  rewrite E. field. lra.
Qed.

Lemma amount_cum xe : forall y a b, StronglySorted Qlt xe -> a <= b -> amount xe y a b == cum xe y b - cum xe y a.
Proof.
  induction xe as [|lo xe IH]; intros y a b Hs Hab; [simpl; lra|].
  destruct xe as [|hi xe]; [simpl; lra|]. destruct y as [|v y]; [simpl; lra|].
  inversion Hs as [|? ? Hs' HF]; subst. inversion HF; subst.
  change (amount (lo :: hi :: xe) (v :: y) a b) with (v * (overlap lo hi a b / (hi - lo)) + amount (hi :: xe) y a b).
  change (cum (lo :: hi :: xe) (v :: y) a) with (v * frac lo hi a + cum (hi :: xe) y a).
  change (cum (lo :: hi :: xe) (v :: y) b) with (v * frac lo hi b + cum (hi :: xe) y b).
  rewrite IH by assumption. rewrite overlap_frac by assumption. ring.
Qed.

Lemma old_bins_amount xe : forall (y : list Q) a b, length xe = S (length y) -> old_bins xe a b == amount xe (map (fun _ => 1) y) a b.
Proof.
  induction xe as [|lo xe IH]; intros y a b Hl; [discriminate|].
  destruct xe as [|hi xe]; [destruct y; [reflexivity|discriminate]|].
  destruct y as [|v y]; [discriminate|]. simpl in Hl.
  change (old_bins (lo :: hi :: xe) a b) with (overlap lo hi a b / (hi - lo) + old_bins (hi :: xe) a b).
  change (amount (lo :: hi :: xe) (map (fun _ => 1) (v :: y)) a b)
    with (1 * (overlap lo hi a b / (hi - lo)) + amount (hi :: xe) (map (fun _ => 1) y) a b).
  rewrite <- IH by (simpl; lia). ring.
Qed.

Lemma total_qsum y : total y = qsum y.
Proof. induction y as [|v y IH]; [reflexivity|]. simpl. rewrite IH. reflexivity. Qed.

Lemma qdiv_eq a b c : 0 < b -> a == c * b -> a / b == c.
Proof. intros H E. rewrite E. field. lra. Qed.
Lemma frac_lo lo hi t : t <= lo -> lo < hi -> frac lo hi t == 0.
Proof.
  intros H H'. unfold frac. destruct (qmax_cases lo t) as [ [-> Ha]|[-> Ha] ];
  match goal with |- context [qmin ?u ?v] => destruct (qmin_cases u v) as [ [-> ?]|[-> ?] ] end; try lra;
  apply qdiv_eq; lra.
Qed.
Lemma frac_hi lo hi t : hi <= t -> lo < hi -> frac lo hi t == 1.
Proof.
  intros H H'. unfold frac. destruct (qmax_cases lo t) as [ [-> Ha]|[-> Ha] ];
  match goal with |- context [qmin ?u ?v] => destruct (qmin_cases u v) as [ [-> ?]|[-> ?] ] end; try lra;
  apply qdiv_eq; lra.
Qed.
Lemma frac_in lo hi t : lo <= t -> t <= hi -> lo < hi -> frac lo hi t == (t - lo) / (hi - lo).
Proof.
  intros H H' Hl. unfold frac. destruct (qmax_cases lo t) as [ [-> Ha]|[-> Ha] ]; [lra|].
  match goal with |- context [qmin ?u ?v] => destruct (qmin_cases u v) as [ [-> ?]|[-> ?] ] end; [|reflexivity].
  assert (t == hi) by lra. setoid_replace t with hi by assumption. reflexivity.
Qed.

Lemma cum_lo xe : forall y t, StronglySorted Qlt xe -> (forall u, In u xe -> t <= u) -> cum xe y t == 0.
Proof.
  induction xe as [|lo xe IH]; intros y t Hs Ht; [reflexivity|].
  destruct xe as [|hi xe]; [reflexivity|]. destruct y as [|v y]; [reflexivity|].
  inversion Hs as [|? ? Hs' HF]; subst. inversion HF; subst.
  change (cum (lo :: hi :: xe) (v :: y) t) with (v * frac lo hi t + cum (hi :: xe) y t).
  rewrite IH; [|assumption|intros u Hu; apply Ht; right; assumption].
  rewrite frac_lo; [ring| |assumption]. apply Ht. left. reflexivity.
Qed.

(* cum evaluated with the index searchsorted finds. *)
Lemma cum_spec xe : forall y t, StronglySorted Qlt xe -> length xe = S (length y) ->
  (searchsorted_left xe t = 0%nat /\ cum xe y t == 0) \/
  (searchsorted_left xe t = length xe /\ cum xe y t == qsum y) \/
  (exists i lo hi v, searchsorted_left xe t = S i /\ nth_error xe i = Some lo /\ nth_error xe (S i) = Some hi /\
     nth_error y i = Some v /\ lo < t /\ t <= hi /\ cum xe y t == qsum (firstn i y) + v * ((t - lo) / (hi - lo))).
Proof.
  induction xe as [|lo xe IH]; intros y t Hs Hl; [discriminate|].
  cbn [searchsorted_left]. destruct (qlt lo t) eqn:E; qb.
  2:{ left. split; [reflexivity|]. apply cum_lo; [assumption|]. intros u [ <- | Hu]; [assumption|].
      inversion Hs as [|? ? Hs' HF]; subst. rewrite Forall_forall in HF. specialize (HF u Hu). lra. }
  right. destruct xe as [|hi xe].
  { left. destruct y; [|discriminate]. split; reflexivity. }
  destruct y as [|v y]; [discriminate|]. inversion Hs as [|? ? Hs' HF]; subst. inversion HF as [|? ? Hlh HF']; subst.
  change (cum (lo :: hi :: xe) (v :: y) t) with (v * frac lo hi t + cum (hi :: xe) y t).
  destruct (IH y t Hs' ltac:(simpl in *; lia)) as [ [E0 C]|[ [E0 C]|(i & lo' & hi' & v' & E0 & N1 & N2 & N3 & B1 & B2 & C)] ].
  - right. exists 0%nat, lo, hi, v. rewrite E0. repeat split; try reflexivity; try assumption.
    { cbn [searchsorted_left] in E0. destruct (qlt hi t) eqn:E1; [discriminate|qb; assumption]. }
    rewrite C. rewrite frac_in; [cbn [firstn qsum fold_right]; ring|lra| |assumption].
    cbn [searchsorted_left] in E0. destruct (qlt hi t) eqn:E1; [discriminate|qb; assumption].
  - left. rewrite E0. split; [reflexivity|]. rewrite C. rewrite frac_hi; [cbn [qsum fold_right]; fold (qsum y); ring| |assumption].
    cbn [searchsorted_left length] in E0. destruct (qlt hi t) eqn:E1; [qb; lra|discriminate].
  - right. exists (S i), lo', hi', v'. rewrite E0. repeat split; try assumption; try reflexivity.
    rewrite C. rewrite frac_hi; [cbn [firstn qsum fold_right]; fold (qsum (firstn i y)); ring| |assumption].
    cbn [searchsorted_left] in E0. destruct (qlt hi t) eqn:E1; [qb; lra|discriminate].
Qed.

(* ---------- one new bin ---------- *)
Lemma zget_nat {A} (l : list A) i a : nth_error l i = Some a -> zget l (Z.of_nat i) = Ok a.
Proof.
  intros H. unfold zget. replace (0 <=? Z.of_nat i)%Z with true by (symmetry; apply Z.leb_le; lia).
  rewrite Nat2Z.id. unfold get. rewrite H. reflexivity.
Qed.
Lemma zget_m1 {A} (l : list A) : l <> [] -> exists a, zget l (-1) = Ok a.
Proof.
  intros H. unfold zget. simpl (0 <=? -1)%Z. cbv iota.
  destruct l as [|b l]; [congruence|].
  replace (0 <=? -1 + Z.of_nat (length (b :: l)))%Z with true by (symmetry; apply Z.leb_le; simpl length; lia).
  unfold get. destruct (nth_error_ex (b :: l) (Z.to_nat (-1 + Z.of_nat (length (b :: l))))) as [a Ea].
  { simpl length. lia. }
  exists a. rewrite Ea. reflexivity.
Qed.
Lemma qsum_app l1 l2 : qsum (l1 ++ l2) == qsum l1 + qsum l2.
Proof. induction l1 as [|a l IH]; simpl; [ring|]. fold (qsum (l ++ l2)). rewrite IH. unfold qsum. ring. Qed.
Lemma qsum_slice y i j : (i <= j)%nat -> qsum (firstn j y) == qsum (firstn i y) + qsum (slice y i j).
Proof.
  intros H. unfold slice. replace j with (i + (j - i))%nat at 1 by lia.
  assert (E : forall (l : list Q) n m, firstn (n + m) l = firstn n l ++ firstn m (skipn n l)).
  { induction l as [|a l IH]; intros [|n] m; simpl; try reflexivity.
    - destruct m; reflexivity.
    - rewrite IH. reflexivity. }
  rewrite E, qsum_app. reflexivity.
Qed.
Lemma qsum_firstn_S y : forall i v, nth_error y i = Some v -> qsum (firstn (S i) y) == qsum (firstn i y) + v.
Proof.
  induction y as [|a y IH]; intros [|i] v H; try discriminate.
  - injection H as ->. simpl. ring.
  - cbn [nth_error] in H. cbn [firstn qsum fold_right] in *. fold (qsum (a :: firstn i y)).
    specialize (IH i v H). unfold qsum in *. rewrite IH. ring.
Qed.
Lemma zslice_nat {A} (l : list A) i j : (1 <= j)%nat -> zslice l (Z.of_nat i) (Z.of_nat j - 1) = slice l i (j - 1).
Proof.
  intros H. unfold zslice, norm_idx.
  replace (Z.of_nat i <? 0)%Z with false by (symmetry; apply Z.ltb_ge; lia).
  replace (Z.of_nat j - 1 <? 0)%Z with false by (symmetry; apply Z.ltb_ge; lia).
  rewrite Nat2Z.id. f_equal. lia.
Qed.
Lemma qsum_ones (y : list Q) : qsum (map (fun _ => 1) y) == inject_Z (Z.of_nat (length y)).
Proof.
  induction y as [|a y IH]; [reflexivity|]. cbn [map qsum fold_right length]. fold (qsum (map (fun _ : Q => 1) y)).
  rewrite IH, zof_S. ring.
Qed.
Lemma slice_map {A B} (f : A -> B) l i j : slice (map f l) i j = map f (slice l i j).
Proof.
  unfold slice. rewrite <- firstn_map. f_equal. revert i. induction l as [|a l IH]; intros [|i]; simpl; auto.
Qed.
Lemma slice_length {A} (l : list A) i j : (j <= length l)%nat -> length (slice l i j) = (j - i)%nat.
Proof. intros H. unfold slice. rewrite firstn_length, skipn_length. lia. Qed.

(* What the loop body needs to know about the two indices. *)
Lemma rebin_indices xe a b : StronglySorted Qlt xe -> widths_at_most (b - a) xe -> a < b ->
  (forall u, nth_error xe 0 = Some u -> u <= a) -> (forall u, nth_error xe (length xe - 1) = Some u -> a < u) -> xe <> [] ->
  exists e, nth_error xe (searchsorted_left xe a) = Some e /\ e < b /\ a <= e /\
            (searchsorted_left xe a < searchsorted_left xe b <= length xe)%nat.
Proof.
  intros Hs Hw Hab H0 Hl Hne.
  assert (Hinc : increasing xe) by (unfold increasing; apply (proj1 (ss_nth Qlt _)); assumption).
  assert (Hnd : nondecreasing xe) by (intros i j u v Hij Hu Hv; specialize (Hinc i j u v Hij Hu Hv); lra).
  destruct (ssl_spec xe a Hnd) as [A1 A2]. destruct (ssl_spec xe b Hnd) as [B1 B2].
  assert (Hpos : (0 < length xe)%nat) by (destruct xe; [congruence|simpl; lia]).
  assert (Hlt : (searchsorted_left xe a < length xe)%nat).
  { destruct (nth_error_ex xe (length xe - 1)) as [u Eu]; [lia|].
    specialize (Hl u Eu). destruct (Nat.lt_ge_cases (searchsorted_left xe a) (length xe)) as [H|H]; [assumption|].
    assert (u < a) by (apply (A1 _ _ Eu); lia). lra. }
  destruct (nth_error_ex xe (searchsorted_left xe a) Hlt) as [e Ee].
  assert (Hae : a <= e).
  { destruct (Qlt_le_dec e a) as [C|C]; [|assumption]. apply (A1 _ _ Ee) in C. lia. }
  assert (Heb : e < b).
  { destruct (searchsorted_left xe a) as [|i] eqn:Ei.
    - specialize (H0 e Ee). lra.
    - destruct (nth_error_ex xe i) as [d Ed]; [lia|].
      assert (d < a) by (apply (A1 _ _ Ed); lia). specialize (Hw i d e Ed Ee). lra. }
  exists e. repeat split; try assumption.
  apply (B1 _ _ Ee). assumption.
Qed.

(* The sum formed by the loop body for any array of values. *)
Lemma rebin_value xe y a b e mn mx : StronglySorted Qlt xe -> length xe = S (length y) -> a < b ->
  (forall u, nth_error xe 0 = Some u -> u <= a) ->
  mn = searchsorted_left xe a -> mx = searchsorted_left xe b -> nth_error xe mn = Some e -> (mn < mx <= length xe)%nat ->
  forall e_pr y_pr, zget xe (Z.of_nat mn - 1) = Ok e_pr -> zget y (Z.of_nat mn - 1) = Ok y_pr ->
  let base := qsum (zslice y (Z.of_nat mn) (Z.of_nat mx - 1)) + y_pr * ((e - a) / (e - e_pr)) in
  (mx = length xe -> base == amount xe y a b) /\
  (forall e_mx e_pm y_mx, zget xe (Z.of_nat mx) = Ok e_mx -> zget xe (Z.of_nat mx - 1) = Ok e_pm -> zget y (Z.of_nat mx - 1) = Ok y_mx ->
     (mx < length xe)%nat -> base + y_mx * ((b - e_pm) / (e_mx - e_pm)) == amount xe y a b).
Proof.
  intros Hs Hl Hab H0 Emn Emx Ee Hm e_pr y_pr Gp Gy base.
  assert (Hbase : base == qsum (firstn (mx - 1) y) - cum xe y a).
  { unfold base. rewrite zslice_nat by lia.
    destruct (cum_spec xe y a Hs Hl) as [ [E0 C]|[ [E0 C]|(i & lo & hi & v & E0 & N1 & N2 & N3 & B1 & B2 & C)] ].
    - rewrite C. assert (mn = 0%nat) by congruence. subst mn. rewrite E0 in *.
      specialize (H0 e Ee). rewrite (qsum_slice y 0 (mx - 1)) by lia. simpl (firstn 0 y).
      assert (a <= e).
      { destruct xe as [|u xe]; [discriminate|]. cbn [searchsorted_left] in E0. injection Ee as ->.
        destruct (qlt e a) eqn:E1; [discriminate|qb; assumption]. }
      setoid_replace (e - a) with 0 by lra. unfold Qdiv. rewrite Qmult_0_l. rewrite Qmult_0_r. cbn [qsum fold_right]. ring.
    - lia.
    - rewrite C. assert (Emn' : mn = S i) by congruence.
      replace (Z.of_nat mn - 1)%Z with (Z.of_nat i) in Gp, Gy by lia.
      rewrite (zget_nat _ _ _ N1) in Gp. rewrite (zget_nat _ _ _ N3) in Gy. injection Gp as <-. injection Gy as <-.
      rewrite Emn' in *. assert (e = hi) by congruence. subst e.
      rewrite (qsum_slice y (S i) (mx - 1)) by lia. rewrite (qsum_firstn_S y i v N3). field. lra. }
  assert (Ham : amount xe y a b == cum xe y b - cum xe y a) by (apply amount_cum; [assumption|lra]).
  rewrite Ham. split.
  - intros Hmx. rewrite Hbase. destruct (cum_spec xe y b Hs Hl) as [ [E0 C]|[ [E0 C]|(i & lo & hi & v & E0 & N1 & N2 & N3 & B1 & B2 & C)] ]; [lia| |].
    + rewrite C. replace (mx - 1)%nat with (length y) by lia. rewrite firstn_all. reflexivity.
    + assert (S i < length xe)%nat by (apply nth_error_Some; congruence). lia.
  - intros e_mx e_pm y_mx G1 G2 G3 Hmx. rewrite Hbase.
    destruct (cum_spec xe y b Hs Hl) as [ [E0 C]|[ [E0 C]|(i & lo & hi & v & E0 & N1 & N2 & N3 & B1 & B2 & C)] ]; [lia|lia|].
    assert (Emx' : mx = S i) by congruence. rewrite Emx' in *.
    replace (Z.of_nat (S i) - 1)%Z with (Z.of_nat i) in G2, G3 by lia.
    rewrite (zget_nat _ _ _ N1) in G2. rewrite (zget_nat _ _ _ N3) in G3. rewrite (zget_nat _ _ _ N2) in G1.
    injection G1 as <-. injection G2 as <-. injection G3 as <-. rewrite Ham, C.
    replace (S i - 1)%nat with i by lia. ring.
Qed.

Notation idq := (fun v : Q => v).
Definition bin_ok (xe y yerr : list Q) (a b : Q) (v : Q * Q * Q) : Prop :=
  fst (fst v) == amount xe y a b /\ snd (fst v) == amount xe yerr a b /\ snd v == old_bins xe a b.

Lemma nth_pred {A} (l : list A) i : (0 < i <= length l)%nat -> exists a, zget l (Z.of_nat i - 1) = Ok a.
Proof.
  intros H. destruct (nth_error_ex l (i - 1)) as [a Ea]; [lia|]. exists a.
  replace (Z.of_nat i - 1)%Z with (Z.of_nat (i - 1)) by lia. apply zget_nat. assumption.
Qed.
Lemma zget_pred {A} (l : list A) i : l <> [] -> (i <= length l)%nat -> exists a, zget l (Z.of_nat i - 1) = Ok a.
Proof. intros Hne H. destruct i as [|i]; [apply zget_m1; assumption|apply nth_pred; lia]. Qed.

Lemma zget_map {A B} (f : A -> B) (l : list A) i a : zget l i = Ok a -> zget (map f l) i = Ok (f a).
Proof.
  unfold zget. rewrite map_length. unfold get. rewrite !nth_error_map.
  destruct (0 <=? i)%Z; [|destruct (0 <=? i + Z.of_nat (length l))%Z; [|discriminate] ];
  match goal with |- context [nth_error l ?k] => destruct (nth_error l k) end; try discriminate;
  intros H; injection H as ->; reflexivity.
Qed.

Lemma rebin_one_main xe y yerr a b : StronglySorted Qlt xe -> length xe = S (length y) -> length yerr = length y -> y <> [] ->
  widths_at_most (b - a) xe -> a < b ->
  (forall u, nth_error xe 0 = Some u -> u <= a) -> (forall u, nth_error xe (length xe - 1) = Some u -> a < u) ->
  exists v, rebin_one idq idq xe y yerr a b = Ok v /\ bin_ok xe y yerr a b v.
Proof.
  intros Hs Hl Hle Hy Hw Hab H0 Hlast.
  assert (Hne : xe <> []) by (intros ->; discriminate).
  assert (Hye : yerr <> []) by (intros ->; destruct y; [congruence|discriminate]).
  destruct (rebin_indices xe a b Hs Hw Hab H0 Hlast Hne) as (e & Ee & Heb & Hae & Hm).
  set (mn := searchsorted_left xe a) in *. set (mx := searchsorted_left xe b) in *.
  destruct (zget_pred xe mn Hne ltac:(lia)) as [ep Ep].
  destruct (zget_pred y mn Hy ltac:(lia)) as [yp Yp].
  destruct (zget_pred yerr mn Hye ltac:(lia)) as [yep Yep].
  assert (V1 := rebin_value xe y a b e mn mx Hs Hl Hab H0 eq_refl eq_refl Ee Hm ep yp Ep Yp).
  assert (V2 := rebin_value xe yerr a b e mn mx Hs ltac:(lia) Hab H0 eq_refl eq_refl Ee Hm ep yep Ep Yep).
  assert (V3 := rebin_value xe (map (fun _ => 1) y) a b e mn mx Hs ltac:(rewrite map_length; lia) Hab H0 eq_refl eq_refl Ee Hm ep 1 Ep
                 (zget_map (fun _ => 1) _ _ _ Yp)).
  assert (S3 : qsum (zslice (map (fun _ : Q => 1) y) (Z.of_nat mn) (Z.of_nat mx - 1)) == inject_Z (Z.of_nat mx - 1 - Z.of_nat mn)).
  { rewrite zslice_nat by lia. rewrite slice_map, qsum_ones, slice_length by lia.
    replace (Z.of_nat (mx - 1 - mn)) with (Z.of_nat mx - 1 - Z.of_nat mn)%Z by lia. reflexivity. }
  cbv zeta in V1, V2, V3.
  unfold rebin_one. fold mn mx. cbv zeta. rewrite (zget_nat _ _ _ Ee). cbn [bind]. rewrite Ep. cbn [bind]. rewrite Yp, Yep. cbn [bind].
  destruct (Z.of_nat mx =? Z.of_nat (length xe))%Z eqn:E.
  - apply Z.eqb_eq in E. eexists. split; [reflexivity|]. unfold bin_ok. cbn [fst snd].
    split; [apply V1; lia|]. split; [apply V2; lia|].
    rewrite (old_bins_amount xe y) by assumption. rewrite <- (proj1 V3) by lia. rewrite S3. ring.
  - apply Z.eqb_neq in E.
    destruct (nth_error_ex xe mx) as [em Em]; [lia|]. apply zget_nat in Em.
    destruct (zget_pred xe mx Hne ltac:(lia)) as [epm Epm].
    destruct (zget_pred y mx Hy ltac:(lia)) as [ym Ym].
    destruct (zget_pred yerr mx Hye ltac:(lia)) as [yem Yem].
    rewrite Em. cbn [bind]. rewrite Epm, Ym. cbn [bind]. rewrite Yem. cbn [bind].
    eexists. split; [reflexivity|]. unfold bin_ok. cbn [fst snd].
    split; [apply V1; auto; lia|]. split; [apply V2; auto; lia|].
    rewrite (old_bins_amount xe y) by assumption.
    rewrite <- (proj2 V3 em epm 1 Em Epm (zget_map (fun _ => 1) _ _ _ Ym)) by lia. rewrite S3. ring.
Qed.

Lemma rebin_loop_main xe y yerr w n : forall xbin, StronglySorted Qlt xe -> length xe = S (length y) -> length yerr = length y -> y <> [] ->
  widths_at_most w xe -> 0 < w ->
  length xbin = S n ->
  (forall i u v, nth_error xbin i = Some u -> nth_error xbin (S i) = Some v -> v - u == w) ->
  (forall i u v, nth_error xbin i = Some v -> nth_error xe 0 = Some u -> u <= v) ->
  (forall i u v, (i < n)%nat -> nth_error xbin i = Some v -> nth_error xe (length xe - 1) = Some u -> v < u) ->
  exists out, rebin_loop idq idq xe y yerr xbin = Ok out /\ length out = n /\
    forall i a b v, nth_error xbin i = Some a -> nth_error xbin (S i) = Some b -> nth_error out i = Some v -> bin_ok xe y yerr a b v.
Proof.
  intros xbin Hs Hl Hle Hy Hw Hpos. revert n. induction xbin as [|a xbin IH]; intros n Hn Hst Hlo Hhi; [discriminate|].
  destruct xbin as [|b xbin].
  - exists []. split; [reflexivity|]. split; [simpl in *; lia|]. intros [|i] u v z _ H; discriminate.
  - destruct n as [|n]; [discriminate|].
    destruct (IH n) as (out & E & Lo & P).
    { simpl in *. lia. }
    { intros i u v. apply (Hst (S i)). }
    { intros i u v. apply (Hlo (S i)). }
    { intros i u v Hi. apply (Hhi (S i)). lia. }
    assert (Eab : b - a == w) by (apply (Hst 0%nat); reflexivity).
    destruct (rebin_one_main xe y yerr a b) as (v & Ev & Pv); try assumption.
    { intros i u z Hu Hz. rewrite Eab. apply (Hw i); assumption. }
    { lra. }
    { intros u Hu. apply (Hlo 0%nat u a); [reflexivity|assumption]. }
    { intros u Hu. apply (Hhi 0%nat u a); [lia|reflexivity|assumption]. }
    exists (v :: out).
    change (rebin_loop idq idq xe y yerr (a :: b :: xbin))
      with (let! v := rebin_one idq idq xe y yerr a b in
            let! r := rebin_loop idq idq xe y yerr (b :: xbin) in Ok (v :: r)).
    rewrite Ev. cbn [bind]. rewrite E. cbn [bind]. split; [reflexivity|]. split; [simpl; lia|].
    intros [|i] c d z Hc Hd Hz.
    + injection Hc as <-. injection Hd as <-. injection Hz as <-. assumption.
    + apply (P i); assumption.
Qed.
