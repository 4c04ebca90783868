(* P_rebin2.v: rebin_data as a whole. *)
From Verif Require Import Np Lib S_gti S_seg S_utils M_gti M_seg M_utils P_seg_regions P_seg_cut P_rebin.
From Coq Require Import Lqa Sorted.
Open Scope Q_scope.

Lemma diffs_are x : x <> [] -> are_diffs x (diffs x).
Proof.
  induction x as [|a x IH]; intros H; [congruence|].
  destruct x as [|b x]; [split; [reflexivity|]; intros [|[|i]] u v Hu Hv; discriminate|].
  change (diffs (a :: b :: x)) with ((b - a) :: diffs (b :: x)). destruct IH as [I1 I2]; [discriminate|].
  split; [simpl in *; lia|]. intros [|i] u v Hu Hv.
  - injection Hu as <-. injection Hv as <-. reflexivity.
  - apply (I2 i); assumption.
Qed.
Lemma are_diffs_fun x D D' : are_diffs x D -> are_diffs x D' -> D = D'.
Proof.
  intros [L1 H1] [L2 H2].
  assert (E : forall i, nth_error D i = nth_error D' i).
  { intros i. destruct (Nat.lt_ge_cases i (length D)) as [Hi|Hi].
    - destruct (nth_error_ex x i) as [a Ea]; [lia|]. destruct (nth_error_ex x (S i)) as [b Eb]; [lia|].
      rewrite (H1 i a b Ea Eb), (H2 i a b Ea Eb). reflexivity.
    - rewrite (proj2 (nth_error_None D i)), (proj2 (nth_error_None D' i)) by lia. reflexivity. }
  clear - E. revert D' E. induction D as [|a D IH]; intros D' E.
  - destruct D' as [|b D']; [reflexivity|]. specialize (E 0%nat). discriminate.
  - destruct D' as [|b D']; [specialize (E 0%nat); discriminate|].
    f_equal; [specialize (E 0%nat); injection E; auto|]. apply IH. intros i. apply (E (S i)).
Qed.

Lemma get_last_nth {A} (l : list A) a : nth_error l (length l - 1) = Some a -> get_last l = Ok a.
Proof.
  intros H. unfold get_last. destruct l as [|b l] using rev_ind; [discriminate|].
  rewrite rev_unit. rewrite app_length in H. simpl in H. rewrite nth_error_app2 in H by lia.
  replace (length l + 1 - 1 - length l)%nat with 0%nat in H by lia. injection H as ->. reflexivity.
Qed.
Lemma removelast_nth {A} (l : list A) : forall i, (S i < length l)%nat -> nth_error (removelast l) i = nth_error l i.
Proof.
  induction l as [|a l IH]; intros i H; [simpl in H; lia|].
  destruct l as [|b l]; [simpl in H; lia|]. change (removelast (a :: b :: l)) with (a :: removelast (b :: l)).
  destruct i as [|i]; [reflexivity|]. cbn [nth_error]. apply IH. simpl in *. lia.
Qed.
Lemma removelast_length {A} (l : list A) : length (removelast l) = (length l - 1)%nat.
Proof.
  induction l as [|a l IH]; [reflexivity|]. destruct l as [|b l]; [reflexivity|].
  change (removelast (a :: b :: l)) with (a :: removelast (b :: l)). simpl length in *. lia.
Qed.
Lemma removelast_map {A B} (f : A -> B) l : removelast (map f l) = map f (removelast l).
Proof.
  induction l as [|a l IH]; [reflexivity|]. destruct l as [|b l]; [reflexivity|].
  change (removelast (a :: b :: l)) with (a :: removelast (b :: l)).
  change (map f (a :: removelast (b :: l))) with (f a :: map f (removelast (b :: l))).
  rewrite <- IH. reflexivity.
Qed.

Lemma edges_sorted x xl dl : increasing x -> nth_error x (length x - 1) = Some xl -> 0 < dl -> StronglySorted Qlt (x ++ [xl + dl]).
Proof.
  intros Hi Hl Hd. apply ss_nth. intros i j u v Hij Hu Hv.
  assert (Hne : (0 < length x)%nat) by (destruct x; [discriminate|simpl; lia]).
  assert (Hi' : (i < length x)%nat).
  { assert (j < length (x ++ [(xl + dl)%Q]))%nat by (apply nth_error_Some; congruence). rewrite app_length in H. simpl in H. lia. }
  rewrite nth_error_app1 in Hu by assumption.
  destruct (Nat.lt_ge_cases j (length x)) as [Hj|Hj].
  - rewrite nth_error_app1 in Hv by assumption. apply (Hi i j); assumption.
  - rewrite nth_error_app2 in Hv by assumption.
    destruct (j - length x)%nat as [|m]; [|destruct m; discriminate]. injection Hv as <-.
    destruct (Nat.eq_dec i (length x - 1)) as [E|E].
    + rewrite E in Hu. assert (u = xl) by congruence. subst. lra.
    + assert (u < xl) by (apply (Hi i (length x - 1)%nat); [lia|assumption|assumption]). lra.
Qed.
Lemma edges_widths x xl dl w : nth_error x (length x - 1) = Some xl -> dl <= w -> widths_at_most w x -> widths_at_most w (x ++ [xl + dl]).
Proof.
  intros Hl Hd Hw i u v Hu Hv.
  assert (Hne : (0 < length x)%nat) by (destruct x; [discriminate|simpl; lia]).
  assert (Hi' : (S i < length (x ++ [(xl + dl)%Q]))%nat) by (apply nth_error_Some; congruence).
  rewrite app_length in Hi'. simpl in Hi'. rewrite nth_error_app1 in Hu by lia.
  destruct (Nat.lt_ge_cases (S i) (length x)) as [Hj|Hj].
  - rewrite nth_error_app1 in Hv by assumption. apply (Hw i); assumption.
  - rewrite nth_error_app2 in Hv by assumption. replace (S i - length x)%nat with 0%nat in Hv by lia.
    injection Hv as <-. replace i with (length x - 1)%nat in Hu by lia. assert (u = xl) by congruence. subst. lra.
Qed.

Definition method_of (average : bool) : rebin_method := if average then MMean else MSum.
Definition errors_of (y : list Q) (yerr : option (list Q)) : list Q := match yerr with Some l => l | None => map (fun _ => 0) y end.
(* The widths of the old bins according to the arguments. *)
Definition widths_of (x : list Q) (dx : dx_arg) (D : list Q) : Prop :=
  match dx with
  | DxNone => are_diffs x D
  | DxScalar d => (d == 0 /\ are_diffs x D) \/ (~ d == 0 /\ D = [d])
  | DxArray l => D = l
  end.
Lemma widths_of_code x dx D : x <> [] -> widths_of x dx D -> dx_old_of x dx = D.
Proof.
  intros Hx H. unfold dx_old_of, widths_of in *. destruct dx as [|d|l].
  - apply (are_diffs_fun x); [apply diffs_are|]; assumption.
  - destruct (qeq d 0) eqn:E; qb; destruct H as [ [H1 H2]|[H1 H2] ]; try contradiction.
    + apply (are_diffs_fun x); [apply diffs_are|]; assumption.
    + congruence.
  - congruence.
Qed.

Lemma rebin_main x y dxn yerr (average : bool) dx D x0 xl d0 dl k :
  increasing x -> length y = length x -> length (errors_of y yerr) = length y ->
  widths_of x dx D -> (forall d, In d D -> d <= dxn) -> widths_at_most dxn x -> 0 < dxn -> 0 < dl ->
  nth_error x 0 = Some x0 -> nth_error x (length x - 1) = Some xl ->
  nth_error D 0 = Some d0 -> nth_error D (length D - 1) = Some dl ->
  (0 < k)%nat -> inject_Z (Z.of_nat k) * dxn <= xl + dl - x0 -> xl + dl - x0 < inject_Z (Z.of_nat k + 1) * dxn ->
  let xe := x ++ [xl + dl] in
  let lo i := x0 + inject_Z (Z.of_nat i) * dxn in
  exists out, rebin_data idq idq x y dxn yerr (method_of average) dx = Ok out /\
    length (r_x out) = k /\ length (r_y out) = k /\ length (r_err2 out) = k /\
    (forall i, (i < k)%nat -> exists xm v e, nth_error (r_x out) i = Some xm /\ nth_error (r_y out) i = Some v /\
       nth_error (r_err2 out) i = Some e /\ xm == lo i - d0 / 2 + dxn / 2 /\
       let n := old_bins xe (lo i) (lo (S i)) in
       v == (if average then amount xe y (lo i) (lo (S i)) / n else amount xe y (lo i) (lo (S i))) /\
       e == (if average then amount xe (errors_of y yerr) (lo i) (lo (S i)) / (n * n)
             else amount xe (errors_of y yerr) (lo i) (lo (S i)))) /\
    match r_step out with
    | StepScalar s => s == old_bins xe (lo 0%nat) (lo 1%nat)
    | StepArray l => length l = k /\ forall i s, nth_error l i = Some s -> s == old_bins xe (lo i) (lo (S i))
    end /\
    (length D = 1%nat -> exists s, r_step out = StepScalar s).
Proof.
  intros Hx Hy Hye HD HDw Hw Hpos Hdl Hx0 Hxl Hd0 HdL Hk Hk1 Hk2 xe lo.
  assert (Hxne : x <> []) by (intros ->; discriminate).
  assert (Hyne : y <> []) by (intros ->; destruct x; [congruence|discriminate]).
  assert (Hdl2 : dl <= dxn) by (apply HDw; apply nth_error_In with (n := (length D - 1)%nat); assumption).
  assert (Hs : StronglySorted Qlt xe) by (apply edges_sorted; assumption).
  assert (Hwe : widths_at_most dxn xe) by (apply edges_widths; assumption).
  assert (Hle : length xe = S (length y)) by (unfold xe; rewrite app_length; simpl; lia).
  set (N := arange_len x0 (xl + dl + dxn) dxn).
  assert (HN : forall i, (i < N)%nat <-> inject_Z (Z.of_nat i) * dxn < xl + dl - x0 + dxn).
  { intros i. unfold N. rewrite arange_len_spec by assumption. split; intros; lra. }
  assert (K1 : inject_Z (Z.of_nat k + 1) == inject_Z (Z.of_nat k) + 1) by (rewrite inject_Z_plus; reflexivity).
  rewrite K1 in Hk2.
  assert (HNk : (k < N)%nat) by (apply HN; lra).
  assert (HNk2 : (N <= k + 2)%nat).
  { destruct (Nat.le_gt_cases N (k + 2)) as [H|H]; [assumption|].
    apply (proj1 (HN _)) in H. rewrite Nat2Z.inj_add, inject_Z_plus in H. change (inject_Z (Z.of_nat 2)) with 2 in H. lra. }
  set (r := (xl - x0 + dl) / dxn).
  assert (Hr : r * dxn == xl - x0 + dl) by (apply qdiv_mul; assumption).
  assert (Hfl : Qfloor r = Z.of_nat k).
  { assert (F1 := Qfloor_le r). assert (F2 := Qlt_floor r).
    assert (A1 : inject_Z (Z.of_nat k) <= r) by (unfold r; apply Qle_shift_div_l; lra).
    assert (A2 : r < inject_Z (Z.of_nat k + 1)) by (rewrite K1; unfold r; apply Qlt_shift_div_r; lra).
    assert (B1 : inject_Z (Z.of_nat k) < inject_Z (Qfloor r + 1)) by lra.
    assert (B2 : inject_Z (Qfloor r) < inject_Z (Z.of_nat k + 1)) by lra.
    rewrite <- Zlt_Qlt in B1, B2. lia. }
  assert (Hdrop : qlt 0 (r - inject_Z (Qfloor r)) = negb (Nat.eqb N (k + 1))).
  { rewrite Hfl. destruct (qlt 0 (r - inject_Z (Z.of_nat k))) eqn:E; qb.
    - symmetry. apply negb_true_iff. apply Nat.eqb_neq.
      assert (inject_Z (Z.of_nat k) < r) by lra.
      assert (H2 : inject_Z (Z.of_nat k) * dxn < r * dxn) by (apply Qmult_lt_r; assumption).
      assert (k + 1 < N)%nat; [|lia]. apply HN. rewrite Nat2Z.inj_add, inject_Z_plus. change (inject_Z (Z.of_nat 1)) with 1. lra.
    - symmetry. apply negb_false_iff. apply Nat.eqb_eq.
      assert (H2 : r * dxn <= inject_Z (Z.of_nat k) * dxn) by (apply Qmult_le_compat_r; lra).
      assert (~ (k + 1 < N)%nat); [|lia]. intros C. apply HN in C. rewrite Nat2Z.inj_add, inject_Z_plus in C.
      change (inject_Z (Z.of_nat 1)) with 1 in C. lra. }
  (* the loop *)
  destruct (rebin_loop_main xe y (errors_of y yerr) dxn (N - 1) (arange x0 (xl + dl + dxn) dxn)) as (out & Eo & Lo & Po); try assumption.
  { unfold arange. rewrite map_length, seq_length. fold N. lia. }
  { intros i u v Hu Hv. apply nth_arange in Hu; [|assumption]. apply nth_arange in Hv; [|assumption].
    destruct Hu as [-> _]. destruct Hv as [-> _]. rewrite zof_S. ring. }
  { intros i u v Hv Hu. apply nth_arange in Hv; [|assumption]. destruct Hv as [-> _].
    unfold xe in Hu. rewrite nth_error_app1 in Hu by (destruct x; [congruence|simpl; lia]).
    assert (u = x0) by congruence. subst u.
    assert (0 <= inject_Z (Z.of_nat i) * dxn) by (apply Qmult_le_0_compat; [apply zof_0|lra]). lra. }
  { intros i u v Hi Hv Hu. apply nth_arange in Hv; [|assumption]. destruct Hv as [-> Hv].
    unfold xe in Hu. rewrite app_length in Hu. simpl in Hu. rewrite nth_error_app2 in Hu by lia.
    replace (length x + 1 - 1 - length x)%nat with 0%nat in Hu by lia. injection Hu as <-.
    assert (H : (S i < N)%nat) by lia. apply HN in H. rewrite zof_S in H. lra. }
  assert (Hnth : forall i v, (i < N - 1)%nat -> nth_error out i = Some v -> bin_ok xe y (errors_of y yerr) (lo i) (lo (S i)) v).
  { intros i v Hi Hv. apply (Po i); [| |assumption]; unfold arange; rewrite nth_error_map; fold N.
    - rewrite (nth_error_nth' _ 0%nat) by (rewrite seq_length; lia). rewrite seq_nth by lia. reflexivity.
    - rewrite (nth_error_nth' _ 0%nat) by (rewrite seq_length; lia). rewrite seq_nth by lia. reflexivity. }
  (* final lists *)
  set (keep := if negb (Nat.eqb N (k + 1)) then removelast out else out).
  assert (Lk : length keep = k).
  { unfold keep. destruct (Nat.eqb N (k + 1)) eqn:E; simpl.
    - apply Nat.eqb_eq in E. lia.
    - apply Nat.eqb_neq in E. rewrite removelast_length. lia. }
  assert (Nk : forall i v, nth_error keep i = Some v -> bin_ok xe y (errors_of y yerr) (lo i) (lo (S i)) v).
  { intros i v Hv. assert (Hi : (i < k)%nat) by (rewrite <- Lk; apply nth_error_Some; congruence).
    apply Hnth; [lia|]. unfold keep in Hv. destruct (Nat.eqb N (k + 1)) eqn:E; simpl in Hv; [assumption|].
    apply Nat.eqb_neq in E. rewrite removelast_nth in Hv by lia. assumption. }
  set (fy := fun v : Q * Q * Q => let '(o, oe, s) := v in if average then (o / s, oe / (s * s)) else (o, oe)).
  set (step := if (Nat.eqb (length D) 1 || qlt (variance D / mean D) (1 # 1000000))%bool then
                 match map snd keep with s :: _ => StepScalar s | [] => StepArray [] end else StepArray (map snd keep)).
  exists {| r_x := map (fun i => inject_Z (Z.of_nat i) * dxn + (x0 - (1 # 2) * d0 + (1 # 2) * dxn)) (seq 0 k);
            r_y := map fst (map fy keep); r_err2 := map snd (map fy keep); r_step := step |}.
  assert (Hne : exists v rest, keep = v :: rest) by (destruct keep as [|v rest]; [simpl in Lk; lia|eauto]).
  split; [|split; [|split; [|split; [|split; [|split] ] ] ] ].
  - unfold rebin_data. fold (errors_of y yerr). rewrite (widths_of_code x dx D Hxne HD).
    replace (existsb (fun d => qlt dxn d) D) with false.
    2:{ symmetry. apply not_true_iff_false. intros C. apply existsb_exists in C. destruct C as (d & Hd & C). qb.
        specialize (HDw d Hd). lra. }
    rewrite (get_last_nth _ _ Hxl), (get_last_nth _ _ HdL). unfold get at 1 2. rewrite Hx0, Hd0. cbn [bind].
    unfold get at 1 2. destruct (nth_error_ex y 0) as [y0 Ey0]; [destruct y; [congruence|simpl; lia]|].
    destruct (nth_error_ex (errors_of y yerr) 0) as [ye0 Eye0]; [rewrite Hye; destruct y; [congruence|simpl; lia]|].
    rewrite Ey0, Eye0. cbn [bind]. fold xe. rewrite Eo. cbn [bind].
    assert (Em : match method_of average with
       | MMean => Ok (map (fun v : Q * Q * Q => let '(o, oe, s) := v in (o / s, oe / (s * s))) out)
       | MSum => Ok (map (fun v : Q * Q * Q => let '(o, oe, _) := v in (o, oe)) out)
       | MOther => Err ValueError end = Ok (map fy out)) by (unfold fy; destruct average; reflexivity).
    rewrite Em. cbn [bind]. fold r. rewrite Hdrop.
    assert (E1 : (if negb (N =? k + 1)%nat then removelast (map fy out) else map fy out) = map fy keep)
      by (unfold keep; destruct (negb (N =? k + 1)%nat); [apply removelast_map|reflexivity]).
    assert (E2 : (if negb (N =? k + 1)%nat then removelast (map snd out) else map snd out) = map snd keep)
      by (unfold keep; destruct (negb (N =? k + 1)%nat); [apply removelast_map|reflexivity]).
    rewrite E1, E2. rewrite map_length, Lk. unfold step. destruct Hne as (v & rest & Hne).
    destruct ((length D =? 1)%nat || qlt (variance D / mean D) (1 # 1000000))%bool; [|reflexivity].
    unfold get. rewrite Hne. reflexivity.
  - cbn [r_x]. rewrite map_length, seq_length. reflexivity.
  - cbn [r_y]. rewrite !map_length. assumption.
  - cbn [r_err2]. rewrite !map_length. assumption.
  - intros i Hi. cbn [r_x r_y r_err2]. destruct (nth_error_ex keep i) as [v Ev]; [lia|].
    exists (inject_Z (Z.of_nat i) * dxn + (x0 - (1 # 2) * d0 + (1 # 2) * dxn)), (fst (fy v)), (snd (fy v)).
    split; [rewrite nth_error_map, (nth_error_nth' _ 0%nat) by (rewrite seq_length; lia); rewrite seq_nth by lia; reflexivity|].
    split; [rewrite !nth_error_map, Ev; reflexivity|]. split; [rewrite !nth_error_map, Ev; reflexivity|].
    split; [unfold lo; field|]. destruct (Nk i v Ev) as (P1 & P2 & P3). destruct v as [ [o oe] s]. cbn [fst snd] in *. unfold fy.
    destruct average; cbn [fst snd]; [rewrite P1, P2, P3|]; split; try reflexivity; assumption.
  - cbn [r_step]. unfold step. destruct ((length D =? 1)%nat || qlt (variance D / mean D) (1 # 1000000))%bool.
    + destruct Hne as (v & rest & Hne). rewrite Hne. cbn [map]. apply (Nk 0%nat v). rewrite Hne. reflexivity.
    + split; [rewrite map_length; assumption|]. intros i s His. rewrite nth_error_map in His.
      destruct (nth_error keep i) as [v|] eqn:Ev; [|discriminate]. injection His as <-. apply (Nk i v Ev).
  - intros HD1. cbn [r_step]. unfold step. rewrite HD1. simpl. destruct Hne as (v & rest & ->). eexists. reflexivity.
Qed.

(* ---------- conservation ---------- *)
Lemma telescope (f : nat -> Q) : forall l, (forall i v, nth_error l i = Some v -> v == f (S i) - f i) -> total l == f (length l) - f 0%nat.
Proof.
  intros l. revert f. induction l as [|a l IH]; intros f H; [simpl; ring|].
  change (total (a :: l)) with (a + total l).
  assert (E : total l == f (S (length l)) - f 1%nat) by (apply (IH (fun i => f (S i))); intros i v Hv; apply (H (S i)); assumption).
  assert (E0 := H 0%nat a eq_refl). simpl length. lra.
Qed.
Lemma cum_all xe y b : StronglySorted Qlt xe -> length xe = S (length y) -> (forall u, nth_error xe (length xe - 1) = Some u -> u <= b) ->
  cum xe y b == total y.
Proof.
  intros Hs Hl Hb. rewrite total_qsum.
  assert (Hinc : increasing xe) by (unfold increasing; apply (proj1 (ss_nth Qlt _)); assumption).
  destruct (nth_error_ex xe (length xe - 1)) as [l El]; [lia|]. specialize (Hb l El).
  destruct (cum_spec xe y b Hs Hl) as [ [E0 C]|[ [E0 C]|(i & lo & hi & v & E0 & N1 & N2 & N3 & B1 & B2 & C)] ].
  - destruct xe as [|u xe]; [discriminate|]. cbn [searchsorted_left] in E0. destruct (qlt u b) eqn:E; [discriminate|]. qb.
    destruct xe as [|v xe].
    + destruct y; [|discriminate]. rewrite C. reflexivity.
    + assert (u < l) by (apply (Hinc 0%nat (length (u :: v :: xe) - 1)%nat); [simpl; lia|reflexivity|assumption]). lra.
  - assumption.
  - rewrite C. assert (Hi : (S i < length xe)%nat) by (apply nth_error_Some; congruence).
    assert (Hlast : (S i = length xe - 1)%nat).
    { destruct (Nat.eq_dec (S i) (length xe - 1)) as [e|e]; [assumption|].
      assert (hi < l) by (apply (Hinc (S i) (length xe - 1)%nat); [lia|assumption|assumption]). lra. }
    assert (hi = l) by (rewrite Hlast in N2; congruence). subst l. assert (Eb : b == hi) by lra.
    rewrite <- (firstn_all y) at 2. replace (length y) with (S i) by lia. rewrite (qsum_firstn_S y i v N3).
    rewrite Eb. field. lra.
Qed.
Lemma cum_none xe y a : StronglySorted Qlt xe -> (forall u, nth_error xe 0 = Some u -> a <= u) -> cum xe y a == 0.
Proof.
  intros Hs Ha. apply cum_lo; [assumption|]. intros u Hu. destruct xe as [|v xe]; [destruct Hu|].
  specialize (Ha v eq_refl). destruct Hu as [ <- | Hu]; [assumption|]. inversion Hs as [|? ? _ HF]; subst.
  rewrite Forall_forall in HF. specialize (HF u Hu). lra.
Qed.

Lemma rebin_conserves x y dxn yerr dx D x0 xl d0 dl k out :
  increasing x -> length y = length x -> length (errors_of y yerr) = length y ->
  widths_of x dx D -> (forall d, In d D -> d <= dxn) -> widths_at_most dxn x -> 0 < dxn -> 0 < dl ->
  nth_error x 0 = Some x0 -> nth_error x (length x - 1) = Some xl ->
  nth_error D 0 = Some d0 -> nth_error D (length D - 1) = Some dl ->
  (0 < k)%nat -> inject_Z (Z.of_nat k) * dxn <= xl + dl - x0 -> xl + dl - x0 < inject_Z (Z.of_nat k + 1) * dxn ->
  rebin_data idq idq x y dxn yerr MSum dx = Ok out ->
  total (r_y out) == amount (x ++ [xl + dl]) y x0 (x0 + inject_Z (Z.of_nat k) * dxn) /\
  (inject_Z (Z.of_nat k) * dxn == xl + dl - x0 -> total (r_y out) == total y).
Proof.
  intros Hx Hy Hye HD HDw Hw Hpos Hdl Hx0 Hxl Hd0 HdL Hk Hk1 Hk2 E.
  destruct (rebin_main x y dxn yerr false dx D x0 xl d0 dl k) as (out' & E' & _ & Ly & _ & P & _); try assumption.
  change (method_of false) with MSum in E'. assert (out' = out) by congruence. subst out'.
  set (xe := x ++ [xl + dl]) in *.
  assert (Hs : StronglySorted Qlt xe) by (apply edges_sorted; assumption).
  assert (Hle : length xe = S (length y)) by (unfold xe; rewrite app_length; simpl; lia).
  assert (T : total (r_y out) == amount xe y x0 (x0 + inject_Z (Z.of_nat k) * dxn)).
  { assert (Hb : 0 <= inject_Z (Z.of_nat k) * dxn) by (apply Qmult_le_0_compat; [apply zof_0|lra]).
    rewrite amount_cum by (try assumption; lra).
    assert (Htel : total (r_y out) == cum xe y (x0 + inject_Z (Z.of_nat (length (r_y out))) * dxn) - cum xe y (x0 + inject_Z (Z.of_nat 0) * dxn)).
    { apply (telescope (fun i => cum xe y (x0 + inject_Z (Z.of_nat i) * dxn))).
      intros i v Hv. assert (Hi : (i < k)%nat) by (rewrite <- Ly; apply nth_error_Some; congruence).
      destruct (P i Hi) as (xm & v' & e & _ & Hv' & _ & _ & Pv & _). assert (v' = v) by congruence. subst v'.
      rewrite Pv. apply amount_cum; [assumption|]. rewrite zof_S. lra. }
    rewrite Htel, Ly. change (inject_Z (Z.of_nat 0)) with 0.
    assert (Z0 : forall a, a == x0 -> cum xe y a == 0).
    { intros a Ha. apply cum_none; [assumption|]. intros u Hu.
      unfold xe in Hu. rewrite nth_error_app1 in Hu by (destruct x; [discriminate|simpl; lia]).
      assert (u = x0) by congruence. subst. lra. }
    rewrite (Z0 x0), (Z0 (x0 + 0 * dxn)); [reflexivity|ring|reflexivity]. }
  split; [assumption|]. intros HL. rewrite T. rewrite amount_cum; [|assumption|].
  2:{ assert (0 <= inject_Z (Z.of_nat k) * dxn) by (apply Qmult_le_0_compat; [apply zof_0|lra]). lra. }
  rewrite (cum_none xe y x0), (cum_all xe y); [ring|assumption|assumption| |assumption|].
  - intros u Hu. unfold xe in Hu. rewrite app_length in Hu. simpl in Hu. rewrite nth_error_app2 in Hu by lia.
    replace (length x + 1 - 1 - length x)%nat with 0%nat in Hu by lia. injection Hu as <-. lra.
  - intros u Hu. unfold xe in Hu. rewrite nth_error_app1 in Hu by (destruct x; [discriminate|simpl; lia]).
    assert (u = x0) by congruence. subst. lra.
Qed.

(* ---------- evenly spaced data ---------- *)
Definition evenly (x0 d : Q) (x : list Q) : Prop := forall i a, nth_error x i = Some a -> a == x0 + inject_Z (Z.of_nat i) * d.

Lemma cum_edge xe y j t u : StronglySorted Qlt xe -> length xe = S (length y) -> nth_error xe j = Some u -> t == u ->
  cum xe y t == total (firstn j y).
Proof.
  intros Hs Hl Hu Ht.
  assert (Hinc : increasing xe) by (unfold increasing; apply (proj1 (ss_nth Qlt _)); assumption).
  assert (Hnd : nondecreasing xe) by (intros i i' a b Hij Ha Hb; specialize (Hinc i i' a b Hij Ha Hb); lra).
  assert (Hss : searchsorted_left xe t = j).
  { destruct (ssl_spec xe t Hnd) as [A1 A2].
    assert (Hj : (j < length xe)%nat) by (apply nth_error_Some; congruence).
    destruct (Nat.lt_trichotomy (searchsorted_left xe t) j) as [H|[H|H] ]; [|assumption|].
    - destruct (nth_error_ex xe (searchsorted_left xe t)) as [a Ea]; [lia|].
      assert (a < u) by (apply (Hinc _ j _ _ H Ea Hu)). assert (a < t) by lra. apply (A1 _ _ Ea) in H1. lia.
    - apply (A1 _ _ Hu) in H. lra. }
  rewrite total_qsum.
  destruct (cum_spec xe y t Hs Hl) as [ [E0 C]|[ [E0 C]|(i & lo & hi & v & E0 & N1 & N2 & N3 & B1 & B2 & C)] ].
  - rewrite C. replace j with 0%nat by congruence. reflexivity.
  - assert (Hj : (j < length xe)%nat) by (apply nth_error_Some; congruence). lia.
  - rewrite C. replace j with (S i) by congruence. rewrite (qsum_firstn_S y i v N3).
    assert (hi = u) by (rewrite <- Hss, E0 in Hu; congruence). subst hi. rewrite Ht. field. lra.
Qed.
Lemma evenly_edges x x0 d xl dl : evenly x0 d x -> nth_error x (length x - 1) = Some xl -> dl == d -> evenly x0 d (x ++ [xl + dl]).
Proof.
  intros He Hl Hd i a Ha.
  assert (Hne : (0 < length x)%nat) by (destruct x; [discriminate|simpl; lia]).
  destruct (Nat.lt_ge_cases i (length x)) as [Hi|Hi].
  - rewrite nth_error_app1 in Ha by assumption. apply He. assumption.
  - rewrite nth_error_app2 in Ha by assumption. destruct (i - length x)%nat as [|m] eqn:E; [|destruct m; discriminate].
    injection Ha as <-. rewrite (He _ _ Hl), Hd. replace i with (S (length x - 1)) by lia. rewrite zof_S. ring.
Qed.

Lemma even_amount xe y x0 d m i a b : StronglySorted Qlt xe -> length xe = S (length y) -> evenly x0 d xe ->
  a == x0 + inject_Z (Z.of_nat (i * m)) * d -> b == x0 + inject_Z (Z.of_nat (S i * m)) * d -> a <= b ->
  (S i * m <= length y)%nat -> amount xe y a b == total (slice y (i * m) (S i * m)).
Proof.
  intros Hs Hl He Ha Hb Hab Hi. rewrite amount_cum by assumption.
  destruct (nth_error_ex xe (i * m)) as [u Eu]; [simpl in *; lia|]. destruct (nth_error_ex xe (S i * m)) as [v Ev]; [lia|].
  rewrite (cum_edge xe y (i * m) a u Hs Hl Eu) by (rewrite (He _ _ Eu); assumption).
  rewrite (cum_edge xe y (S i * m) b v Hs Hl Ev) by (rewrite (He _ _ Ev); assumption).
  rewrite (total_qsum (firstn (i * m) y)), (total_qsum (firstn (S i * m) y)), (total_qsum (slice y _ _)). rewrite (qsum_slice y (i * m) (S i * m)) by (simpl; lia). ring.
Qed.

Lemma slice_ones (y : list Q) i j : (j <= length y)%nat -> total (slice (map (fun _ => 1) y) i j) == inject_Z (Z.of_nat (j - i)).
Proof. intros H. rewrite slice_map, total_qsum, qsum_ones, slice_length by assumption. reflexivity. Qed.

(* Integer factor m: every new bin holds m old ones. *)
Lemma rebin_integer_factor x y d m yerr (average : bool) dx D x0 xl dl k :
  evenly x0 d x -> 0 < d -> length y = length x -> length (errors_of y yerr) = length y ->
  widths_of x dx D -> (forall e, In e D -> e == d) -> nth_error D (length D - 1) = Some dl ->
  nth_error x 0 = Some x0 -> nth_error x (length x - 1) = Some xl ->
  (0 < m)%nat -> (0 < k)%nat -> (k * m <= length x < (k + 1) * m)%nat ->
  exists out, rebin_data idq idq x y (inject_Z (Z.of_nat m) * d) yerr (method_of average) dx = Ok out /\
    length (r_y out) = k /\
    (forall i, (i < k)%nat -> exists v e, nth_error (r_y out) i = Some v /\ nth_error (r_err2 out) i = Some e /\
       let mq := inject_Z (Z.of_nat m) in
       v == (if average then total (slice y (i * m) (S i * m)) / mq else total (slice y (i * m) (S i * m))) /\
       e == (if average then total (slice (errors_of y yerr) (i * m) (S i * m)) / (mq * mq)
             else total (slice (errors_of y yerr) (i * m) (S i * m)))) /\
    match r_step out with
    | StepScalar s => s == inject_Z (Z.of_nat m)
    | StepArray l => forall s, In s l -> s == inject_Z (Z.of_nat m)
    end /\
    (length x = (k * m)%nat -> average = false -> total (r_y out) == total y).
Proof.
  intros He Hd Hy Hye HD HDd HdL Hx0 Hxl Hm Hk Hkm.
  set (dxn := inject_Z (Z.of_nat m) * d).
  assert (Hm1 : 1 <= inject_Z (Z.of_nat m)) by (assert (H := zof_lt 0 m Hm); change (inject_Z (Z.of_nat 0)) with 0 in H; lra).
  assert (Hdx : d <= dxn) by (unfold dxn; setoid_replace d with (1 * d) at 1 by ring; apply Qmult_le_compat_r; lra).
  assert (Hpos : 0 < dxn) by lra.
  assert (Hdl : dl == d) by (apply HDd; apply nth_error_In with (n := (length D - 1)%nat); assumption).
  assert (Hinc : increasing x).
  { intros i j u v Hij Hu Hv. rewrite (He _ _ Hu), (He _ _ Hv). assert (Hz := zof_lt i j Hij).
    assert ((inject_Z (Z.of_nat i) + 1) * d <= inject_Z (Z.of_nat j) * d) by (apply Qmult_le_compat_r; lra). lra. }
  assert (Hw : widths_at_most dxn x).
  { intros i u v Hu Hv. rewrite (He _ _ Hu), (He _ _ Hv), zof_S. lra. }
  assert (Hxe : (0 < length x)%nat) by (destruct x; [discriminate|simpl; lia]).
  assert (HL : xl + dl - x0 == inject_Z (Z.of_nat (length x)) * d).
  { rewrite (He _ _ Hxl), Hdl. replace (length x) with (S (length x - 1)) at 2 by lia. rewrite zof_S. ring. }
  assert (Hprod : forall n p, inject_Z (Z.of_nat (n * p)) == inject_Z (Z.of_nat n) * inject_Z (Z.of_nat p)).
  { intros n p. rewrite Nat2Z.inj_mul, inject_Z_mult. reflexivity. }
  assert (Hk1 : inject_Z (Z.of_nat k) * dxn <= xl + dl - x0).
  { rewrite HL. unfold dxn. rewrite Qmult_assoc, <- Hprod. apply Qmult_le_compat_r; [apply zof_le; lia|lra]. }
  assert (Hk2 : xl + dl - x0 < inject_Z (Z.of_nat k + 1) * dxn).
  { rewrite HL. unfold dxn. replace (Z.of_nat k + 1)%Z with (Z.of_nat (k + 1)) by lia.
    rewrite Qmult_assoc, <- Hprod. apply Qmult_lt_r; [assumption|]. assert (Hz := zof_lt _ _ (proj2 Hkm)). lra. }
  assert (HDw : forall e, In e D -> e <= dxn) by (intros e Hin; rewrite (HDd e Hin); assumption).
  destruct (nth_error_ex D 0) as [d0 Hd0]; [destruct D; [discriminate|simpl; lia]|].
  destruct (rebin_main x y dxn yerr average dx D x0 xl d0 dl k) as (out & E & Lx & Ly & Le & P & Pst & _); try assumption.
  { lra. }
  exists out. split; [assumption|]. split; [assumption|].
  set (xe := x ++ [xl + dl]) in *.
  assert (Hs : StronglySorted Qlt xe) by (apply edges_sorted; [assumption|assumption|lra]).
  assert (Hle : length xe = S (length y)) by (unfold xe; rewrite app_length; simpl; lia).
  assert (Hev : evenly x0 d xe) by (apply evenly_edges; assumption).
  assert (Hlo : forall i, x0 + inject_Z (Z.of_nat i) * dxn == x0 + inject_Z (Z.of_nat (i * m)) * d)
    by (intros i; rewrite Hprod; unfold dxn; ring).
  assert (Ham : forall z i, length z = length y -> (i < k)%nat ->
      amount xe z (x0 + inject_Z (Z.of_nat i) * dxn) (x0 + inject_Z (Z.of_nat (S i)) * dxn) == total (slice z (i * m) (S i * m))).
  { intros z i Hz Hi. apply (even_amount xe z x0 d m i); try assumption; try apply Hlo; try lia.
    - rewrite zof_S. lra.
    - rewrite Hz, Hy. assert (S i * m <= k * m)%nat by (apply Nat.mul_le_mono_r; lia). lia. }
  assert (Hob : forall i, (i < k)%nat -> old_bins xe (x0 + inject_Z (Z.of_nat i) * dxn) (x0 + inject_Z (Z.of_nat (S i)) * dxn) == inject_Z (Z.of_nat m)).
  { intros i Hi. rewrite (old_bins_amount xe y) by assumption. rewrite Ham; [|apply map_length|assumption].
    assert (S i * m <= k * m)%nat by (apply Nat.mul_le_mono_r; lia).
    rewrite slice_ones by lia. replace (S i * m - i * m)%nat with m by (simpl; lia). reflexivity. }
  split; [|split].
  - intros i Hi. destruct (P i Hi) as (xm & v & e & _ & Hv & He' & _ & Pv & Pe). exists v, e.
    split; [assumption|]. split; [assumption|]. cbv zeta in *.
    destruct average; [rewrite (Hob i Hi) in Pv, Pe|]; rewrite (Ham y i eq_refl Hi) in Pv; rewrite (Ham _ i Hye Hi) in Pe; auto.
  - destruct (r_step out) as [s|l].
    + rewrite Pst. apply (Hob 0%nat). assumption.
    + intros s Hin. apply In_nth_error in Hin. destruct Hin as [i Hin]. rewrite (proj2 Pst i s Hin). apply Hob.
      rewrite <- (proj1 Pst). apply nth_error_Some. congruence.
  - intros Hlen Hav. rewrite Hav in E. change (method_of false) with MSum in E.
    apply (rebin_conserves x y dxn yerr dx D x0 xl d0 dl k out); try assumption.
    + lra.
    + rewrite HL, Hlen, Hprod. unfold dxn. ring.
Qed.

(* ---------- rejected and wrong cases ---------- *)
Lemma rebin_finer cast caste x y dxn yerr m dx D d : x <> [] -> widths_of x dx D -> In d D -> dxn < d ->
  rebin_data cast caste x y dxn yerr m dx = Err ValueError.
Proof.
  intros Hx HD Hin Hlt. unfold rebin_data. rewrite (widths_of_code x dx D Hx HD).
  replace (existsb (fun d => qlt dxn d) D) with true; [reflexivity|].
  symmetry. apply existsb_exists. exists d. split; [assumption|]. qb. assumption.
Qed.
Lemma inc_ss l : StronglySorted Qlt l -> increasing l.
Proof. intros H. unfold increasing. apply (proj1 (ss_nth Qlt _)). assumption. Qed.
Lemma rebin_integer_dtype : exists x y dxn out, increasing x /\ length y = length x /\ (exists k : Z, 3 == inject_Z k * dxn) /\
  rebin_data to_int to_int x y dxn None MSum (DxScalar 1) = Ok out /\ Forall (fun v => exists z, v = inject_Z z) y /\
  total (r_y out) == 2 /\ total y == 3.
Proof.
  exists [0; 1; 2], [1; 1; 1], (3 # 2). eexists. split; [|split; [|split; [|split; [|split; [|split] ] ] ] ].
  - apply inc_ss. repeat constructor; reflexivity.
  - reflexivity.
  - exists 2%Z. reflexivity.
  - vm_compute. reflexivity.
  - repeat constructor; exists 1%Z; reflexivity.
  - reflexivity.
  - reflexivity.
Qed.
Lemma rebin_errors_not_quadratic : exists x y yerr dxn out e, increasing x /\
  rebin_data idq idq x y dxn (Some yerr) MSum DxNone = Ok out /\ nth_error (r_err2 out) 0 = Some e /\
  slice yerr 0 2 = [3; 3] /\ e == 6 /\ ~ e == total (map (fun v => v * v) (slice yerr 0 2)).
Proof.
  exists [0; 1; 2; 3], [10; 10; 10; 10], [3; 3; 3; 3], 2. eexists. eexists. split; [|split; [|split; [|split; [|split] ] ] ].
  - apply inc_ss. repeat constructor; reflexivity.
  - vm_compute. reflexivity.
  - reflexivity.
  - reflexivity.
  - reflexivity.
  - discriminate.
Qed.
Lemma rebin_uneven_scalar_dx : exists x y dxn out, increasing x /\ length y = length x /\
  rebin_data idq idq x y dxn None MSum (DxScalar 1) = Ok out /\ total y == 2 /\ 5 < total (r_y out).
Proof.
  exists [0; 11], [1; 1], 2. eexists. split; [|split; [|split; [|split] ] ].
  - apply inc_ss. repeat constructor; reflexivity.
  - reflexivity.
  - vm_compute. reflexivity.
  - reflexivity.
  - reflexivity.
Qed.
Lemma rebin_too_wide : exists x y dxn, increasing x /\ length y = length x /\
  rebin_data idq idq x y dxn None MSum DxNone = Err IndexError.
Proof.
  exists [0; 1; 2], [1; 1; 1], 4. split; [|split].
  - apply inc_ss. repeat constructor; reflexivity.
  - reflexivity.
  - vm_compute. reflexivity.
Qed.

Lemma rebin_unknown_method cast caste x y dxn yerr dx out : rebin_data cast caste x y dxn yerr MSum dx = Ok out ->
  rebin_data cast caste x y dxn yerr MOther dx = Err ValueError.
Proof.
  unfold rebin_data. destruct (existsb _ _); [discriminate|]. intros E.
  repeat (apply bind_ok in E; destruct E as (? & -> & E); cbn [bind]). 
  reflexivity.
Qed.
