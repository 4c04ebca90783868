(* P_power.v: power integrated over a frequency range *)
From Verif Require Import Np Lib M_power S_power P_rebin.
From Coq Require Import Lqa Sorting.Sorted.
Open Scope Q_scope.

Lemma overlap_zero_l lo hi r : right_edge r <= lo -> 0 < b_df r -> overlap lo hi r == 0.
Proof.
  intros H D. unfold overlap. assert (left_edge r <= right_edge r) by (unfold left_edge, right_edge; assert (b_df r / 2 == (1#2) * b_df r) by field; lra).
  destruct (qmin_cases hi (right_edge r)) as [[-> ?]|[-> ?]]; destruct (qmax_cases lo (left_edge r)) as [[-> ?]|[-> ?]];
  match goal with |- qmax 0 ?x == 0 => destruct (qmax_cases 0 x) as [[-> ?]|[-> ?]] end; lra.
Qed.
Lemma overlap_zero_r lo hi r : hi <= left_edge r -> 0 < b_df r -> overlap lo hi r == 0.
Proof.
  intros H D. unfold overlap. assert (left_edge r <= right_edge r) by (unfold left_edge, right_edge; assert (b_df r / 2 == (1#2) * b_df r) by field; lra).
  destruct (qmin_cases hi (right_edge r)) as [[-> ?]|[-> ?]]; destruct (qmax_cases lo (left_edge r)) as [[-> ?]|[-> ?]];
  match goal with |- qmax 0 ?x == 0 => destruct (qmax_cases 0 x) as [[-> ?]|[-> ?]] end; lra.
Qed.
Lemma overlap_val lo hi r a b : lo < hi -> 0 < b_df r ->
  (a == hi /\ hi <= right_edge r \/ a == right_edge r /\ right_edge r <= hi) ->
  (b == lo /\ left_edge r <= lo \/ b == left_edge r /\ lo <= left_edge r) ->
  lo < right_edge r -> left_edge r < hi -> overlap lo hi r == a - b.
Proof.
  intros H D HA HB G1 G2. unfold overlap. assert (left_edge r < right_edge r) by (unfold left_edge, right_edge; assert (b_df r / 2 == (1#2) * b_df r) by field; lra).
  destruct (qmin_cases hi (right_edge r)) as [[-> ?]|[-> ?]]; destruct (qmax_cases lo (left_edge r)) as [[-> ?]|[-> ?]];
  match goal with |- qmax 0 ?x == _ => destruct (qmax_cases 0 x) as [[-> ?]|[-> ?]] end;
  destruct HA as [[? ?]|[? ?]]; destruct HB as [[? ?]|[? ?]]; lra.
Qed.

Lemma edges_df r : right_edge r - left_edge r == b_df r.
Proof. unfold left_edge, right_edge. field. Qed.

Section Integrate.
Variables (rows : list pbin) (lo hi : Q).
Hypothesis BO : bins_ok rows.
Hypothesis RO : range_ok rows lo hi.
Let p := fun r => qlt lo (b_f r + b_df r / 2) && qlt (b_f r - b_df r / 2) hi.

Lemma p_t r : p r = true <-> lo < right_edge r /\ left_edge r < hi.
Proof. unfold p, left_edge, right_edge. rewrite andb_true_iff, !qlt_t. tauto. Qed.
Lemma p_f r : p r = false <-> (right_edge r <= lo \/ hi <= left_edge r).
Proof. unfold p, left_edge, right_edge. rewrite andb_false_iff, !qlt_f. tauto. Qed.

Lemma filter_none l : (forall r, In r l -> p r = false) -> filter p l = [].
Proof. induction l as [|a l IH]; intros H; [reflexivity|]. cbn. rewrite H by now left. apply IH. intros; apply H; now right. Qed.
Lemma filter_all l : (forall r, In r l -> p r = true) -> filter p l = l.
Proof. induction l as [|a l IH]; intros H; [reflexivity|]. cbn. rewrite H by now left. f_equal. apply IH. intros; apply H; now right. Qed.

(* the selected bins: either one bin starting at lo, or the bin of lo, whole bins, the bin of hi *)
Lemma shape :
  (exists A r C, rows = A ++ r :: C /\ filter p rows = [r] /\ left_edge r == lo /\ hi <= right_edge r /\
     (forall x, In x (A ++ C) -> p x = false)) \/
  (exists A r B s C, rows = A ++ r :: B ++ s :: C /\ filter p rows = r :: B ++ [s] /\
     left_edge r <= lo /\ lo < right_edge r /\ right_edge r <= left_edge s /\ left_edge s < hi /\ hi <= right_edge s /\
     (forall x, In x B -> lo <= left_edge x /\ right_edge x <= hi /\ p x = true) /\
     (forall x, In x (A ++ C) -> p x = false)).
Proof.
  destruct RO as (L & (r & Hr & R1 & R2) & (s & Hs & S1 & S2) & N). destruct BO as [D SS].
  rewrite Forall_forall in D.
  destruct (in_split _ _ Hr) as (A & C & E).
  assert (SS' := SS). rewrite E in SS'. apply ss_app in SS'. destruct SS' as (SA & SC & SAC).
  apply StronglySorted_inv in SC. destruct SC as [SC1 SC2]. rewrite Forall_forall in SC2.
  assert (PA : forall x, In x A -> p x = false).
  { intros x Hx. apply p_f. left. specialize (SAC x r Hx (or_introl eq_refl)). cbn in SAC. lra. }
  assert (Pr : p r = true) by (apply p_t; split; lra).
  rewrite E in Hs. apply in_app_or in Hs. destruct Hs as [Hs|Hs].
  { exfalso. pose proof (PA s Hs) as F. apply p_f in F. pose proof (SAC s r Hs (or_introl eq_refl)) as G. cbn in G. lra. }
  destruct Hs as [ <- |Hs].
  - left. exists A, r, C. split; [exact E|].
    assert (PC : forall x, In x C -> p x = false).
    { intros x Hx. apply p_f. right. specialize (SC2 x Hx). lra. }
    split; [|split; [|split; [exact S2|]]].
    + rewrite E, filter_app. cbn [filter]. rewrite Pr, (filter_none A), (filter_none C) by assumption. reflexivity.
    + destruct (Qlt_le_dec (left_edge r) lo) as [G|G]; [exfalso; exact (N r Hr G S2)|lra].
    + intros x Hx. apply in_app_or in Hx. destruct Hx; auto.
  - right. destruct (in_split _ _ Hs) as (B & C' & EC). subst C.
    apply ss_app in SC1. destruct SC1 as (SB & SC' & SBC). apply StronglySorted_inv in SC'. destruct SC' as [SC3 SC4]. rewrite Forall_forall in SC4.
    assert (rs : right_edge r <= left_edge s) by (apply SC2, in_or_app; right; now left).
    assert (PB : forall x, In x B -> lo <= left_edge x /\ right_edge x <= hi /\ p x = true).
    { intros x Hx. assert (G1 : right_edge r <= left_edge x) by (apply SC2, in_or_app; now left).
      assert (G2 : right_edge x <= left_edge s) by (apply (SBC x s Hx); now left).
      assert (Dx : 0 < b_df x) by (apply D; rewrite E; apply in_or_app; right; right; apply in_or_app; now left).
      pose proof (edges_df x). split; [lra|split; [lra|]]. apply p_t. split; lra. }
    assert (PC : forall x, In x C' -> p x = false).
    { intros x Hx. apply p_f. right. specialize (SC4 x Hx). lra. }
    exists A, r, B, s, C'. split; [exact E|]. split.
    { rewrite E, filter_app. cbn [filter]. rewrite Pr, filter_app, (filter_none A) by exact PA. cbn [filter app].
      rewrite (filter_all B) by (intros; now apply PB).
      assert (Ps : p s = true) by (apply p_t; pose proof (edges_df s); assert (0 < b_df s) by (apply D; rewrite E; apply in_or_app; right; right; apply in_or_app; right; now left); split; lra).
      rewrite Ps, (filter_none C') by exact PC. reflexivity. }
    repeat (split; [assumption || lra|]). intros x Hx. apply in_app_or in Hx. destruct Hx; auto.
Qed.

Lemma qsum_none (g : pbin -> Q) l : (forall r, In r l -> g r == 0) -> qsum (map g l) == 0.
Proof.
  induction l as [|a l IH]; intros H; [reflexivity|]. cbn. fold (qsum (map g l)). rewrite H by now left.
  rewrite IH by (intros; apply H; now right). ring.
Qed.

(* sum of any function of the overlap *)
Lemma integrate_gen m : exists v e, integrate_power rows lo hi m = Ok (v, e) /\
  v == integral rows lo hi /\
  e == integral_var (fun r => match m with Some m => b_p r * b_p r / m | None => b_err r * b_err r end) rows lo hi.
Proof.
  destruct BO as [D _]. rewrite Forall_forall in D. assert (L : lo < hi) by apply RO.
  set (e2 := fun r => match m with Some m => b_p r * b_p r / m | None => b_err r * b_err r end).
  assert (Z : forall x, In x rows -> p x = false -> overlap lo hi x == 0).
  { intros x Hx Px. apply p_f in Px. destruct Px; [apply overlap_zero_l|apply overlap_zero_r]; auto. }
  destruct shape as [(A & r & C & E & F & L1 & H1 & O)|(A & r & B & s & C & E & F & L1 & R1 & RS & L2 & H2 & PB & O)].
  - unfold integrate_power. fold p. rewrite F. cbn [map get nth_error bind get_last rev app put_first put_last removelast combine fst snd qsum fold_right].
    assert (Dr : 0 < b_df r) by (apply D; rewrite E; apply in_or_app; right; now left).
    assert (OV : overlap lo hi r == hi - lo).
    { pose proof (edges_df r). apply overlap_val; try assumption; lra. }
    assert (W : b_df r * ((hi - b_f r + (1 # 2) * b_df r) / b_df r) == overlap lo hi r).
    { rewrite OV. rewrite <- L1. unfold left_edge. field. lra. }
    eexists _, _. split; [reflexivity|]. split.
    + unfold integral. rewrite E, map_app. cbn [map]. rewrite qsum_app. cbn [qsum fold_right]. fold (qsum (map (fun r => (b_p r - b_noise r) * overlap lo hi r) C)).
      rewrite W, !qsum_none.
      * ring.
      * intros x Hx. rewrite Z; [ring| |apply O, in_or_app; now right]. rewrite E. apply in_or_app. right. now right.
      * intros x Hx. rewrite Z; [ring| |apply O, in_or_app; now left]. rewrite E. apply in_or_app. now left.
    + unfold integral_var. rewrite E, map_app. cbn [map]. rewrite qsum_app. cbn [qsum fold_right]. fold (qsum (map (fun r => e2 r * (overlap lo hi r * overlap lo hi r)) C)).
      rewrite W, !qsum_none.
      * fold (e2 r). ring.
      * intros x Hx. rewrite Z; [ring| |apply O, in_or_app; now right]. rewrite E. apply in_or_app. right. now right.
      * intros x Hx. rewrite Z; [ring| |apply O, in_or_app; now left]. rewrite E. apply in_or_app. now left.
  - assert (Dr : 0 < b_df r) by (apply D; rewrite E; apply in_or_app; right; now left).
    assert (Ds : 0 < b_df s) by (apply D; rewrite E; apply in_or_app; right; right; apply in_or_app; right; now left).
    pose proof (edges_df r) as Er. pose proof (edges_df s) as Es.
    set (cr := (b_f r + (1 # 2) * b_df r - lo) / b_df r). set (cl := (hi - b_f s + (1 # 2) * b_df s) / b_df s).
    assert (Wr : b_df r * cr == overlap lo hi r).
    { unfold cr. rewrite (overlap_val lo hi r (right_edge r) lo); try assumption; try lra. unfold right_edge. field. lra. }
    assert (Ws : b_df s * cl == overlap lo hi s).
    { unfold cl. rewrite (overlap_val lo hi s hi (left_edge s)); try assumption; try lra. unfold left_edge. field. lra. }
    assert (WB : forall x, In x B -> b_df x * 1 == overlap lo hi x).
    { intros x Hx. destruct (PB x Hx) as (G1 & G2 & G3). apply p_t in G3.
      assert (Dx : 0 < b_df x) by (apply D; rewrite E; apply in_or_app; right; right; apply in_or_app; now left).
      rewrite (overlap_val lo hi x (right_edge x) (left_edge x)); try assumption; try lra. rewrite edges_df. ring. }
    assert (CB : combine (r :: B ++ [s]) (put_last cl (put_first cr (map (fun _ => 1) (r :: B ++ [s]))))
                 = (r, cr) :: map (fun x => (x, 1)) B ++ [(s, cl)]).
    { cbn [map put_first]. rewrite map_app. cbn [map]. unfold put_last.
      change (cr :: map (fun _ => 1) B ++ [1]) with ((cr :: map (fun _ : pbin => 1) B) ++ [1]).
      rewrite removelast_last. cbn [app combine]. f_equal. clear. induction B as [|b B IH]; [reflexivity|].
      cbn. now rewrite IH. }
    assert (GL : get_last (r :: B ++ [s]) = Ok s).
    { unfold get_last. change (r :: B ++ [s]) with ((r :: B) ++ [s]). now rewrite rev_app_distr. }
    unfold integrate_power. fold p. rewrite F.
    change (get (r :: B ++ [s]) 0) with (Ok r). cbn [bind]. rewrite GL. cbn [bind]. fold cr cl. rewrite CB.
    assert (CM : forall (g : pbin * Q -> Q),
      combine (r :: B ++ [s]) (map g ((r, cr) :: map (fun x => (x, 1)) B ++ [(s, cl)]))
      = (r, g (r, cr)) :: map (fun x => (x, g (x, 1))) B ++ [(s, g (s, cl))]).
    { intros g. cbn [map combine]. f_equal. rewrite map_app, map_map. cbn [map]. clear.
      induction B as [|b B IH]; [reflexivity|]. cbn. now rewrite IH. }
    rewrite CM. cbn [fst snd].
    assert (SUM : forall (h : pbin -> Q -> Q) (l : list pbin),
       (forall r a b, a == b -> h r a == h r b) -> (forall x, h x 0 == 0) ->
       qsum (map (fun rd => h (fst rd) (snd rd)) ((r, b_df r * cr) :: map (fun x => (x, b_df x * 1)) B ++ [(s, b_df s * cl)]))
       == qsum (map (fun x => h x (overlap lo hi x)) rows)).
    { intros h _ Hh H0. rewrite E, map_app. cbn [map]. rewrite map_app. cbn [map]. rewrite qsum_app. cbn [qsum fold_right].
      change (fold_right Qplus 0) with qsum. rewrite !map_app, map_map, !qsum_app. cbn [map fst snd qsum fold_right]. change (fold_right Qplus 0) with qsum.
      rewrite (Hh r _ _ Wr), (Hh s _ _ Ws).
      assert (EB : qsum (map (fun x => h x (b_df x * 1)) B) == qsum (map (fun x => h x (overlap lo hi x)) B)).
      { revert WB. clear -Hh. induction B as [|b B IH]; intros WB; [reflexivity|]. cbn. fold (qsum (map (fun x => h x (b_df x * 1)) B)).
        fold (qsum (map (fun x => h x (overlap lo hi x)) B)). rewrite IH by (intros; apply WB; now right).
        rewrite (Hh b _ _ (WB b (or_introl eq_refl))). reflexivity. }
      rewrite EB, (qsum_none _ A), (qsum_none _ C).
      * ring.
      * intros x Hx. rewrite <- (H0 x). apply Hh. apply Z; [|apply O, in_or_app; now right].
        rewrite E. apply in_or_app. right. right. apply in_or_app. right. now right.
      * intros x Hx. rewrite <- (H0 x). apply Hh. apply Z; [|apply O, in_or_app; now left].
        rewrite E. apply in_or_app. now left. }
    eexists _, _. split; [reflexivity|]. split.
    + apply (SUM (fun r d => (b_p r - b_noise r) * d) []).
      * intros ? ? ? ->. reflexivity.
      * intros. ring.
    + apply (SUM (fun r d => e2 r * (d * d)) []).
      * intros ? ? ? ->. reflexivity.
      * intros. ring.
Qed.
End Integrate.

Lemma overlap_add a b c r : a <= b -> b <= c -> 0 < b_df r ->
  overlap a c r == overlap a b r + overlap b c r.
Proof.
  intros H1 H2 D. pose proof (edges_df r) as E.
  assert (Z : forall x y, y <= x -> qmax 0 (y - x) == 0).
  { intros x y Hxy. destruct (qmax_cases 0 (y - x)) as [[-> ?]|[-> ?]]; lra. }
  assert (P : forall x y, x <= y -> qmax 0 (y - x) == y - x).
  { intros x y Hxy. destruct (qmax_cases 0 (y - x)) as [[-> ?]|[-> ?]]; lra. }
  unfold overlap.
  destruct (qmin_cases c (right_edge r)) as [[-> ?]|[-> ?]]; destruct (qmin_cases b (right_edge r)) as [[-> ?]|[-> ?]];
  destruct (qmax_cases a (left_edge r)) as [[-> ?]|[-> ?]]; destruct (qmax_cases b (left_edge r)) as [[-> ?]|[-> ?]];
  repeat match goal with |- context [qmax 0 (?y - ?x)] =>
    destruct (Qlt_le_dec x y); [rewrite (P x y) by lra|rewrite (Z x y) by lra] end; lra.
Qed.

Lemma integral_add rows a b c : Forall (fun r => 0 < b_df r) rows -> a <= b -> b <= c ->
  integral rows a c == integral rows a b + integral rows b c.
Proof.
  intros D H1 H2. unfold integral. induction rows as [|r l IH]; [reflexivity|].
  inversion D; subst. cbn. change (fold_right Qplus 0) with qsum. rewrite IH by assumption.
  rewrite (overlap_add a b c r) by assumption. ring.
Qed.

Lemma integrate_additive rows a b c m : bins_ok rows ->
  range_ok rows a b -> range_ok rows b c -> range_ok rows a c ->
  exists v1 e1 v2 e2 v e, integrate_power rows a b m = Ok (v1, e1) /\ integrate_power rows b c m = Ok (v2, e2) /\
    integrate_power rows a c m = Ok (v, e) /\ v == v1 + v2.
Proof.
  intros BO R1 R2 R3.
  destruct (integrate_gen rows a b BO R1 m) as (v1 & e1 & E1 & V1 & _).
  destruct (integrate_gen rows b c BO R2 m) as (v2 & e2 & E2 & V2 & _).
  destruct (integrate_gen rows a c BO R3 m) as (v & e & E3 & V3 & _).
  exists v1, e1, v2, e2, v, e. repeat split; try assumption. rewrite V1, V2, V3.
  apply integral_add; [apply BO| |]; [destruct R1|destruct R2]; lra.
Qed.

(* the whole covered range *)
Lemma integrate_full r0 l m : bins_ok (r0 :: l) ->
  exists v e, integrate_power (r0 :: l) (left_edge r0) (right_edge (last l r0)) m = Ok (v, e) /\
    v == qsum (map (fun r => (b_p r - b_noise r) * b_df r) (r0 :: l)).
Proof.
  intros BO. assert (BO' := BO). destruct BO' as [D SS]. rewrite Forall_forall in D.
  assert (HL : In (last l r0) (r0 :: l)).
  { destruct l as [|b l']; [now left|]. right. 
    assert (N : b :: l' <> []) by discriminate. rewrite (app_removelast_last r0 N) at 2. apply in_or_app. right. now left. }
  assert (LR : forall r, In r (r0 :: l) -> left_edge r0 <= left_edge r /\ right_edge r <= right_edge (last l r0)).
  { assert (K : forall l r0, StronglySorted (fun a b => right_edge a <= left_edge b) (r0 :: l) -> (forall r, In r (r0 :: l) -> 0 < b_df r) ->
       forall r, In r (r0 :: l) -> left_edge r0 <= left_edge r /\ right_edge r <= right_edge (last l r0)).
    { clear. induction l as [|b l IH]; intros r0 SS D r Hr.
      - destruct Hr as [ <- |[]]. cbn. split; lra.
      - apply StronglySorted_inv in SS. destruct SS as [S1 S2]. rewrite Forall_forall in S2.
        assert (EL : last (b :: l) r0 = last l b).
        { clear. revert b. induction l as [|c l IH]; intros b; [reflexivity|]. change (last (b :: c :: l) r0) with (last (c :: l) r0). rewrite IH.
          change (last (c :: l) b) with (last (c :: l) b). rewrite <- (IH c). clear. revert c. induction l as [|d l IH]; intros c; [reflexivity|]. cbn [last] in *. apply IH. }
        rewrite EL. specialize (IH b S1 (fun x Hx => D x (or_intror Hx))).
        assert (D0 := D r0 (or_introl eq_refl)). pose proof (edges_df r0).
        destruct Hr as [ <- |Hr].
        + assert (G := S2 b (or_introl eq_refl)). destruct (IH b (or_introl eq_refl)) as [_ G2].
          assert (Db := D b (or_intror (or_introl eq_refl))). pose proof (edges_df b). split; lra.
        + destruct (IH r Hr) as [G1 G2]. assert (G := S2 b (or_introl eq_refl)). split; lra. }
    apply K; assumption. }
  assert (D0 := D r0 (or_introl eq_refl)). assert (DL := D _ HL). pose proof (edges_df r0). pose proof (edges_df (last l r0)).
  destruct (LR _ HL) as [LL _]. destruct (LR r0 (or_introl eq_refl)) as [_ RR].
  assert (RO : range_ok (r0 :: l) (left_edge r0) (right_edge (last l r0))).
  { split; [lra|]. split; [exists r0; split; [now left|split; lra]|]. split; [exists (last l r0); split; [exact HL|split; lra]|].
    intros r Hr G _. destruct (LR r Hr). lra. }
  destruct (integrate_gen _ _ _ BO RO m) as (v & e & E & V & _). exists v, e. split; [exact E|].
  rewrite V. unfold integral. revert LR D. generalize (r0 :: l). intros L LR D.
  induction L as [|a L IH]; [reflexivity|]. cbn. change (fold_right Qplus 0) with qsum.
  rewrite IH; [|intros; apply LR; now right|intros; apply D; now right].
  destruct (LR a (or_introl eq_refl)) as [G1 G2]. assert (Da := D a (or_introl eq_refl)). pose proof (edges_df a).
  rewrite (overlap_val _ _ a (right_edge a) (left_edge a)); try lra. rewrite edges_df. reflexivity.
Qed.
