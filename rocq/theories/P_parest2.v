(* P_parest2.v: proofs about M_parest: outliers and the convergence criterion *)
From Coq Require Import String.
From Verif Require Import Np Lib M_utils Cplx M_posterior M_parest S_parest P_helpers P_posterior P_posterior2 P_parest.
From Coq Require Import Reals List Bool Arith Lra Lia Permutation Sorted.
Import ListNotations.
Open Scope R_scope.

Lemma rinsert_perm a l : Permutation (rinsert a l) (a :: l).
Proof. induction l as [|b l IH]; cbn; [reflexivity|]. destruct (Rle_dec a b); [reflexivity|]. rewrite IH. apply perm_swap. Qed.
Lemma rsort_perm l : Permutation (rsort l) l.
Proof. induction l as [|a l IH]; cbn; [reflexivity|]. rewrite rinsert_perm. constructor. exact IH. Qed.
Lemma rinsert_sorted a l : StronglySorted Rle l -> StronglySorted Rle (rinsert a l).
Proof.
  induction 1 as [|b l S IH F]; cbn; [repeat constructor|]. destruct (Rle_dec a b) as [H|H].
  - constructor; [constructor; assumption|]. constructor; [exact H|]. apply Forall_forall. intros c C. rewrite Forall_forall in F. specialize (F c C). lra.
  - constructor; [exact IH|]. apply Forall_forall. intros c C. apply (Permutation_in _ (rinsert_perm a l)) in C. destruct C as [<-|C]; [lra|]. rewrite Forall_forall in F. apply F, C.
Qed.
Lemma rsort_sorted l : StronglySorted Rle (rsort l).
Proof. induction l as [|a l IH]; cbn; [constructor|]. apply rinsert_sorted, IH. Qed.
Lemma sorted_app_split (l1 l2 : list R) : StronglySorted Rle (l1 ++ l2) -> StronglySorted Rle l2 /\ forall a b, In a l1 -> In b l2 -> a <= b.
Proof.
  induction l1 as [|c l1 IH]; cbn; intros S; [split; [exact S|intros ? ? []]|]. inversion S as [|? ? S' F]; subst. destruct (IH S') as [S2 H]. split; [exact S2|].
  intros a b [<-|A] B; [|apply H; assumption]. rewrite Forall_forall in F. apply F, in_or_app. right; exact B.
Qed.
Lemma last_n_largest l n : (1 <= n <= List.length l)%nat -> largest l (last_n (rsort l) n) n.
Proof.
  intros N. unfold last_n. destruct (Nat.eqb_spec n 0); [lia|]. pose proof (rsort_perm l) as P. assert (L : List.length (rsort l) = List.length l) by (apply Permutation_length, P).
  set (k := (List.length (rsort l) - n)%nat). exists (firstn k (rsort l)). rewrite firstn_skipn. split; [symmetry; exact P|]. split; [rewrite skipn_length; unfold k; lia|].
  pose proof (rsort_sorted l) as S. rewrite <- (firstn_skipn k (rsort l)) in S. destruct (sorted_app_split _ _ S) as [S1 S2]. split; [exact S1|]. exact S2.
Qed.
Lemma index_of_some v l : In v l -> exists i, index_of v l = Some i /\ nth_error l i = Some v /\ forall j, (j < i)%nat -> nth_error l j <> Some v.
Proof.
  induction l as [|a l IH]; [intros []|]. cbn. intros I. destruct (Req_EM_T a v) as [->|N].
  - exists 0%nat. split; [reflexivity|split; [reflexivity|lia]].
  - destruct I as [->|I]; [contradiction N; reflexivity|]. destruct (IH I) as (i & E & V & B). exists (S i). rewrite E. split; [reflexivity|split; [exact V|]].
    intros [|j] J; cbn; [intros [= C]; contradiction|apply B; lia].
Qed.
Lemma residual_nth y : forall mfit i, List.length mfit = List.length y -> nth_error (map (fun q => 2 * fst q / snd q) (combine y mfit)) i =
  match nth_error y i, nth_error mfit i with Some a, Some m => Some (2 * a / m) | _, _ => None end.
Proof. induction y as [|a y IH]; intros [|m mfit] [|i] L; cbn in *; try discriminate; try reflexivity. apply IH. lia. Qed.
(* data, model and ratio at the place of an outlier *)
Definition at_place (x y mfit : list R) (t : R) (place : R * nat) : Prop :=
  exists a m, nth_error x (snd place) = Some (fst place) /\ nth_error y (snd place) = Some a /\ nth_error mfit (snd place) = Some m /\ t = 2 * a / m.
Definition ratios (y mfit : list R) : list R := map (fun q => 2 * fst q / snd q) (combine y mfit).
Lemma highest_outliers x y mfit n : List.length y = List.length x -> List.length mfit = List.length x -> (1 <= n <= List.length x)%nat ->
  exists top places, compute_highest_outlier x y mfit n = Ok (top, places) /\ largest (ratios y mfit) top n /\ Forall2 (at_place x y mfit) top places.
Proof.
  intros L1 L2 N. unfold compute_highest_outlier. fold (ratios y mfit). set (r := ratios y mfit). assert (Lr : List.length r = List.length x) by (unfold r, ratios; rewrite map_length, combine_length; lia).
  assert (T := last_n_largest r n ltac:(lia)). set (top := last_n (rsort r) n) in *.
  assert (I : forall t, In t top -> In t r). { intros t Ht. destruct T as (rest & P & _). apply (Permutation_in _ (Permutation_sym P)). apply in_or_app; right; exact Ht. }
  assert (G : forall tp, (forall t, In t tp -> In t r) -> exists places, map_result (find_outlier x r) tp = Ok places /\ Forall2 (at_place x y mfit) tp places).
  { induction tp as [|t tp IH]; intros H; [exists []; split; [reflexivity|constructor]|]. destruct (IH (fun u U => H u (or_intror U))) as (pl & E & F).
    destruct (index_of_some t r (H t (or_introl eq_refl))) as (i & Ei & V & _).
    assert (X : nth_error x i <> None). { apply nth_error_Some. rewrite <- Lr. apply nth_error_Some. rewrite V; discriminate. }
    destruct (nth_error x i) as [xi|] eqn:Ex; [|contradiction X; reflexivity].
    exists ((xi, i) :: pl). cbn [map_result]. unfold find_outlier at 1. rewrite Ei. unfold get. rewrite Ex. cbn [bind]. rewrite E. split; [reflexivity|]. constructor; [|exact F].
    unfold r, ratios in V. rewrite residual_nth in V by lia. destruct (nth_error y i) as [a|] eqn:Ey; [|discriminate]. destruct (nth_error mfit i) as [m|] eqn:Em; [|discriminate].
    exists a, m. cbn. repeat split; try assumption. congruence. }
  destruct (G top I) as (places & E & F). exists top, places. rewrite E. split; [reflexivity|]. split; assumption.
Qed.
Lemma highest_outlier_one x y mfit : List.length y = List.length x -> List.length mfit = List.length x -> x <> [] ->
  exists t xi i, compute_highest_outlier x y mfit 1 = Ok ([t], [(xi, i)]) /\ at_place x y mfit t (xi, i) /\ forall r, In r (ratios y mfit) -> r <= t.
Proof.
  intros L1 L2 N. assert (K : (1 <= List.length x)%nat) by (destruct x; [contradiction N; reflexivity|cbn; lia]).
  destruct (highest_outliers x y mfit 1 L1 L2 ltac:(lia)) as (top & places & E & (rest & P & Lt & S & H) & F).
  destruct top as [|t [|t' top]]; cbn in Lt; try lia. inversion F as [|? [xi i] ? l' A F']; subst. inversion F'; subst. exists t, xi, i. split; [exact E|]. split; [exact A|].
  intros r R. apply (Permutation_in _ P) in R. apply in_app_or in R as [R|[<-|[]]]; [apply H; [exact R|left; reflexivity]|lra].
Qed.
(* two equal ratios: the same place twice *)
Lemma outlier_ties_refuted : exists x y mfit top places, List.length y = List.length x /\ List.length mfit = List.length x /\
  compute_highest_outlier x y mfit 2 = Ok (top, places) /\ ~ NoDup (map snd places).
Proof.
  exists [1; 2], [3; 3], [1; 1], [2 * 3 / 1; 2 * 3 / 1], [(1, 0%nat); (1, 0%nat)]. split; [reflexivity|]. split; [reflexivity|]. split.
  - unfold compute_highest_outlier. cbn. destruct (Rle_dec (2 * 3 / 1) (2 * 3 / 1)) as [_|C]; [|exfalso; apply C; lra]. cbn.
    unfold find_outlier. cbn. destruct (Req_EM_T (2 * 3 / 1) (2 * 3 / 1)) as [_|C]; [|contradiction C; reflexivity]. reflexivity.
  - intros H. inversion H as [|? ? Hn _]. apply Hn. left; reflexivity.
Qed.
(* different ratios: different places *)
Lemma outlier_places_distinct x y mfit n top places : List.length y = List.length x -> List.length mfit = List.length x -> (1 <= n <= List.length x)%nat ->
  NoDup (ratios y mfit) -> compute_highest_outlier x y mfit n = Ok (top, places) -> NoDup (map snd places).
Proof.
  intros L1 L2 N D E. destruct (highest_outliers x y mfit n L1 L2 N) as (top' & places' & E' & (rest & P & _) & F). rewrite E' in E. injection E as <- <-.
  assert (Dt : NoDup top'). { apply (Permutation_NoDup P) in D. clear - D. induction rest as [|a rest IH]; [exact D|]. inversion D; subst. apply IH; assumption. }
  clear - F Dt. induction F as [|t p top places A F IH]; [constructor|]. inversion Dt as [|? ? Nt Dt']; subst. cbn. constructor; [|apply IH; exact Dt'].
  intros I. apply Nt. apply in_map_iff in I as (q & Q & I). clear IH Dt Dt' Nt. induction F as [|u r top places B F IH]; [destruct I|]. destruct I as [->|I]; [left|right; apply IH, I].
  destruct A as (a & m & _ & Y & M & ->), B as (b & m' & _ & Y' & M' & ->). rewrite Q in Y', M'. congruence.
Qed.
Lemma outlier_all x y mfit : compute_highest_outlier x y mfit 0 = compute_highest_outlier x y mfit (List.length (ratios y mfit)).
Proof.
  unfold compute_highest_outlier, last_n. fold (ratios y mfit). cbn [Nat.eqb]. destruct (Nat.eqb_spec (List.length (ratios y mfit)) 0); [reflexivity|].
  rewrite (Permutation_length (rsort_perm (ratios y mfit))), Nat.sub_diag. reflexivity.
Qed.

(* the convergence criterion *)
Lemma rlsum_app l l' : rlsum (l ++ l') = rlsum l + rlsum l'.
Proof. induction l as [|a l IH]; [change (rlsum l' = 0 + rlsum l'); ring|]. cbn [app]. rewrite !rlsum_cons, IH. ring. Qed.
Lemma mean_of_means chain n : (1 <= n)%nat -> chain <> [] -> Forall (fun row => List.length row = n) chain -> rmean (concat chain) = rmean (map rmean chain).
Proof.
  intros N C F. unfold rmean at 1 2. rewrite map_length. assert (In : 0 < INR n) by (apply lt_0_INR; lia).
  assert (L : INR (List.length (concat chain)) = INR (List.length chain) * INR n /\ rlsum (concat chain) = INR n * rlsum (map rmean chain)).
  { clear C. induction F as [|row chain H F [IH1 IH2]]; [split; cbn; ring|]. cbn [concat map]. change (List.length (row :: chain)) with (S (List.length chain)). rewrite app_length, plus_INR, IH1, S_INR, H, rlsum_app, rlsum_cons, IH2.
    change (rmean row) with (rlsum row / INR (List.length row)). rewrite H. split; [ring|]. field. lra. }
  destruct L as [-> ->]. assert (0 < INR (List.length chain)) by (apply lt_0_INR; destruct chain; [contradiction C; reflexivity|cbn; lia]). field. split; lra.
Qed.
Definition within (row : list R) : R := sum_squares (average row) row / INR (List.length row).
Lemma rhat_value n chain : (1 <= n)%nat -> chain <> [] -> Forall (fun row => List.length row = n) chain ->
  compute_rhat n chain = (INR n - 1) / INR n * average (map within chain) +
    sum_squares (average (map average chain)) (map average chain) / (INR (List.length chain) - 1).
Proof.
  intros N C F. unfold compute_rhat. cbv zeta. rewrite (mean_of_means chain n N C F). change rmean with average.
  replace (map rvar chain) with (map within chain).
  - unfold sum_squares. change (fold_right Rplus 0) with rlsum. assert (0 < INR n) by (apply lt_0_INR; lia).
    f_equal. destruct (Req_dec (INR (List.length chain) - 1) 0) as [Z|Z]; [|field; split; lra].
    unfold Rdiv. rewrite Z. assert (I : / 0 = 0) by apply Rinv_0. rewrite I. ring.
  - apply map_ext. intros row. unfold within, rvar, rmean, sum_squares, average. rewrite map_length. reflexivity.
Qed.

Lemma average_affine a b l : l <> [] -> average (map (fun v => a * v + b) l) = a * average l + b.
Proof.
  intros N. unfold average. rewrite map_length. change (fold_right Rplus 0) with rlsum. assert (0 < INR (List.length l)) by (apply lt_0_INR; destruct l; [contradiction N; reflexivity|cbn; lia]).
  assert (E : rlsum (map (fun v => a * v + b) l) = a * rlsum l + INR (List.length l) * b).
  { clear. induction l as [|v l IH]; [cbn; ring|]. cbn [map]. change (List.length (v :: l)) with (S (List.length l)). rewrite !rlsum_cons, IH, S_INR. ring. }
  rewrite E. field. lra.
Qed.
Lemma sum_squares_affine a b c l : sum_squares (a * c + b) (map (fun v => a * v + b) l) = a ^ 2 * sum_squares c l.
Proof. unfold sum_squares. change (fold_right Rplus 0) with rlsum. induction l as [|v l IH]; [cbn; ring|]. cbn [map]. rewrite !rlsum_cons, IH. ring. Qed.
Lemma rhat_affine a b n chain : (1 <= n)%nat -> chain <> [] -> Forall (fun row => List.length row = n) chain ->
  compute_rhat n (map (map (fun v => a * v + b)) chain) = a ^ 2 * compute_rhat n chain.
Proof.
  intros N C F. assert (NE : forall row, In row chain -> row <> []) by (intros row I; rewrite Forall_forall in F; specialize (F row I); destruct row; [cbn in F; lia|discriminate]).
  rewrite (rhat_value n chain N C F). rewrite rhat_value; [|exact N|destruct chain; [contradiction C; reflexivity|discriminate]|].
  - rewrite map_length. replace (map average (map (map (fun v => a * v + b)) chain)) with (map (fun v => a * v + b) (map average chain)).
    2:{ rewrite !map_map. apply map_ext_in. intros row I. symmetry. apply average_affine, NE, I. }
    rewrite average_affine by (destruct chain; [contradiction C; reflexivity|discriminate]). rewrite sum_squares_affine.
    replace (map within (map (map (fun v => a * v + b)) chain)) with (map (fun v => a ^ 2 * v + 0) (map within chain)).
    2:{ rewrite !map_map. apply map_ext_in. intros row I. unfold within. rewrite (average_affine a b row (NE row I)), sum_squares_affine, map_length. unfold Rdiv. ring. }
    rewrite average_affine by (destruct chain; [contradiction C; reflexivity|discriminate]). unfold Rdiv. ring.
  - apply Forall_forall. intros row' I. apply in_map_iff in I as (row & <- & I). rewrite map_length. rewrite Forall_forall in F. apply F, I.
Qed.
(* walkers that all follow the same values *)
Lemma rhat_same n k row : (1 <= n)%nat -> List.length row = n -> (2 <= k)%nat ->
  compute_rhat n (repeat row k) = (INR n - 1) / INR n * within row.
Proof.
  intros N L K. rewrite rhat_value; [|exact N|destruct k; [lia|discriminate]|].
  - assert (E : forall v k, (1 <= k)%nat -> average (repeat v k) = v).
    { clear. intros v k K. unfold average. rewrite repeat_length. change (fold_right Rplus 0) with rlsum. assert (0 < INR k) by (apply lt_0_INR; lia).
      replace (rlsum (repeat v k)) with (INR k * v); [field; lra|]. clear. induction k as [|k IH]; [cbn; ring|]. cbn [repeat]. rewrite rlsum_cons, <- IH, S_INR. ring. }
    rewrite !map_repeat, !E by lia. replace (sum_squares (average row) (repeat (average row) k)) with 0; [unfold Rdiv; ring|].
    unfold sum_squares. rewrite map_repeat. replace ((average row - average row) ^ 2) with 0 by ring. clear. induction k as [|k IH]; [reflexivity|]. cbn [repeat fold_right]. rewrite <- IH. ring.
  - apply Forall_forall. intros r I. apply repeat_spec in I. subst. reflexivity.
Qed.
(* a criterion of convergence should not depend on the unit of the parameter *)
Lemma rhat_scale_refuted : exists n chain a, (2 <= n)%nat /\ (2 <= List.length chain)%nat /\ Forall (fun row => List.length row = n) chain /\ a <> 0 /\
  compute_rhat n (map (map (fun v => a * v + 0)) chain) <> compute_rhat n chain.
Proof.
  exists 2%nat, (repeat [0; 2] 2), 2. split; [lia|]. split; [cbn; lia|]. split; [repeat constructor|]. split; [lra|].
  rewrite rhat_affine; [|lia|discriminate|repeat constructor]. rewrite rhat_same by (reflexivity || lia). unfold within, sum_squares, average. cbn. lra.
Qed.
(* ---- bounds, errors of simulations, values that are not there ---- *)
Lemma bounds_methods method : (In method ["L-BFGS-B"; "TNC"; "SLSQP"]%string <-> use_bounds method [] = true) /\
  forall b bounds, b <> (None, None) -> use_bounds method (b :: bounds) = false.
Proof.
  split.
  - rewrite bounds_used_iff. unfold bounded_methods. split; [intros H; split; [exact H|constructor]|tauto].
  - intros b bounds H. destruct (use_bounds method (b :: bounds)) eqn:U; [|reflexivity]. apply bounds_used_iff in U. destruct U as [_ U]. inversion U. contradiction.
Qed.
Lemma simulate_error {A} (statistic : A -> result R) before s after sims e :
  Forall2 (fun t v => statistic t = Ok v) before sims -> statistic s = Err e -> e <> RuntimeError -> simulate statistic (before ++ s :: after) = Err e.
Proof.
  intros F E N. unfold simulate. induction F as [|t v bs vs S F IH]; cbn [app map_result].
  - rewrite E. destruct e; try reflexivity. contradiction.
  - rewrite S. cbn [bind]. rewrite IH. reflexivity.
Qed.
Lemma outlier_absent xdata ratio v : ~ In v ratio -> find_outlier xdata ratio v = Err IndexError.
Proof.
  intros H. unfold find_outlier. replace (index_of v ratio) with (@None nat); [reflexivity|]. symmetry.
  induction ratio as [|a l IH]; [reflexivity|]. cbn [index_of]. destruct (Req_EM_T a v) as [->|_]; [destruct H; left; reflexivity|]. rewrite IH; [reflexivity|]. intros K. apply H. right. exact K.
Qed.
