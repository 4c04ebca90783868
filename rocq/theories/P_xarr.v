(* P_xarr.v: proofs about the conversion of objects into xarray datasets. *)
From Coq Require Import String Ascii.
From Verif Require Import Np Lib M_utils M_base M_io M_mission M_object S_object P_mission P_object P_helpers P_object2 M_xarr.
From Coq Require Import ZArith QArith List Bool Lia Lqa Permutation.
Import ListNotations.
Open Scope Q_scope.

Lemma split_perm {A} (f : A -> bool) l : Permutation (filter f l ++ filter (fun x => negb (f x)) l) l.
Proof.
  induction l as [|a l IH]; [constructor|]. cbn [filter]. destruct (f a); cbn [negb].
  - cbn [app]. now constructor.
  - eapply Permutation_trans; [apply Permutation_sym, Permutation_middle|]. now constructor.
Qed.
Lemma put_all_fold c skip l : forall o, (forall p, In p l -> skip (fst p) = false -> ~ In (fst p) (c_readonly c)) ->
  put_all c skip l o = Ok (fold_left (step c (fun x => negb (skip x))) l o).
Proof.
  induction l as [|p l IH]; intros o H; [reflexivity|]. cbn [put_all fold_left].
  assert (T : forall q, In q l -> skip (fst q) = false -> ~ In (fst q) (c_readonly c)) by (intros q Q; apply H; now right).
  unfold step at 2. destruct (skip (fst p)) eqn:E; cbn [negb bind]; [now apply IH|].
  unfold put_attr. rewrite (proj2 (mem_not _ _)) by (apply H; [now left|exact E]). cbn [bind]. now apply IH.
Qed.
Lemma fold_filter c keep l : forall o, fold_left (step c keep) l o = fold_left (step c (fun _ => true)) (filter (fun p => keep (fst p)) l) o.
Proof.
  induction l as [|p l IH]; intros o; [reflexivity|]. cbn [fold_left filter]. unfold step at 2. destruct (keep (fst p)) eqn:E; [|apply IH].
  cbn [fold_left]. unfold step at 3. apply IH.
Qed.
Section Trip.
Variables (c : cls) (o : obj) (n : nat).
Hypothesis P : proper o.
Hypothesis L : long c o n.
Hypothesis N0 : n <> 0%nat.
Hypothesis ND : NoDup (c_not_array c).
Hypothesis G : forall x, In x (c_not_array c) -> exists v, In (x, v) o.
Hypothesis NM : ~ In (c_main c) (c_not_array c).
Hypothesis PM : public (c_main c).
Hypothesis PN : forall x, In x (c_not_array c) -> public x.
Hypothesis RO : forall x, In x (c_readonly c) -> ~ In x (map fst o).
Hypothesis GT : c_gti c = true -> In (% "gti") (c_not_array c).

Lemma xarray_trip d : to_xarray c o = Ok d -> exists o', from_xarray c d = Ok o' /\
  (forall x v, x <> % "_mask" -> In (x, v) o -> x = c_main c \/ column c o n x \/ hidden c o n x -> attr o' x = Some v) /\
  (forall x v, In (x, v) o -> v <> VNone -> meta c o n x -> attr o' x = Some v) /\
  (forall x, x <> % "_mask" -> ~ In x (map fst o) -> attr o' x = attr (c_new c) x) /\
  (forall x, In (x, VNone) o -> x <> % "_mask" -> attr o' x = attr (c_new c) x) /\
  (c_gti c = true -> (exists v, In (% "gti", v) o /\ v <> VNone) -> attr o' (% "_mask") = Some VNone) /\
  (forall v, (c_gti c = false \/ In (% "gti", VNone) o) -> c_main c <> % "_mask" -> hidden c o n (% "_mask") -> In (% "_mask", v) o ->
     attr o' (% "_mask") = Some v).
Proof.
  destruct (table_ok c o n P L ND G NM PM) as (t & ET & NC & NMe & C & M). unfold to_xarray. rewrite ET. cbn [bind].
  destruct (one_size _); [|discriminate]. intros E. injection E as <-. unfold from_xarray. cbn [d_coords d_vars d_attrs].
  set (arrays := filter (fun p => flat (snd p)) (t_cols t) ++ filter (fun p => negb (flat (snd p))) (t_cols t)).
  assert (AP : Permutation arrays (t_cols t)) by apply split_perm.
  assert (AN : NoDup (map fst arrays)). { eapply Permutation_NoDup; [apply Permutation_map, Permutation_sym, AP|exact NC]. }
  assert (AI : forall p, In p arrays <-> In p (t_cols t)). { intros p. split; apply Permutation_in; [exact AP|apply Permutation_sym, AP]. }
  destruct L as (s & d & ML). assert (MC : In (c_main c, VArr (n :: s) d) (t_cols t)) by (apply C; auto).
  assert (INO : forall x v, In (x, v) o -> ~ In x (c_readonly c)). { intros x v H K. apply (RO x K). now apply (in_map fst) in H. }
  rewrite (in_attr arrays (c_main c) (VArr (n :: s) d) AN (proj2 (AI _) MC)). cbn [first_dim bind].
  replace (n =? 0)%nat with false by (symmetry; now apply Nat.eqb_neq).
  unfold put_attr. rewrite (proj2 (mem_not _ _)) by (apply (INO _ _ ML)). cbn [bind].
  set (o1 := setattr c (c_new c) (c_main c) (VArr (n :: s) d)).
  rewrite put_all_fold by (intros [x v] H _; apply AI in H; apply C in H; apply (INO x v); tauto). cbn [bind].
  rewrite put_all_fold by (intros [x v] H _; apply M in H; apply (INO x v); tauto).
  set (rest := filter (fun p => negb (str_eqb (c_main c) (fst p))) arrays).
  rewrite (fold_filter c (fun x => negb (str_eqb (c_main c) x))). fold rest.
  assert (NR : NoDup (map fst rest)) by (unfold rest; now apply filter_names).
  assert (RIN : forall x v, In (x, v) rest <-> In (x, v) (t_cols t) /\ x <> c_main c).
  { intros x v. unfold rest. rewrite filter_In. rewrite AI. cbn [fst]. rewrite neg_eqb. intuition congruence. }
  assert (MET : forall x, In x (map fst (t_meta t)) -> meta c o n x).
  { intros x H. apply in_map_iff in H. destruct H as ([y v] & <- & H). now apply M in H. }
  assert (COL : forall x, In x (map fst rest) -> column c o n x \/ hidden c o n x).
  { intros x H. apply in_map_iff in H. destruct H as ([y v] & <- & H). apply RIN in H. destruct H as [H K]. apply C in H. cbn [fst]. tauto. }
  assert (MM : ~ meta c o n (c_main c)).
  { intros [K|(_ & K & _)]; [now apply NM|now apply K]. }
  assert (DISJ : forall x, x = c_main c \/ column c o n x \/ hidden c o n x -> ~ In x (map fst (t_meta t))).
  { intros x H K. apply MET in K. destruct H as [->|[H|H]]; [now apply MM| |].
    - destruct H as (_ & _ & A & s1 & d1 & H). destruct K as [K|(_ & _ & v & K & _ & V)]; [now apply A|].
      apply (in_attr _ _ _ P) in H, K. apply (V s1 d1). congruence.
    - destruct H as (A & _ & _ & B & _). destruct K as [K|(K & _)]; [now apply B|now apply A]. }
  assert (NMASK : ~ meta c o n (% "_mask")).
  { intros [K|(K & _)]; [apply PN in K|]; now apply (K (% "mask")). }
  assert (KEEP : forall x, In x (map fst (t_meta t)) -> negb (mem x (map fst arrays)) = true).
  { intros x H. apply neg_mem. intros K. apply in_map_iff in K. destruct K as ([y v] & E & K). cbn in E. subst y. apply AI in K. apply C in K.
    apply (DISJ x); tauto. }
  rewrite (fold_ext _ (step c (fun _ => true)) (t_meta t)).
  2:{ intros a [x v] H. unfold step. cbn [fst snd]. rewrite KEEP by (now apply (in_map fst) in H). reflexivity. }
  eexists. split; [reflexivity|].
  assert (O1 : forall x, x <> % "_mask" -> attr o1 x = if str_eqb (c_main c) x then Some (VArr (n :: s) d) else attr (c_new c) x).
  { intros x X. unfold o1. now apply attr_setattr. }
  repeat match goal with |- _ /\ _ => split end.
  - intros x v X H K. rewrite fold_out by auto.
    destruct (str_eqb x (c_main c)) eqn:E.
    + apply str_eqb_spec in E. subst x. rewrite fold_out; [|exact X|].
      * rewrite O1 by exact X. rewrite str_eqb_refl. apply (in_attr _ _ _ P) in H, ML. congruence.
      * intros Y. apply COL in Y. destruct Y as [(_ & Y & _)|(Y & _)]; [now apply Y|now apply Y].
    + apply fold_in; auto. apply RIN. split; [apply C; auto|]. intros ->. rewrite str_eqb_refl in E. discriminate.
  - intros x v H V K. destruct (str_eqb x (% "_mask")) eqn:E.
    + apply str_eqb_spec in E. subst x. contradiction.
    + apply fold_in; auto; [intros ->; rewrite str_eqb_refl in E; discriminate|now apply M].
  - intros x X K. assert (Z : ~ In x (map fst (t_meta t))).
    { intros Y. apply K. apply in_map_iff in Y. destruct Y as ([y v] & <- & Y). apply M in Y. destruct Y as [Y _]. now apply (in_map fst) in Y. }
    rewrite fold_out by auto. rewrite fold_out; [|exact X|].
    + rewrite O1 by exact X. rewrite str_eqb_neq; [reflexivity|]. intros <-. apply K. now apply (in_map fst) in ML.
    + intros Y. apply K. apply in_map_iff in Y. destruct Y as ([y v] & <- & Y). apply RIN in Y. destruct Y as [Y _].
      apply C in Y. destruct Y as [Y _]. now apply (in_map fst) in Y.
  - intros x H X. rewrite fold_out; [|exact X|].
    + rewrite fold_out; [|exact X|].
      * rewrite O1 by exact X. rewrite str_eqb_neq; [reflexivity|]. intros <-. apply (in_attr _ _ _ P) in H, ML. congruence.
      * intros Y. apply COL in Y. apply (in_attr _ _ _ P) in H.
        destruct Y as [(_ & _ & _ & s1 & d1 & Y)|(_ & _ & _ & _ & s1 & d1 & Y & _)]; apply (in_attr _ _ _ P) in Y; congruence.
    + intros Y. apply in_map_iff in Y. destruct Y as ([y v] & E & Y). cbn in E. subst y. apply M in Y. destruct Y as (Y & Z & _).
      apply (in_attr _ _ _ P) in H, Y. congruence.
  - intros T (v & H & V). apply (fold_mask_gti c _ (t_meta t) T) with (v := v).
    + reflexivity.
    + intros Y. now apply NMASK, MET.
    + apply M. repeat split; auto. left. auto.
    + intros w W. apply M in W. tauto.
  - intros v T X H V. rewrite fold_mask_out.
    + apply fold_mask_in; auto.
      * intros x Y. destruct (c_gti c) eqn:GE; [|now left]. right. intros ->. apply COL in Y.
        destruct Y as [(_ & _ & Y & _)|(_ & _ & _ & Y & _)]; apply Y; auto.
      * apply RIN. split; [apply C; auto|auto].
    + intros x Y. destruct T as [T|T]; [now left|right]. intros ->. apply in_map_iff in Y. destruct Y as ([y w] & E & Y). change (y = % "gti") in E. subst y.
      apply M in Y. destruct Y as (Y & Z & _). apply (in_attr _ _ _ P) in T, Y. congruence.
    + apply DISJ. auto.
Qed.

(* arrays with one dimension can always be written *)
Lemma flat_dims l : (forall p, In p l -> flat (snd p) = true) -> map fst (flat_map dims l) = map fst l.
Proof.
  induction l as [|[x v] l IH]; intros H; [reflexivity|]. cbn [flat_map map fst]. pose proof (H _ (or_introl eq_refl)) as F. cbn [snd] in F.
  destruct v as [| | |[|m [|? ?]] dd|]; try discriminate. cbn [dims snd fst app map]. rewrite IH; [reflexivity|]. intros p Q. apply H. now right.
Qed.
Lemma names_one_size l : NoDup (map fst l) -> one_size l = true.
Proof.
  intros N. unfold one_size. apply forallb_forall. intros [x a] A. apply forallb_forall. intros [y b] B. cbn [fst snd].
  destruct (str_eqb x y) eqn:E; [|reflexivity]. apply str_eqb_spec in E. subst y. cbn [negb orb]. apply Nat.eqb_eq.
  revert A B. induction l as [|[z k] l IH]; [intros []|]. cbn [map fst] in N. inversion N as [|? ? Z N']; subst.
  intros [A|A] [B|B].
  - congruence.
  - exfalso. apply Z. injection A as -> _. now apply (in_map fst) in B.
  - exfalso. apply Z. injection B as -> _. now apply (in_map fst) in A.
  - now apply IH.
Qed.
Lemma xarray_flat : (forall x s d, In (x, VArr s d) o -> (List.length s <= 1)%nat) -> exists d, to_xarray c o = Ok d.
Proof.
  intros F. destruct (table_ok c o n P L ND G NM PM) as (t & ET & NC & NMe & C & M). unfold to_xarray. rewrite ET. cbn [bind].
  rewrite names_one_size; [eauto|]. rewrite flat_dims; [exact NC|]. intros [x v] H. apply C in H. destruct H as [H K]. cbn [snd].
  assert (exists s d, v = VArr (n :: s) d) as (s & d & ->).
  { destruct K as [->|[(_ & _ & _ & s & d & K)|(_ & _ & _ & _ & s & d & K & _)]].
    - destruct L as (s & d & K). apply (in_attr _ _ _ P) in H, K. exists s, d. congruence.
    - apply (in_attr _ _ _ P) in H, K. exists s, d. congruence.
    - apply (in_attr _ _ _ P) in H, K. exists s, d. congruence. }
  apply F in H. cbn [List.length] in H. destruct s; [reflexivity|cbn in H; lia].
Qed.
End Trip.
Lemma xarray_fails c o e : (exists t, to_table c o = Ok t) -> to_xarray c o = Err e -> e = ValueError.
Proof. intros (t & E). unfold to_xarray. rewrite E. cbn [bind]. destruct (one_size _); congruence. Qed.
Lemma xarray_empty c d dd s : attr (d_coords d ++ d_vars d) (c_main c) = Some (VArr (0%nat :: s) dd) -> from_xarray c d = Ok (c_new c).
Proof. intros E. unfold from_xarray. rewrite E. reflexivity. Qed.
Lemma xarray_no_main c d : ~ In (c_main c) (map fst (d_coords d ++ d_vars d)) -> from_xarray c d = Err KeyError.
Proof.
  intros H. unfold from_xarray. destruct (attr _ _) as [v|] eqn:E; [|reflexivity]. exfalso. apply H. apply attr_in in E. now apply (in_map fst) in E.
Qed.
Lemma put_all_readonly c skip l : forall o x v, In (x, v) l -> skip x = false -> In x (c_readonly c) -> put_all c skip l o = Err AttributeError.
Proof.
  induction l as [|p l IH]; intros o x v I S R; [destruct I|]. cbn [put_all]. destruct I as [->|I].
  - cbn [fst snd]. rewrite S. unfold put_attr. rewrite (proj2 (mem_iff _ _) R). reflexivity.
  - destruct (skip (fst p)); cbn [bind]; [now apply (IH _ x v)|]. unfold put_attr. destruct (mem _ _); [reflexivity|]. cbn [bind]. now apply (IH _ x v).
Qed.
(* a dataset from elsewhere: an attribute that is a property of the class without setter *)
Lemma xarray_readonly c d m s dd x v : attr (d_coords d ++ d_vars d) (c_main c) = Some (VArr (S m :: s) dd) -> In (x, v) (d_attrs d) ->
  ~ In x (map fst (d_coords d ++ d_vars d)) -> In x (c_readonly c) -> from_xarray c d = Err AttributeError.
Proof.
  intros E I N R. unfold from_xarray. rewrite E. cbn [first_dim bind Nat.eqb]. unfold put_attr at 1. destruct (mem (c_main c) _); [reflexivity|]. cbn [bind].
  destruct (put_all c (str_eqb (c_main c)) _ _) as [o1|e] eqn:Q.
  - cbn [bind]. apply (put_all_readonly c _ (d_attrs d) o1 x v I); [|exact R]. now apply mem_not.
  - cbn [bind]. f_equal. clear -Q. revert Q. generalize (setattr c (c_new c) (c_main c) (VArr (S m :: s) dd)).
    induction (d_coords d ++ d_vars d) as [|p l IH]; intros o Q; [discriminate|]. cbn [put_all] in Q. destruct (str_eqb _ _); cbn [bind] in Q; [now apply (IH o)|].
    unfold put_attr in Q. destruct (mem _ _); cbn [bind] in Q; [congruence|]. now apply (IH _ Q).
Qed.
