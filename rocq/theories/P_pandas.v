(* P_pandas.v: proofs about the conversion of objects into pandas data frames. *)
From Coq Require Import String Ascii.
From Verif Require Import Np Lib M_utils M_base M_io M_mission M_object S_object P_mission P_object P_helpers P_object2 M_xarr M_pandas P_xarr.
From Coq Require Import ZArith QArith List Bool Lia Lqa Permutation.
Import ListNotations.
Open Scope Q_scope.

Lemma split_flat l : (forall p, In p l -> flat (snd p) = true) -> flat_map split_array l = l.
Proof.
  induction l as [|[x v] l IH]; intros H; [reflexivity|]. cbn [flat_map]. pose proof (H _ (or_introl eq_refl)) as F. cbn [snd] in F.
  destruct v as [| | |[|m [|? ?]] dd|]; try discriminate. cbn [split_array snd app]. rewrite IH; [reflexivity|]. intros p Q. apply H. now right.
Qed.
Lemma set_fresh d : forall x v, ~ In x (map fst d) -> set_attr d x v = d ++ [(x, v)].
Proof.
  induction d as [|[y w] d IH]; intros x v H; [reflexivity|]. cbn [set_attr map fst In] in *. rewrite str_eqb_neq by tauto. cbn [app]. rewrite IH by tauto. reflexivity.
Qed.
Lemma dict_of l : forall d, NoDup (map fst (d ++ l)) -> fold_left (fun d p => set_attr d (fst p) (snd p)) l d = d ++ l.
Proof.
  induction l as [|[x v] l IH]; intros d N; cbn [fold_left]; [now rewrite app_nil_r|]. cbn [fst snd]. rewrite set_fresh.
  - rewrite IH; rewrite <- app_assoc; [reflexivity|exact N].
  - rewrite map_app in N. cbn [map fst] in N. apply NoDup_remove_2 in N. intros K. apply N. apply in_app_iff. now left.
Qed.
Lemma put_all_ext c f g l : (forall p, In p l -> f (fst p) = g (fst p)) -> forall o, put_all c f l o = put_all c g l o.
Proof.
  induction l as [|p l IH]; intros H o; [reflexivity|]. cbn [put_all]. rewrite (H p (or_introl eq_refl)).
  destruct (if g (fst p) then _ else _); [|reflexivity]. cbn [bind]. apply IH. intros q Q. apply H. now right.
Qed.
Lemma filter_all_false {A} (f : A -> bool) l : (forall a, In a l -> f a = false) -> filter f l = [].
Proof. induction l as [|a l IH]; intros H; [reflexivity|]. cbn [filter]. rewrite (H a (or_introl eq_refl)). apply IH. intros b B. apply H. now right. Qed.
(* without names with _dim a data frame is read like a dataset *)
Lemma read_as_xarray uniq c cols attrs m s d : uniq [] = [] -> (forall p, In p cols -> contains (% "_dim") (fst p) = false) ->
  attr cols (c_main c) = Some (VArr (m :: s) d) -> m <> 0%nat -> len_frame (mkFrame cols attrs) <> 0%nat ->
  from_pandas uniq c (mkFrame cols attrs) = from_xarray c (mkData cols [] attrs).
Proof.
  intros U D A M L. unfold from_pandas, from_xarray. cbn [f_cols f_attrs d_coords d_vars d_attrs]. rewrite app_nil_r.
  rewrite (proj2 (Nat.eqb_neq _ _) L). rewrite A. cbn [first_dim bind]. rewrite (proj2 (Nat.eqb_neq _ _) M).
  destruct (put_attr c (c_new c) _ _); [|reflexivity]. cbn [bind].
  rewrite (put_all_ext c _ (str_eqb (c_main c)) cols) by (intros p I; rewrite (D p I), orb_false_r; reflexivity).
  destruct (put_all c (str_eqb (c_main c)) cols a); [|reflexivity]. cbn [bind].
  rewrite filter_all_false.
  - cbn [map]. rewrite U. reflexivity.
  - intros x I. apply in_map_iff in I. destruct I as (p & <- & I). rewrite (D p I). reflexivity.
Qed.
Section Trip.
Variables (c : cls) (o : obj) (n : nat).
Variable uniq : list str -> list str.
Hypothesis U : uniq [] = [].
Hypothesis P : proper o.
Hypothesis L : long c o n.
Hypothesis N0 : n <> 0%nat.
Hypothesis ND : NoDup (c_not_array c).
Hypothesis G : forall x, In x (c_not_array c) -> exists v, In (x, v) o.
Hypothesis NM : ~ In (c_main c) (c_not_array c).
Hypothesis PM : public (c_main c).
Hypothesis PN : forall x, In x (c_not_array c) -> public x.
Hypothesis RO : forall x, In x (c_readonly c) -> ~ In x (map fst o).
Hypothesis GT : c_gti c = true -> In (% "gti") (c_not_array c).
(* arrays have one number for each of their n entries and columns one dimension *)
Hypothesis SZ : forall x s d, In (x, VArr s d) o -> List.length d = fold_right Nat.mul 1%nat s.
Hypothesis FL : forall x s d, x = c_main c \/ column c o n x \/ hidden c o n x -> In (x, VArr s d) o -> s = [n].
(* no column is called like a part of an array with more dimensions *)
Hypothesis DM : forall x, x = c_main c \/ column c o n x \/ hidden c o n x -> ~ exists a b, x = a ++ % "_dim" ++ b.

Lemma starts_app p s : starts p s = true -> exists b, s = p ++ b.
Proof.
  revert s. induction p as [|a p IH]; intros s H; [now exists s|]. destruct s as [|b s]; [discriminate|]. cbn [starts] in H. apply andb_prop in H.
  destruct H as [H K]. apply Ascii.eqb_eq in H. subst b. destruct (IH s K) as (t & ->). now exists t.
Qed.
Lemma contains_app p s : contains p s = true -> exists a b, s = a ++ p ++ b.
Proof.
  induction s as [|x s IH]; intros H; cbn [contains] in H; apply orb_prop in H; destruct H as [H|H]; try discriminate.
  - apply starts_app in H. destruct H as (b & ->). now exists [], b.
  - apply starts_app in H. destruct H as (b & ->). now exists [], b.
  - destruct (IH H) as (a & b & ->). now exists (x :: a), b.
Qed.
Lemma pandas_trip : exists f o', to_pandas c o = Ok f /\ from_pandas uniq c f = Ok o' /\ NoDup (map fst (f_cols f)) /\
  (forall x v, In (x, v) (f_cols f) <-> In (x, v) o /\ (x = c_main c \/ column c o n x \/ hidden c o n x)) /\
  (forall x v, x <> % "_mask" -> In (x, v) o -> x = c_main c \/ column c o n x \/ hidden c o n x -> attr o' x = Some v) /\
  (forall x v, In (x, v) o -> v <> VNone -> meta c o n x -> attr o' x = Some v) /\
  (forall x, x <> % "_mask" -> ~ In x (map fst o) -> attr o' x = attr (c_new c) x) /\
  (forall x, In (x, VNone) o -> x <> % "_mask" -> attr o' x = attr (c_new c) x) /\
  (c_gti c = true -> (exists v, In (% "gti", v) o /\ v <> VNone) -> attr o' (% "_mask") = Some VNone) /\
  (forall v, (c_gti c = false \/ In (% "gti", VNone) o) -> c_main c <> % "_mask" -> hidden c o n (% "_mask") -> In (% "_mask", v) o ->
     attr o' (% "_mask") = Some v).
Proof.
  destruct (table_ok c o n P L ND G NM PM) as (t & ET & NC & NMe & C & M).
  assert (ARR : forall x v, In (x, v) (t_cols t) -> exists d, v = VArr [n] d /\ List.length d = n).
  { intros x v H. apply C in H. destruct H as [H K]. assert (exists s d, v = VArr s d) as (s & d & ->).
    { destruct K as [->|[(_ & _ & _ & s & d & K)|(_ & _ & _ & _ & s & d & K & _)]].
      - destruct L as (s & d & K). apply (in_attr _ _ _ P) in H, K. exists (n :: s), d. congruence.
      - apply (in_attr _ _ _ P) in H, K. exists (n :: s), d. congruence.
      - apply (in_attr _ _ _ P) in H, K. exists (n :: s), d. congruence. }
    pose proof (FL x s d K H) as ->. exists d. split; [reflexivity|]. rewrite (SZ _ _ _ H). cbn. lia. }
  assert (FLT : forall p, In p (t_cols t) -> flat (snd p) = true). { intros [x v] H. destruct (ARR x v H) as (d & -> & _). reflexivity. }
  assert (EX : to_xarray c o = Ok (mkData (t_cols t) [] (t_meta t))).
  { unfold to_xarray. rewrite ET. cbn [bind]. rewrite names_one_size by (rewrite flat_dims by exact FLT; exact NC). f_equal. f_equal.
    - clear -FLT. induction (t_cols t) as [|p l IH]; [reflexivity|]. cbn [filter]. rewrite (FLT p (or_introl eq_refl)). f_equal. apply IH. intros q Q. apply FLT. now right.
    - apply filter_all_false. intros p I. now rewrite (FLT p I). }
  destruct (xarray_trip c o n P L N0 ND G NM PM PN RO GT _ EX) as (o' & EO & REST).
  exists (mkFrame (t_cols t) (t_meta t)), o'. split; [|split; [|split; [exact NC|split; [exact C|exact REST]]]].
  - unfold to_pandas. rewrite ET. cbn [bind]. rewrite split_flat by exact FLT. rewrite dict_of by exact NC. reflexivity.
  - destruct L as (s & d & ML). assert (MC : In (c_main c, VArr (n :: s) d) (t_cols t)) by (apply C; auto).
    rewrite (read_as_xarray uniq c _ _ n s d U); [exact EO| |now apply in_attr|exact N0|].
    + intros [x v] I. cbn [fst]. destruct (contains (% "_dim") x) eqn:E; [|reflexivity]. exfalso. apply contains_app in E. apply (DM x); [|exact E]. apply C in I. tauto.
    + unfold len_frame. cbn [f_cols]. destruct (t_cols t) as [|[x v] l]; [destruct MC|]. destruct (ARR x v (or_introl eq_refl)) as (dd & -> & E). cbn. congruence.
Qed.
End Trip.
Lemma pandas_empty uniq c f : len_frame f = 0%nat -> from_pandas uniq c f = Ok (c_new c).
Proof. intros E. unfold from_pandas. rewrite E. reflexivity. Qed.
Lemma pandas_no_main uniq c f : len_frame f <> 0%nat -> ~ In (c_main c) (map fst (f_cols f)) -> from_pandas uniq c f = Err KeyError.
Proof.
  intros E H. unfold from_pandas. rewrite (proj2 (Nat.eqb_neq _ _) E). destruct (attr _ _) as [v|] eqn:A; [|reflexivity]. exfalso. apply H. apply attr_in in A. now apply (in_map fst) in A.
Qed.
