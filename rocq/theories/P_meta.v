(* P_meta.v: meta data of tables: proofs. *)
From Coq Require Import String Ascii.
From Verif Require Import Np Lib M_io M_meta S_meta.
From Coq Require Import ZArith QArith List Bool Lia.
Import ListNotations.
Open Scope Q_scope.

Lemma starts_iff p s : starts_with p s = true <-> exists b, s = p ++ b.
Proof.
  revert s. induction p as [|a p IH]; intros s; [split; [now exists s|reflexivity]|]. destruct s as [|c s]; [split; [discriminate|intros (b & E); discriminate]|].
  cbn [starts_with app]. rewrite andb_true_iff, Ascii.eqb_eq, IH. split.
  - intros (-> & b & ->). now exists b.
  - intros (b & E). injection E as -> ->. split; [reflexivity|now exists b].
Qed.
Lemma sub_iff p s : has_sub p s = true <-> within p s.
Proof.
  induction s as [|c s IH]; cbn [has_sub]; rewrite orb_true_iff, starts_iff.
  - split; [intros [(b & E)|]; [exists [], b; exact E|discriminate]|]. intros (a & b & E). destruct a; [|discriminate]. left. now exists b.
  - rewrite IH. split.
    + intros [(b & E)|(a & b & ->)]; [exists [], b; exact E|]. now exists (c :: a), b.
    + intros ([|x a] & b & E); [left; now exists b|]. right. injection E as -> ->. now exists a, b.
Qed.
Fixpoint depth (v : mvalue) : nat := match v with MList l => S (fold_right (fun x n => Nat.max (depth x) n) O l) | _ => O end.
Lemma depth_in l v : In v l -> (depth v < depth (MList l))%nat.
Proof.
  cbn [depth]. induction l as [|x l IH]; intros H; [destruct H|]. cbn [fold_right]. destruct H as [->|H]; [lia|]. specialize (IH H). lia.
Qed.
Lemma shown_iff v : (shown (% "np.float") v = true \/ shown (% "np.int") v = true) <-> numpy_in v.
Proof.
  remember (depth v) as k eqn:K. assert (L : (depth v <= k)%nat) by lia. clear K. revert v L. induction k as [k IH] using lt_wf_ind. intros v L.
  destruct v as [x|x|z|x|s|l|b d|].
  1, 4, 7, 8: split; [intros [H|H]; discriminate|intros H; inversion H].
  - split; [constructor|left; reflexivity].
  - split; [constructor|right; reflexivity].
  - cbn [shown]. rewrite !sub_iff. split; [intros H; now constructor|intros H; now inversion H].
  - cbn [shown]. rewrite !existsb_exists. split.
    + intros [(v & I & H)|(v & I & H)]; apply (in_list l v I); pose proof (depth_in l v I); apply (IH (depth v)); try lia; [now left|now right].
    + intros H. inversion H as [| | |? v I N]; subst. pose proof (depth_in l v I). apply (IH (depth v)) in N; try lia. destruct N as [N|N]; [left|right]; now exists v.
Qed.
Lemma long_iff v : is_long v = true <-> (exists x, v = MLong x) \/ (exists d, v = MArr true d) \/ long_list v.
Proof.
  remember (depth v) as k eqn:K. assert (L : (depth v <= k)%nat) by lia. clear K. revert v L. induction k as [k IH] using lt_wf_ind. intros v L.
  destruct v as [x|x|z|x|s|l|b d|]; try (split; [discriminate|intros [(y & E)|[(y & E)|H]]; [discriminate|discriminate|inversion H]]).
  - split; [left; now exists x|reflexivity].
  - destruct l as [|u [|w l]]; try (split; [discriminate|intros [(y & E)|[(y & E)|H]]; [discriminate|discriminate|inversion H]]).
    cbn [is_long]. assert (D : (depth u < depth (MList (u :: w :: l)))%nat) by (apply depth_in; now left). rewrite (IH (depth u)) by lia. split.
    + intros [(x & ->)|[(d & ->)|H]]; right; right; [apply long_number|apply long_array|now apply long_deep].
    + intros [(y & E)|[(y & E)|H]]; [discriminate|discriminate|]. inversion H; subst; [left; now eexists|right; left; now eexists|right; right; assumption].
  - cbn [is_long]. split; [intros ->; right; left; now exists d|]. intros [(y & E)|[(y & E)|H]]; [discriminate|now injection E|inversion H].
Qed.
Lemma cleaned number v : (forall s, within (% "np.float") s \/ within (% "np.int") s -> number s = None) ->
  (~ trouble v -> exists w, clean number v = Ok w /\ as_python v w) /\ (trouble v -> clean number v = Err ValueError \/ clean number v = Err TypeError).
Proof.
  intros Hn.
  assert (C : (exists w, clean number v = Ok w /\ ~ numpy_in v /\ w = v) \/ (numpy_in v /\ clean number v = py_number number v)).
  { unfold clean. pose proof (shown_iff v) as S. destruct (shown (% "np.float") v) eqn:E1; [right; split; [apply S; now left|reflexivity]|].
    destruct (shown (% "np.int") v) eqn:E2; [right; split; [apply S; now right|reflexivity]|]. left. exists v. split; [reflexivity|]. split; [|reflexivity].
    intros N. apply S in N. destruct N; discriminate. }
  destruct C as [(w & -> & N & ->)|[N ->]].
  - split; [intros _; exists v; split; [reflexivity|]|intros T; exfalso; apply N; inversion T; [now constructor|now apply (in_list l v0)]].
    constructor; intros y ->; apply N; constructor.
  - inversion N as [x|z|s H|l u I U]; subst; cbn [py_number].
    + split; [intros _; eexists; split; [reflexivity|constructor]|intros T; inversion T].
    + split; [intros _; eexists; split; [reflexivity|constructor]|intros T; inversion T].
    + rewrite (Hn s H). split; [intros T; exfalso; apply T; now constructor|intros _; now left].
    + split; [intros T; exfalso; apply T; now apply (bad_list l u)|intros _; now right].
Qed.
Lemma meta_ok number d : (forall s, within (% "np.float") s \/ within (% "np.int") s -> number s = None) -> Forall (fun p => ~ trouble (snd p)) d ->
  exists t, table_meta number false d = Ok t /\ Forall2 (fun p q => fst q = fst p /\ as_python (snd p) (snd q)) d t.
Proof.
  intros Hn H. induction H as [|[k v] d Hv H IH]; [exists []; split; [reflexivity|constructor]|]. destruct IH as (t & Et & Ft). cbn [snd] in Hv.
  destruct (proj1 (cleaned number v Hn) Hv) as (w & Ew & Aw). exists ((k, w) :: t). cbn [table_meta bind]. rewrite Ew. cbn [bind]. rewrite Et. cbn [bind]. split; [reflexivity|].
  constructor; [now split|exact Ft].
Qed.
Lemma meta_error number d k v : (forall s, within (% "np.float") s \/ within (% "np.int") s -> number s = None) -> In (k, v) d -> trouble v ->
  table_meta number false d = Err ValueError \/ table_meta number false d = Err TypeError.
Proof.
  intros Hn I T. induction d as [|[m u] d IH]; [destruct I|]. cbn [table_meta bind].
  destruct (clean number u) as [w|e] eqn:E; cbn [bind].
  - destruct I as [I|I]; [injection I as -> ->; destruct (proj2 (cleaned number v Hn) T) as [C|C]; congruence|]. destruct (IH I) as [->| ->]; [now left|now right].
  - destruct (cleaned number u Hn) as [A B]. destruct u as [x|x|z|x|s|l|b dd|]; try (exfalso; destruct A as (w & Ew & _); [solve [intros Q; inversion Q]|congruence]).
    + unfold clean in E. cbn [py_number] in E. destruct (shown (% "np.float") (MText s)); [destruct (number s); [discriminate|injection E as <-; now left]|].
      destruct (shown (% "np.int") (MText s)); [destruct (number s); [discriminate|injection E as <-; now left]|discriminate].
    + unfold clean in E. cbn [py_number] in E. destruct (shown (% "np.float") (MList l)); [injection E as <-; now right|].
      destruct (shown (% "np.int") (MList l)); [injection E as <-; now right|discriminate].
Qed.
Lemma meta_double number d : (forall s, within (% "np.float") s \/ within (% "np.int") s -> number s = None) -> Forall (fun p => ~ trouble (snd p) /\ ~ long_list (snd p)) d ->
  exists t, table_meta number true d = Ok t /\ Forall2 (fun p q => fst q = fst p /\ as_double (snd p) (snd q)) d t.
Proof.
  intros Hn H. induction H as [|[k v] d [Hv Hl] H IH]; [exists []; split; [reflexivity|constructor]|]. destruct IH as (t & Et & Ft). cbn [snd] in *.
  assert (X : exists v1 w, reduce v = Ok v1 /\ clean number v1 = Ok w /\ as_double v w).
  { unfold reduce. destruct (is_long v) eqn:E.
    - apply long_iff in E. destruct E as [(x & ->)|[(a & ->)|E]]; [| |contradiction].
      + exists (MFloat x), (MPy x). split; [reflexivity|]. split; [reflexivity|constructor].
      + exists (MArr false a), (MArr false a). split; [reflexivity|]. split; [reflexivity|constructor].
    - exists v. destruct (proj1 (cleaned number v Hn) Hv) as (w & Ew & Aw). exists w. split; [reflexivity|]. split; [exact Ew|].
      destruct v as [x|x|z|x|s|l|b a|]; try (solve [apply db_other; [intros ?; discriminate|intros ? ?; discriminate|exact Aw]]).
      cbn [is_long] in E. subst b. inversion Aw; subst. constructor. }
  destruct X as (v1 & w & E1 & E2 & A). exists ((k, w) :: t). cbn [table_meta]. rewrite E1. cbn [bind]. rewrite E2. cbn [bind]. rewrite Et. cbn [bind]. split; [reflexivity|].
  constructor; [now split|exact Ft].
Qed.
Lemma double_error number k v d : long_list v -> table_meta number true ((k, v) :: d) = Err AttributeError.
Proof.
  intros H. cbn [table_meta]. unfold reduce. assert (E : is_long v = true) by (apply long_iff; auto). rewrite E. inversion H; subst; reflexivity.
Qed.
