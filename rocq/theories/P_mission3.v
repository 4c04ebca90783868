(* P_mission3.v: rough energies, mission database, keys *)
From Coq Require Import String Ascii.
From Verif Require Import Np Lib M_utils M_base M_io M_mission S_mission S_mission2 P_mission.
From Coq Require Import ZArith QArith List Bool Lia.
Import ListNotations.
Open Scope nat_scope.

(* ---- case ---- *)
Lemma nat_inj x y : nat_of_ascii x = nat_of_ascii y -> x = y.
Proof. intros H. rewrite <- (ascii_nat_embedding x), <- (ascii_nat_embedding y), H. reflexivity. Qed.
Lemma lower_char_nat c : nat_of_ascii (lower_char c) = if (Nat.leb 65 (nat_of_ascii c) && Nat.leb (nat_of_ascii c) 90)%bool then nat_of_ascii c + 32 else nat_of_ascii c.
Proof.
  unfold lower_char. destruct (Nat.leb 65 (nat_of_ascii c) && Nat.leb (nat_of_ascii c) 90)%bool eqn:E; [|reflexivity]. apply andb_true_iff in E. destruct E as [_ E]. apply Nat.leb_le in E.
  apply nat_ascii_embedding. lia.
Qed.
Lemma lower_char_same x y : lower_char x = lower_char y <-> (x = y \/ (capital x /\ nat_of_ascii y = nat_of_ascii x + 32) \/ (capital y /\ nat_of_ascii x = nat_of_ascii y + 32)).
Proof.
  assert (I : lower_char x = lower_char y <-> nat_of_ascii (lower_char x) = nat_of_ascii (lower_char y)) by (split; [congruence|apply nat_inj]).
  rewrite I, !lower_char_nat. unfold capital.
  destruct (Nat.leb_spec 65 (nat_of_ascii x)), (Nat.leb_spec (nat_of_ascii x) 90), (Nat.leb_spec 65 (nat_of_ascii y)), (Nat.leb_spec (nat_of_ascii y) 90); cbn [andb]; split;
    try (intros [->|[[]|[]]]; lia); intros Q; try lia; try (left; apply nat_inj; lia); right; lia.
Qed.
Lemma lower_same a b : lower a = lower b <-> same_case a b.
Proof.
  unfold same_case. revert b. induction a as [|x a IH]; intros [|y b]; cbn [lower map length].
  - split; [intros _; split; [reflexivity|intros [|i] ? ? H; discriminate H]|reflexivity].
  - split; [discriminate|intros [H _]; discriminate H].
  - split; [discriminate|intros [H _]; discriminate H].
  - split.
    + intros H. injection H as H1 H2. apply lower_char_same in H1. apply IH in H2. destruct H2 as [L K]. split; [congruence|]. intros [|i] u v U V; cbn [nth_error] in *; [injection U as <-; injection V as <-; exact H1|eapply K; eassumption].
    + intros [L K]. f_equal; [apply lower_char_same, (K 0); reflexivity|]. apply IH. split; [congruence|]. intros i u v U V. apply (K (S i) u v U V).
Qed.

(* ---- rough energies ---- *)
Definition rough_table : list (str * (Q * Q)) := [(% "nustar", (4 # 100, 162 # 100)); (% "xmm", (1 # 1000, 0)); (% "nicer", (1 # 100, 0)); (% "ixpe", (15 # 375, 0))]%Q.
Definition rough_missions : list str := [% "nustar"; % "xmm"; % "nicer"; % "ixpe"].
Lemma rough_values pi mission m slope offset : In (m, (slope, offset)) rough_table -> same_case mission m ->
  exists e, rough_calibration pi mission = Ok e /\ (e == slope * pi + offset)%Q.
Proof.
  intros I S. apply lower_same in S. unfold rough_calibration. rewrite S. cbn [In rough_table] in I.
  destruct I as [[= <- <- <-]|[[= <- <- <-]|[[= <- <- <-]|[[= <- <- <-]|[]]]]]; eexists; (split; [reflexivity|]); field.
Qed.
Lemma rough_agree pi mission m instrument epoch d : In m rough_missions -> same_case mission m -> rough_conversion mission instrument epoch pi d = rough_calibration (inject_Z pi) mission.
Proof.
  intros I S. apply lower_same in S. unfold rough_calibration, rough_conversion. rewrite S. cbn [In rough_missions] in I. destruct I as [<-|[<-|[<-|[<-|[]]]]]; reflexivity.
Qed.
Lemma rough_case pi mission mission' instrument epoch c d : same_case mission mission' ->
  rough_calibration pi mission = rough_calibration pi mission' /\ rough_conversion mission instrument epoch c d = rough_conversion mission' instrument epoch c d.
Proof. intros S. apply lower_same in S. unfold rough_calibration, rough_conversion. rewrite S. split; reflexivity. Qed.
Lemma rough_unknown pi mission : (forall m, In m rough_missions -> ~ same_case mission m) -> rough_calibration pi mission = Err ValueError.
Proof.
  intros H. assert (N : forall m, In m rough_missions -> lower m = m -> str_eqb (lower mission) m = false).
  { intros m I L. apply str_eqb_neq. intros E. apply (H m I), lower_same. congruence. }
  unfold rough_calibration. rewrite !N; try reflexivity; unfold rough_missions; cbn [In]; tauto.
Qed.
Lemma conversion_unknown mission instrument epoch c d : (forall m, In m (rough_missions ++ [% "axaf"; % "xte"]) -> ~ same_case mission m) -> rough_conversion mission instrument epoch c d = Err ValueError.
Proof.
  intros H. assert (N : forall m, In m (rough_missions ++ [% "axaf"; % "xte"]) -> lower m = m -> str_eqb (lower mission) m = false).
  { intros m I L. apply str_eqb_neq. intros E. apply (H m I), lower_same. congruence. }
  unfold rough_conversion, simple_conversion. rewrite !N; try reflexivity; unfold rough_missions; cbn [In app]; tauto.
Qed.
Lemma axaf_refuted : exists mission instrument epoch c d e, rough_conversion mission instrument epoch c d = Ok e /\ rough_calibration (inject_Z c) mission = Err ValueError.
Proof. exists % "AXAF", None, 0%Q, 1%Z, 0%Z. eexists. split; reflexivity. Qed.
Lemma xte_instrument mission epoch c d : same_case mission % "xte" ->
  rough_conversion mission None epoch c d = Err AttributeError /\
  (forall i, ~ same_case i % "pca" -> rough_conversion mission (Some i) epoch c d = Err ValueError) /\
  (forall i, same_case i % "pca" -> rough_conversion mission (Some i) epoch c d = pca_energy epoch c d).
Proof.
  intros S. apply lower_same in S. unfold rough_conversion. rewrite S. split; [reflexivity|]. split; intros i H; cbn [lower map simple_conversion].
  - change (rxte_energy (Some i) epoch c d = Err ValueError). unfold rxte_energy. rewrite str_eqb_neq; [reflexivity|]. intros E. apply H, lower_same. exact E.
  - change (rxte_energy (Some i) epoch c d = pca_energy epoch c d). unfold rxte_energy. apply lower_same in H. rewrite H. reflexivity.
Qed.

(* ---- dictionaries ---- *)
Notation dict := (list (str * tree)).
Lemma dget_set (d : dict) k v k' : dget (dset d k v) k' = if str_dec k k' then Some v else dget d k'.
Proof.
  induction d as [|[a b] d IH]; cbn [dset dget].
  - destruct (str_dec k k') as [->|N]; [now rewrite str_eqb_refl|now rewrite str_eqb_neq].
  - destruct (str_dec a k) as [->|N].
    + rewrite str_eqb_refl. cbn [dget]. destruct (str_dec k k') as [->|M]; [now rewrite str_eqb_refl|]. now rewrite (str_eqb_neq k k').
    + rewrite (str_eqb_neq a k) by exact N. cbn [dget]. rewrite IH. destruct (str_dec a k') as [->|M].
      * rewrite str_eqb_refl. destruct (str_dec k k') as [->|]; [contradiction|reflexivity].
      * now rewrite (str_eqb_neq a k').
Qed.
Lemma dset_keys (d : dict) k v x : In x (map fst (dset d k v)) <-> x = k \/ In x (map fst d).
Proof.
  induction d as [|[a b] d IH]; cbn [dset map fst In].
  - intuition.
  - destruct (str_dec a k) as [->|N]; [rewrite str_eqb_refl; cbn [map fst In]; intuition|]. rewrite str_eqb_neq by exact N. cbn [map fst In]. rewrite IH. intuition.
Qed.
Lemma dset_nodup (d : dict) k v : NoDup (map fst d) -> NoDup (map fst (dset d k v)).
Proof.
  induction d as [|[a b] d IH]; intros H; cbn [dset map fst]; [repeat constructor; intros []|]. inversion H as [|? ? H1 H2]; subst.
  destruct (str_dec a k) as [->|N]; [rewrite str_eqb_refl; exact H|]. rewrite str_eqb_neq by exact N. cbn [map fst]. constructor; [|auto].
  intros I. apply dset_keys in I. destruct I; [contradiction|contradiction].
Qed.
Lemma dget_in (d : dict) k v : NoDup (map fst d) -> (dget d k = Some v <-> In (k, v) d).
Proof.
  induction d as [|[a b] d IH]; intros H; cbn [dget In]; [split; [discriminate|intros []]|]. inversion H as [|? ? H1 H2]; subst.
  destruct (str_dec a k) as [->|N].
  - rewrite str_eqb_refl. split; [intros [= ->]; now left|]. intros [[= ->]|I]; [reflexivity|]. exfalso. apply H1. apply in_map_iff. exists (k, v). split; [reflexivity|exact I].
  - rewrite str_eqb_neq by exact N. rewrite IH by exact H2. split; [now right|]. intros [[= E _]|I]; [contradiction|exact I].
Qed.
Lemma dget_none (d : dict) k : dget d k = None -> ~ In k (map fst d).
Proof.
  induction d as [|[a b] d IH]; cbn [dget map fst In]; [intros _ []|]. destruct (str_dec a k) as [->|N]; [rewrite str_eqb_refl; discriminate|].
  rewrite str_eqb_neq by exact N. intros H [E|I]; [contradiction|]. now apply IH.
Qed.
Inductive wf_tree : tree -> Prop :=
| wf_leaf s : wf_tree (Leaf s)
| wf_leaves l : wf_tree (Leaves l)
| wf_node d : NoDup (map fst d) -> (forall k v, In (k, v) d -> wf_tree v) -> wf_tree (Node d).
Lemma wf_nil : wf_tree (Node []).
Proof. constructor; [constructor|intros ? ? []]. Qed.
Lemma wf_set d k v : wf_tree (Node d) -> wf_tree v -> wf_tree (Node (dset d k v)).
Proof.
  intros W V. inversion W as [| |d' N C]; subst. constructor; [now apply dset_nodup|]. intros k' v' I. apply dget_in in I; [|now apply dset_nodup]. rewrite dget_set in I.
  destruct (str_dec k k'); [injection I as <-; exact V|]. apply dget_in in I; [|exact N]. eapply C, I.
Qed.
Lemma at_nil p t : ~ at_path [] p t.
Proof. intros H. inversion H; subst; match goal with I : In _ [] |- _ => destruct I end. Qed.
Lemma at_one d k t : NoDup (map fst d) -> (at_path d [k] t <-> dget d k = Some t).
Proof.
  intros N. rewrite dget_in by exact N. split.
  - intros H. inversion H as [|? ? ? ? ? I B]; subst; [assumption|]. exfalso. inversion B.
  - intros I. now constructor.
Qed.
Lemma at_cons d k k' p t : NoDup (map fst d) -> (at_path d (k :: k' :: p) t <-> exists e, dget d k = Some (Node e) /\ at_path e (k' :: p) t).
Proof.
  intros N. split.
  - intros H. inversion H as [|? ? e ? ? I B]; subst. exists e. split; [apply dget_in; assumption|exact B].
  - intros (e & E & B). apply dget_in in E; [|exact N]. eapply at_below; eassumption.
Qed.
Lemma at_never_nil d t : ~ at_path d [] t.
Proof. intros H. inversion H. Qed.
Lemma begins_nil {A} (q : list A) : begins [] q.
Proof. exists q. reflexivity. Qed.
Lemma begins_cons {A} (a : A) p b q : begins (a :: p) (b :: q) <-> a = b /\ begins p q.
Proof. split; [intros [r E]; injection E as -> ->; split; [reflexivity|exists r; reflexivity]|]. intros [-> [r ->]]. exists r. reflexivity. Qed.
Lemma begins_cons_nil {A} (a : A) p : ~ begins (a :: p) [].
Proof. intros [r E]. discriminate E. Qed.
Lemma put_spec p : forall d v d', wf_tree (Node d) -> leaf v -> put d p v = Ok d' ->
  wf_tree (Node d') /\ forall q t, leaf t -> (at_path d' q t <-> (q = p /\ t = v) \/ (~ begins p q /\ ~ begins q p /\ at_path d q t)).
Proof.
  induction p as [|k p IH]; intros d v d' W V H; [discriminate H|].
  assert (ND : NoDup (map fst d)) by (inversion W; assumption).
  assert (WV : wf_tree v) by (destruct v; [constructor|constructor|exfalso; apply (V d0); reflexivity]).
  destruct p as [|k2 p].
  - cbn [put] in H. injection H as <-. split; [now apply wf_set|]. intros q t T. assert (ND' := dset_nodup d k v ND).
    destruct q as [|a q]; [split; [intros B; destruct (at_never_nil _ _ B)|intros [[E _]|(_ & B & _)]; [discriminate E|destruct B; apply begins_nil]]|].
    destruct q as [|b q].
    + rewrite !at_one, dget_set by assumption. destruct (str_dec k a) as [->|N].
      * split; [intros [= ->]; left; split; reflexivity|]. intros [[_ ->]|(B & _)]; [reflexivity|]. destruct B. exists []. reflexivity.
      * split; [intros E; right; split; [|split; [|exact E]]; intros B; apply begins_cons in B; destruct B; congruence|]. intros [[[= E] _]|(_ & _ & E)]; [congruence|exact E].
    + rewrite !at_cons by assumption. rewrite dget_set. destruct (str_dec k a) as [->|N].
      * split; [intros (e & [= E] & _); exfalso; apply (V e E)|]. intros [[E _]|(B & _)]; [discriminate E|]. destruct B. exists (b :: q). reflexivity.
      * split; [intros E; right; split; [|split; [|exact E]]; intros B; apply begins_cons in B; destruct B; congruence|]. intros [[[= E ] _]|(_ & _ & E)]; exact E.
  - assert (G : exists e e', (dget d k = Some (Node e) \/ (dget d k = None /\ e = [])) /\ put e (k2 :: p) v = Ok e' /\ d' = dset d k (Node e')).
    { change (put d (k :: k2 :: p) v) with (match dget d k with None => let! d' := put [] (k2 :: p) v in Ok (dset d k (Node d')) | Some (Node e) => let! d' := put e (k2 :: p) v in Ok (dset d k (Node d')) | Some _ => Err TypeError end) in H.
      destruct (dget d k) as [[s|l|e]|] eqn:E; try discriminate H.
      - destruct (put e (k2 :: p) v) as [e'|] eqn:P; [|discriminate H]. injection H as <-. exists e, e'. repeat split; [left; reflexivity|exact P].
      - destruct (put [] (k2 :: p) v) as [e'|] eqn:P; [|discriminate H]. injection H as <-. exists [], e'. repeat split; [right; split; reflexivity|exact P]. }
    destruct G as (e & e' & E & P & ->).
    assert (We : wf_tree (Node e)) by (destruct E as [E|[_ ->]]; [apply dget_in in E; [inversion W as [| |? ? C]; eapply C, E|exact ND]|apply wf_nil]).
    destruct (IH e v e' We V P) as [We' K]. split; [now apply wf_set|]. intros q t T. assert (ND' := dset_nodup d k (Node e') ND).
    destruct q as [|a q]; [split; [intros B; destruct (at_never_nil _ _ B)|intros [[E' _]|(_ & B & _)]; [discriminate E'|destruct B; apply begins_nil]]|].
    destruct q as [|b q].
    + rewrite !at_one, dget_set by assumption. destruct (str_dec k a) as [->|N].
      * split; [intros [= E']; exfalso; apply (T e'); congruence|]. intros [[E' _]|(_ & B & _)]; [discriminate E'|]. destruct B. exists (k2 :: p). reflexivity.
      * split; [intros E'; right; split; [|split; [|exact E']]; intros B; apply begins_cons in B; destruct B; congruence|]. intros [[[= E'] _]|(_ & _ & E')]; exact E'.
    + rewrite !at_cons by assumption. rewrite dget_set. destruct (str_dec k a) as [->|N].
      * split.
        -- intros (x & [= <-] & B). apply K in B; [|exact T]. destruct B as [[-> ->]|(B1 & B2 & B)]; [left; split; reflexivity|]. right. split; [intros BB; apply begins_cons in BB; tauto|]. split; [intros BB; apply begins_cons in BB; tauto|].
           destruct E as [E|[_ ->]]; [exists e; split; assumption|destruct (at_nil _ _ B)].
        -- intros H0. exists e'. split; [reflexivity|]. apply K; [exact T|]. destruct H0 as [[E' ->]|(B1 & B2 & x & X & B)]; [left; split; [congruence|reflexivity]|]. right.
           rewrite begins_cons in B1, B2. repeat split; [intros ?; apply B1; split; [reflexivity|assumption]|intros ?; apply B2; split; [reflexivity|assumption]|].
           destruct E as [E|[E ->]]; rewrite E in X; [injection X as ->; exact B|discriminate X].
      * split; [intros E'; right; split; [|split; [|exact E']]; intros B; apply begins_cons in B; destruct B; congruence|]. intros [[[= E'] _]|(_ & _ & E')]; [congruence|exact E'].
Qed.
Lemma put_total p : forall d v, wf_tree (Node d) -> p <> [] -> (forall q t, leaf t -> at_path d q t -> begins q p -> q = p) -> exists d', put d p v = Ok d'.
Proof.
  induction p as [|k p IH]; intros d v W NE H; [contradiction|]. destruct p as [|k2 p]; [eexists; reflexivity|].
  assert (ND : NoDup (map fst d)) by (inversion W; assumption).
  change (put d (k :: k2 :: p) v) with (match dget d k with None => let! d' := put [] (k2 :: p) v in Ok (dset d k (Node d')) | Some (Node e) => let! d' := put e (k2 :: p) v in Ok (dset d k (Node d')) | Some _ => Err TypeError end).
  assert (L : forall t, leaf t -> dget d k = Some t -> False).
  { intros t T E. assert (X : [k] = k :: k2 :: p) by (apply (H [k] t T); [apply at_one; assumption|exists (k2 :: p); reflexivity]). discriminate X. }
  destruct (dget d k) as [[s|l|e]|] eqn:E.
  - exfalso. apply (L (Leaf s)); [intros x X; discriminate X|reflexivity].
  - exfalso. apply (L (Leaves l)); [intros x X; discriminate X|reflexivity].
  - destruct (IH e v) as [d' D]; [apply dget_in in E; [inversion W as [| |? ? C]; eapply C, E|exact ND]|discriminate| |rewrite D; eexists; reflexivity].
    intros q t T A B. destruct q as [|a q]; [destruct (at_never_nil _ _ A)|]. assert (X : k :: a :: q = k :: k2 :: p); [|congruence].
    apply (H (k :: a :: q) t T); [apply at_cons; [exact ND|exists e; split; assumption]|apply begins_cons; split; [reflexivity|exact B]].
  - destruct (IH [] v) as [d' D]; [apply wf_nil|discriminate|intros q t _ A; destruct (at_nil _ _ A)|rewrite D; eexists; reflexivity].
Qed.
