(* P_object.v: proofs about attribute lists, comparison and conversion of objects. *)
From Coq Require Import String Ascii.
From Verif Require Import Np Lib M_utils M_base M_io M_mission M_object S_object P_mission.
From Coq Require Import ZArith QArith List Bool Lia Lqa.
Import ListNotations.
Open Scope Q_scope.

Lemma mem_iff n l : mem n l = true <-> In n l.
Proof.
  unfold mem. rewrite existsb_exists. split.
  - intros (x & H & E). apply str_eqb_spec in E. now subst.
  - intros H. exists n. split; [exact H|apply str_eqb_refl].
Qed.
Lemma mem_not n l : mem n l = false <-> ~ In n l.
Proof. rewrite <- mem_iff. destruct (mem n l); split; congruence. Qed.
Lemma neg_mem n l : negb (mem n l) = true <-> ~ In n l.
Proof. rewrite negb_true_iff. apply mem_not. Qed.
Lemma neg_eqb a b : negb (str_eqb a b) = true <-> a <> b.
Proof. rewrite negb_true_iff. split; [intros E H; subst; rewrite str_eqb_refl in E; discriminate|apply str_eqb_neq]. Qed.
Lemma private_iff n : private n = false <-> public n.
Proof.
  unfold private, public. destruct n as [|a n]; [split; [intros _ m E; discriminate|reflexivity]|].
  destruct (Ascii.eqb_spec a "_"); subst; split; try congruence.
  intros H. exfalso. now apply (H n).
Qed.
Lemma neg_private n : negb (private n) = true <-> public n.
Proof. rewrite negb_true_iff. apply private_iff. Qed.
Lemma private_t n : private n = true <-> ~ public n.
Proof. rewrite <- private_iff. destruct (private n); split; congruence. Qed.
Lemma attr_in o n v : attr o n = Some v -> In (n, v) o.
Proof.
  induction o as [|[m w] o IH]; cbn; [discriminate|].
  destruct (str_eqb m n) eqn:E; [apply str_eqb_spec in E; subst; intros H; injection H as <-; now left|right; now apply IH].
Qed.
Lemma in_attr o n v : proper o -> In (n, v) o -> attr o n = Some v.
Proof.
  unfold proper. induction o as [|[m w] o IH]; cbn; [contradiction|]. intros P [E|H].
  - injection E as -> ->. now rewrite str_eqb_refl.
  - inversion P as [|? ? N P']. subst. rewrite str_eqb_neq; [now apply IH|].
    intros ->. apply N. now apply (in_map fst) in H.
Qed.
Lemma attr_iff o n v : proper o -> attr o n = Some v <-> In (n, v) o.
Proof. intros P. split; [apply attr_in|now apply in_attr]. Qed.
Lemma is_data_iff v : is_data v = true <-> data v.
Proof. unfold data. destruct v; cbn; split; try tauto; try discriminate; intros; repeat split; try discriminate; destruct H; congruence. Qed.
Lemma same_dim_iff v n : same_dim v n = true <-> exists s d, v = VArr (n :: s) d.
Proof.
  unfold same_dim. destruct v as [|x|t|s d|]; cbn; try (split; [discriminate|intros (s0 & d0 & E); discriminate]).
  destruct s as [|k s]; cbn; [split; [discriminate|intros (s0 & d0 & E); discriminate]|].
  rewrite Nat.eqb_eq. split; [intros ->; eauto|intros (s0 & d0 & E); now injection E].
Qed.
Lemma main_long c o n : proper o -> long c o n -> main_length c o = Ok (Some n).
Proof. intros P (s & d & H). unfold main_length. now rewrite (in_attr _ _ _ P H). Qed.
Lemma in_data c o x v : In (x, v) (data_attributes c o) <-> In (x, v) o /\ data v /\ ~ In x (c_not_array c).
Proof. unfold data_attributes. rewrite filter_In. cbn [fst snd]. rewrite andb_true_iff, is_data_iff, neg_mem. tauto. Qed.
Lemma data_arr s d : data (VArr s d).
Proof. split; discriminate. Qed.

(* ---- the lists ---- *)
Lemma array_list c o n : proper o -> long c o n -> exists l, array_attrs c o = Ok l /\ forall x, In x l <-> column c o n x.
Proof.
  intros P L. unfold array_attrs. rewrite (main_long _ _ _ P L). cbn [bind].
  eexists. split; [reflexivity|]. intros x. rewrite in_map_iff. unfold column. split.
  - intros ([y v] & <- & H). apply filter_In in H. destruct H as [H T]. apply in_data in H. destruct H as (H & _ & _).
    cbn [fst snd] in *. rewrite !andb_true_iff, neg_private, neg_eqb, neg_mem, same_dim_iff in T.
    destruct T as [[[A B] C] (s & d & ->)]. repeat split; eauto.
  - intros (A & B & C & s & d & H). exists (x, VArr (n :: s) d). split; [reflexivity|]. apply filter_In. split.
    + apply in_data. auto using data_arr.
    + cbn [fst snd]. rewrite !andb_true_iff, neg_private, neg_eqb, neg_mem, same_dim_iff. repeat split; eauto.
Qed.
Lemma prod_zero s : fold_right Nat.mul 1%nat s = 0%nat <-> In 0%nat s.
Proof. induction s as [|k s IH]; cbn; [split; [discriminate|contradiction]|]. rewrite Nat.eq_mul_0, IH. tauto. Qed.
Lemma internal_list c o n : proper o -> long c o n ->
  exists l, internal_array_attrs c o = Ok l /\ forall x, In x l <-> hidden c o n x.
Proof.
  intros P L. unfold internal_array_attrs. rewrite (main_long _ _ _ P L). cbn [bind].
  eexists. split; [reflexivity|]. intros x. rewrite in_map_iff. unfold hidden. split.
  - intros ([y v] & <- & H). apply filter_In in H. destruct H as [H T]. apply in_data in H. destruct H as (H & _ & N).
    cbn [fst snd] in *. rewrite !andb_true_iff, neg_eqb, neg_mem, private_t, same_dim_iff, negb_true_iff, Nat.eqb_neq in T.
    destruct T as [[[[A B] C] D] (s & d & ->)]. cbn [size] in C. rewrite prod_zero in C. cbn [In] in C.
    repeat split; auto. exists s, d. repeat split; auto.
  - intros (A & B & C & N & s & d & H & Z & S). exists (x, VArr (n :: s) d). split; [reflexivity|]. apply filter_In. split.
    + apply in_data. auto using data_arr.
    + cbn [fst snd]. rewrite !andb_true_iff, neg_eqb, neg_mem, private_t, same_dim_iff, negb_true_iff, Nat.eqb_neq.
      cbn [size]. rewrite prod_zero. cbn [In]. repeat split; eauto. intros [E|E]; auto.
Qed.
Lemma meta_list c o n : proper o -> long c o n -> exists l, meta_attrs c o = Ok l /\ forall x, In x l <-> meta c o n x.
Proof.
  intros P L. unfold meta_attrs.
  destruct (array_list c o n P L) as (a & -> & A). destruct (internal_list c o n P L) as (i & -> & I). cbn [bind].
  eexists. split; [reflexivity|]. intros x. rewrite in_app_iff, in_map_iff. unfold meta. split.
  - intros [([y v] & <- & H)|H]; [|now left]. apply filter_In in H. destruct H as [H T]. apply in_data in H.
    destruct H as (H & D & N). cbn [fst snd] in *. rewrite andb_true_iff, neg_mem, neg_private, !in_app_iff in T.
    destruct T as [T B]. right. repeat split; [exact B|intros ->; apply T; right; left; now left|].
    exists v. repeat split; try apply D; auto. intros s d ->. apply T. left. apply A. repeat split; eauto.
    intros ->. apply T. right. left. now left.
  - intros [H|(B & M & v & H & D & V)]; [now right|].
    destruct (mem x (c_not_array c)) eqn:N; [apply mem_iff in N; now right|apply mem_not in N]. left.
    exists (x, v). split; [reflexivity|]. apply filter_In. split; [apply in_data; auto|].
    cbn [fst snd]. rewrite andb_true_iff, neg_mem, neg_private, !in_app_iff. split; [|exact B].
    intros [K|[[K|[]]|K]].
    + apply A in K. destruct K as (_ & _ & _ & s & d & K). apply (V s d).
      apply (in_attr _ _ _ P) in K. apply (in_attr _ _ _ P) in H. congruence.
    + now apply M.
    + apply I in K. now destruct K.
Qed.
(* every attribute holding data is in exactly one place *)
Lemma one_place c o n x v : proper o -> long c o n -> In (x, v) o -> data v -> public x -> x <> c_main c ->
  ~ In (c_main c) (c_not_array c) ->
  (column c o n x \/ meta c o n x) /\ ~ (column c o n x /\ meta c o n x) /\ ~ hidden c o n x.
Proof.
  intros P L H D B M NM. repeat split.
  - destruct (mem x (c_not_array c)) eqn:N; [apply mem_iff in N; right; now left|apply mem_not in N].
    destruct (same_dim v n) eqn:S.
    + apply same_dim_iff in S. destruct S as (s & d & ->). left. repeat split; eauto.
    + right. right. repeat split; auto. exists v. repeat split; try apply D; auto. intros s d ->.
      assert (same_dim (VArr (n :: s) d) n = true) by (apply same_dim_iff; eauto). congruence.
  - intros [(_ & _ & N & s & d & K) [K'|(_ & _ & w & K' & _ & V)]]; [now apply N|].
    apply (in_attr _ _ _ P) in K. apply (in_attr _ _ _ P) in K'. apply (V s d). congruence.
  - intros (K & _). now apply K.
Qed.
Lemma empty_lists c o : attr o (c_main c) = Some VNone -> array_attrs c o = Ok [] /\ internal_array_attrs c o = Ok [].
Proof. intros H. unfold array_attrs, internal_array_attrs, main_length. now rewrite H. Qed.

(* ---- comparison ---- *)
Lemma same_set_iff a b : same_set a b = true <-> forall x, In x a <-> In x b.
Proof.
  unfold same_set. rewrite andb_true_iff, !forallb_forall. split.
  - intros [A B] x. split; intros H; [apply mem_iff, A|apply mem_iff, B]; exact H.
  - intros H. split; intros x K; apply mem_iff, H, K.
Qed.
Lemma all_ok_true {A} (f : A -> result bool) l : all_ok f l = Ok true <-> forall x, In x l -> f x = Ok true.
Proof.
  induction l as [|y l IH]; cbn; [split; [intros _ x []|reflexivity]|]. split.
  - intros H. destruct (f y) as [[|]|] eqn:E; cbn in H; try discriminate. intros x [<-|K]; [exact E|now apply IH].
  - intros H. rewrite (H y (or_introl eq_refl)). cbn. apply IH. intros x K. apply H. now right.
Qed.
Lemma all_ok_ext {A} (f g : A -> result bool) l : (forall x, In x l -> f x = g x) -> all_ok f l = all_ok g l.
Proof.
  induction l as [|y l IH]; cbn; [reflexivity|]. intros H. rewrite (H y (or_introl eq_refl)). destruct (g y) as [[|]|]; cbn; auto.
Qed.
Lemma same_shape_iff a b : same_shape a b = true <-> a = b.
Proof.
  revert b. induction a as [|m a IH]; intros [|n b]; cbn; try (split; congruence).
  rewrite andb_true_iff, Nat.eqb_eq, IH. split; [intros []; congruence|intros H; injection H; auto].
Qed.
Lemma qeq_iff p q : qeq p q = true <-> p == q.
Proof. unfold qeq. apply Qeq_bool_iff. Qed.
Lemma same_data_iff a b : same_data a b = true <-> Forall2 same_number a b.
Proof.
  revert b. induction a as [|x a IH]; intros [|y b]; cbn.
  - split; constructor.
  - split; [discriminate|intros H; inversion H].
  - split; [discriminate|intros H; inversion H].
  - rewrite andb_true_iff, IH. split.
    + intros [A B]. constructor; [|exact B]. destruct x, y; cbn; try discriminate; auto. now apply qeq_iff.
    + intros H. inversion H as [|? ? ? ? A B]. subst. split; [|exact B].
      destruct x, y; cbn in A; try contradiction; auto. now apply qeq_iff.
Qed.
Lemma array_equal_true v w : array_equal v w = Ok true <->
  exists s d s' d', v = VArr s d /\ w = VArr s' d' /\ s = s' /\ Forall2 same_number d d'.
Proof.
  split.
  - destruct v, w; cbn; try discriminate. intros H. injection H as H. apply andb_true_iff in H. destruct H as [A B].
    apply same_shape_iff in A. apply same_data_iff in B. repeat eexists; auto.
  - intros (s & d & s' & d' & -> & -> & -> & H). cbn. f_equal. apply andb_true_iff.
    split; [now apply same_shape_iff|now apply same_data_iff].
Qed.
Lemma array_equal_same v w : array_equal v w = Ok true -> same v w.
Proof. intros H. apply array_equal_true in H. destruct H as (s & d & s' & d' & -> & -> & -> & H). cbn. auto. Qed.
Lemma scalar_equal_same v w : scalar_equal v w = true -> same v w.
Proof.
  destruct v as [|[x|]|s|s d|], w as [|[y|]|t|t e|]; cbn; try discriminate.
  - apply qeq_iff.
  - apply str_eqb_spec.
Qed.
Lemma get_attr_ok o x v : get_attr o x = Ok v <-> attr o x = Some v.
Proof. unfold get_attr. destruct (attr o x); split; congruence. Qed.
Lemma arrays_true a b x : arrays_equal a b x = Ok true -> exists v w, attr a x = Some v /\ attr b x = Some w /\ same v w.
Proof.
  unfold arrays_equal. intros H. destruct (get_attr a x) as [v|] eqn:A; [|discriminate]. cbn [bind] in H.
  destruct (get_attr b x) as [w|] eqn:B; [|discriminate]. cbn [bind] in H.
  apply get_attr_ok in A, B. exists v, w. auto using array_equal_same.
Qed.
Lemma meta_true a b x : meta_equal a b x = Ok true -> exists v w, attr a x = Some v /\ attr b x = Some w /\ same v w.
Proof.
  unfold meta_equal. intros H. destruct (get_attr a x) as [v|] eqn:A; [|discriminate]. cbn [bind] in H.
  destruct (get_attr b x) as [w|] eqn:B; [|discriminate]. cbn [bind] in H.
  apply get_attr_ok in A, B. exists v, w. repeat split; auto.
  destruct (xorb (is_scalar v) (is_scalar w)); [discriminate|]. destruct (is_scalar v); [|now apply array_equal_same].
  apply scalar_equal_same. congruence.
Qed.
Lemma same_scalar v w : same v w -> is_scalar v = is_scalar w.
Proof. destruct v as [|[x|]|s|s d|], w as [|[y|]|t|t e|]; cbn; tauto. Qed.
Lemma same_meta a b x v w : attr a x = Some v -> attr b x = Some w -> same v w -> meta_equal a b x = Ok true.
Proof.
  intros A B S. unfold meta_equal. apply get_attr_ok in A, B. rewrite A, B. cbn [bind].
  rewrite (same_scalar _ _ S). rewrite xorb_nilpotent.
  destruct v as [|[x0|]|s|s d|], w as [|[y|]|t|t e|]; cbn [same] in S; try contradiction; cbn [is_scalar scalar_equal].
  - f_equal. now apply qeq_iff.
  - f_equal. now apply str_eqb_spec.
  - destruct S as [-> F]. apply array_equal_true. repeat eexists; auto.
Qed.
Lemma same_arrays a b x s d w : attr a x = Some (VArr s d) -> attr b x = Some w -> same (VArr s d) w -> arrays_equal a b x = Ok true.
Proof.
  intros A B S. unfold arrays_equal. apply get_attr_ok in A, B. rewrite A, B. cbn [bind].
  destruct w as [|[y|]|t|t e|]; cbn [same] in S; try contradiction. destruct S as [-> F].
  apply array_equal_true. repeat eexists; auto.
Qed.
(* the comparison, exactly *)
Lemma eq_iff c a b n k : proper a -> proper b -> long c a n -> long c b k ->
  obj_eq c a b = Ok true <->
  (forall x, column c a n x <-> column c b k x) /\ (forall x, meta c a n x <-> meta c b k x) /\
  (forall x, column c a n x \/ meta c a n x \/ hidden c a n x -> exists v w, In (x, v) a /\ In (x, w) b /\ same v w).
Proof.
  intros Pa Pb La Lb. unfold obj_eq.
  destruct (array_list c a n Pa La) as (aa & -> & Aa). destruct (array_list c b k Pb Lb) as (ab & -> & Ab). cbn [bind].
  destruct (meta_list c a n Pa La) as (ma & -> & Ma). destruct (meta_list c b k Pb Lb) as (mb & -> & Mb). cbn [bind].
  destruct (internal_list c a n Pa La) as (ia & -> & Ia). cbn [bind].
  assert (SA : same_set aa ab = true <-> forall x, column c a n x <-> column c b k x).
  { rewrite same_set_iff. split; intros H x; [rewrite <- Aa, <- Ab|rewrite Aa, Ab]; apply H. }
  assert (SM : same_set ma mb = true <-> forall x, meta c a n x <-> meta c b k x).
  { rewrite same_set_iff. split; intros H x; [rewrite <- Ma, <- Mb|rewrite Ma, Mb]; apply H. }
  split.
  - intros H. destruct (same_set aa ab); cbn [negb] in H; [|discriminate].
    destruct (same_set ma mb); cbn [negb] in H; [|discriminate].
    destruct (all_ok (meta_equal a b) ma) as [[|]|] eqn:E1; cbn [bind negb] in H; try discriminate.
    destruct (all_ok (arrays_equal a b) aa) as [[|]|] eqn:E2; cbn [bind negb] in H; try discriminate.
    rewrite all_ok_true in E1, E2, H. split; [now apply SA|]. split; [now apply SM|].
    intros x [K|[K|K]].
    + apply Aa, E2, arrays_true in K. destruct K as (v & w & A & B & S). exists v, w. auto using attr_in.
    + apply Ma, E1, meta_true in K. destruct K as (v & w & A & B & S). exists v, w. auto using attr_in.
    + apply Ia, H, arrays_true in K. destruct K as (v & w & A & B & S). exists v, w. auto using attr_in.
  - intros (A & M & V). rewrite (proj2 SA A), (proj2 SM M). cbn [negb].
    replace (all_ok (meta_equal a b) ma) with (Ok true).
    2:{ symmetry. apply all_ok_true. intros x H. apply Ma in H. destruct (V x (or_intror (or_introl H))) as (v & w & I & J & S).
        eapply same_meta; eauto using in_attr. }
    cbn [bind negb]. replace (all_ok (arrays_equal a b) aa) with (Ok true).
    2:{ symmetry. apply all_ok_true. intros x H. apply Aa in H. pose proof H as (_ & _ & _ & s & d & K).
        destruct (V x (or_introl H)) as (v & w & I & J & S).
        assert (v = VArr (n :: s) d) as -> by (apply (in_attr _ _ _ Pa) in K, I; congruence).
        eapply same_arrays; eauto using in_attr. }
    cbn [bind negb]. apply all_ok_true. intros x H. apply Ia in H. pose proof H as (_ & _ & _ & _ & s & d & K & _).
    destruct (V x (or_intror (or_intror H))) as (v & w & I & J & S).
    assert (v = VArr (n :: s) d) as -> by (apply (in_attr _ _ _ Pa) in K, I; congruence).
    eapply same_arrays; eauto using in_attr.
Qed.
Lemma same_refl v : data v -> v <> VNum None -> same v v.
Proof.
  intros [A B] C. destruct v as [|[x|]|s|s d|]; cbn; try congruence; try lra.
  split; [reflexivity|]. clear A B C. induction d as [|[x|] d IH]; constructor; cbn; try exact I; try lra; exact IH.
Qed.
Lemma eq_refl_ok c a n : proper a -> long c a n ->
  (forall x v, In (x, v) a -> v <> VNum None) -> (forall x, In x (c_not_array c) -> exists v, In (x, v) a /\ data v) ->
  obj_eq c a a = Ok true.
Proof.
  intros P L N G. apply (eq_iff c a a n n P P L L). split; [reflexivity|]. split; [reflexivity|].
  intros x [(_ & _ & _ & s & d & H)|[[H|(_ & _ & v & H & D & _)]|(_ & _ & _ & _ & s & d & H & _)]].
  - exists (VArr (n :: s) d), (VArr (n :: s) d). repeat split; auto. apply (same_refl (VArr (n :: s) d)); [apply data_arr|discriminate].
  - destruct (G x H) as (v & K & D). exists v, v. repeat split; auto. apply same_refl; eauto.
  - exists v, v. repeat split; auto. apply same_refl; eauto.
  - exists (VArr (n :: s) d), (VArr (n :: s) d). repeat split; auto. apply (same_refl (VArr (n :: s) d)); [apply data_arr|discriminate].
Qed.
(* the main array is not looked at *)
Lemma main_ignored c a b b' n k k' : proper a -> proper b -> proper b' -> long c a n -> long c b k -> long c b' k' ->
  (forall x, column c b k x <-> column c b' k' x) -> (forall x, meta c b k x <-> meta c b' k' x) ->
  (forall x v, x <> c_main c -> In (x, v) b <-> In (x, v) b') -> ~ In (c_main c) (c_not_array c) -> public (c_main c) ->
  obj_eq c a b = Ok true -> obj_eq c a b' = Ok true.
Proof.
  intros Pa Pb Pb' La Lb Lb' A M V NM PM H. apply (eq_iff c a b n k Pa Pb La Lb) in H. destruct H as (HA & HM & HV).
  apply (eq_iff c a b' n k' Pa Pb' La Lb'). split; [intros x; now rewrite HA|]. split; [intros x; now rewrite HM|].
  intros x K. destruct (HV x K) as (v & w & I & J & S). exists v, w. repeat split; auto.
  apply V; [|exact J]. intros ->. destruct K as [(_ & K & _)|[[K|(_ & K & _)]|(K & _)]]; auto.
Qed.
Lemma set_in o x v w y u : proper o -> In (x, w) o -> In (y, u) (set_attr o x v) <-> (y = x /\ u = v) \/ (y <> x /\ In (y, u) o).
Proof.
  unfold proper. induction o as [|[m z] o IH]; cbn; [contradiction|]. intros P H. inversion P as [|? ? N P']. subst.
  destruct (str_eqb m x) eqn:E.
  - apply str_eqb_spec in E. subst m. cbn [In]. split.
    + intros [K|K]; [injection K as <- <-; now left|]. right. split; [intros ->; apply N; now apply (in_map fst) in K|now right].
    + intros [[-> ->]|[K [L|L]]]; [now left|congruence|now right].
  - assert (NE : m <> x) by (intros ->; rewrite str_eqb_refl in E; discriminate).
    destruct H as [H|H]; [congruence|]. cbn [In]. rewrite (IH P' H). split.
    + intros [K|[K|[K L]]]; [injection K as <- <-; right; split; [exact NE|now left]|now left|right; split; [exact K|now right]].
    + intros [K|[K [L|L]]]; [right; now left|now left|right; right; now split].
Qed.
Lemma set_names o x v w : In (x, w) o -> map fst (set_attr o x v) = map fst o.
Proof.
  induction o as [|[m z] o IH]; cbn; [contradiction|]. intros H.
  destruct (str_eqb m x) eqn:E; [reflexivity|]. cbn [map fst]. destruct H as [H|H]; [|now rewrite IH].
  injection H as -> ->. now rewrite str_eqb_refl in E.
Qed.
(* whatever the new main array is, as long as its number of rows is the same *)
Lemma main_changed c a n s d : proper a -> long c a n ->
  (forall x v, In (x, v) a -> v <> VNum None) -> (forall x, In x (c_not_array c) -> exists v, In (x, v) a /\ data v) ->
  ~ In (c_main c) (c_not_array c) -> public (c_main c) ->
  obj_eq c a (set_attr a (c_main c) (VArr (n :: s) d)) = Ok true.
Proof.
  intros P L NN G NM PM. pose proof L as (s0 & d0 & H0).
  assert (P' : proper (set_attr a (c_main c) (VArr (n :: s) d))) by (unfold proper; now rewrite (set_names _ _ _ _ H0)).
  assert (V : forall x v, x <> c_main c -> In (x, v) a <-> In (x, v) (set_attr a (c_main c) (VArr (n :: s) d))).
  { intros x v NE. rewrite (set_in _ _ _ _ _ _ P H0). tauto. }
  apply (main_ignored c a a _ n n n P P P' L L).
  - exists s, d. apply (set_in _ _ _ _ _ _ P H0). now left.
  - intros x. unfold column. split; intros (A & B & C & s1 & d1 & K); repeat split; auto; exists s1, d1; now apply (V x).
  - intros x. unfold meta. split; (intros [K|(A & B & v & K & D)]; [now left|right; repeat split; auto; exists v; split; [now apply (V x)|exact D]]).
  - exact V.
  - exact NM.
  - exact PM.
  - now apply (eq_refl_ok c a n).
Qed.

(* ---- conversion ---- *)
Lemma lower_low n : lowercase n -> lower n = n.
Proof.
  unfold lowercase, lower. induction n as [|a n IH]; cbn; [reflexivity|]. intros H. f_equal; [|apply IH; auto].
  unfold lower_char. destruct (H a (or_introl eq_refl)) as [K|K].
  - replace (65 <=? nat_of_ascii a)%nat with false by (symmetry; apply Nat.leb_gt; lia). reflexivity.
  - replace (nat_of_ascii a <=? 90)%nat with false by (symmetry; apply Nat.leb_gt; lia). rewrite andb_false_r. reflexivity.
Qed.
Lemma attr_set o x v y : attr (set_attr o x v) y = if str_eqb x y then Some v else attr o y.
Proof.
  induction o as [|[m w] o IH]; cbn.
  - reflexivity.
  - destruct (str_eqb m x) eqn:E; cbn.
    + apply str_eqb_spec in E. subst m. now destruct (str_eqb x y).
    + rewrite IH. destruct (str_eqb m y) eqn:F; [|reflexivity].
      apply str_eqb_spec in F. subst m. destruct (str_eqb x y) eqn:K; [|reflexivity].
      apply str_eqb_spec in K. subst. rewrite str_eqb_refl in E. discriminate.
Qed.
Lemma attr_setattr c o x v y : y <> % "_mask" -> attr (setattr c o x v) y = if str_eqb x y then Some v else attr o y.
Proof.
  intros N. unfold setattr. destruct (c_gti c && str_eqb x (% "gti"))%bool; [|apply attr_set].
  destruct v; rewrite ?attr_set; try reflexivity; rewrite (str_eqb_neq _ y (not_eq_sym N)); reflexivity.
Qed.
Lemma attr_setattr_mask c o x v : (c_gti c = false \/ x <> % "gti") ->
  attr (setattr c o x v) (% "_mask") = if str_eqb x (% "_mask") then Some v else attr o (% "_mask").
Proof.
  intros H. unfold setattr. replace (c_gti c && str_eqb x (% "gti"))%bool with false; [apply attr_set|].
  destruct H as [->|H]; [reflexivity|]. rewrite (str_eqb_neq _ _ H). now rewrite andb_false_r.
Qed.
Definition step (c : cls) (keep : str -> bool) (o : obj) (p : str * value) : obj :=
  if keep (fst p) then setattr c o (fst p) (snd p) else o.
Section Fold.
Variable c : cls.
Variable keep : str -> bool.
Local Notation step := (step c keep).
Lemma fold_out l : forall o y, y <> % "_mask" -> ~ In y (map fst l) -> attr (fold_left step l o) y = attr o y.
Proof.
  induction l as [|[x v] l IH]; intros o y N H; cbn [fold_left]; [reflexivity|]. cbn [map fst In] in H.
  rewrite IH; [|exact N|tauto]. unfold P_object.step. cbn [fst snd]. destruct (keep x); [|reflexivity].
  rewrite attr_setattr by exact N. rewrite str_eqb_neq; [reflexivity|tauto].
Qed.
Lemma fold_in l : forall o y v, y <> % "_mask" -> NoDup (map fst l) -> In (y, v) l -> keep y = true ->
  attr (fold_left step l o) y = Some v.
Proof.
  induction l as [|[x w] l IH]; intros o y v N D H K; [contradiction|]. cbn [fold_left map fst] in *.
  inversion D as [|? ? A B]. subst. destruct H as [H|H].
  - injection H as -> ->. rewrite fold_out by auto. unfold P_object.step. cbn [fst snd]. rewrite K.
    rewrite attr_setattr by exact N. now rewrite str_eqb_refl.
  - now apply IH.
Qed.
Lemma fold_skip l : forall o y, y <> % "_mask" -> keep y = false -> attr (fold_left step l o) y = attr o y.
Proof.
  induction l as [|[x v] l IH]; intros o y N K; cbn [fold_left]; [reflexivity|]. rewrite IH by auto.
  unfold P_object.step. cbn [fst snd]. destruct (keep x) eqn:E; [|reflexivity]. rewrite attr_setattr by exact N.
  rewrite str_eqb_neq; [reflexivity|congruence].
Qed.
Lemma fold_mask_out l : (forall x, In x (map fst l) -> c_gti c = false \/ x <> % "gti") ->
  forall o, ~ In (% "_mask") (map fst l) -> attr (fold_left step l o) (% "_mask") = attr o (% "_mask").
Proof.
  induction l as [|[x v] l IH]; intros G o H; cbn [fold_left]; [reflexivity|]. cbn [map fst In] in *.
  rewrite IH; [|intros; apply G; now right|tauto]. unfold P_object.step. cbn [fst snd]. destruct (keep x); [|reflexivity].
  rewrite attr_setattr_mask by (apply G; now left). rewrite str_eqb_neq; [reflexivity|tauto].
Qed.
Lemma fold_mask_in l : (forall x, In x (map fst l) -> c_gti c = false \/ x <> % "gti") ->
  forall o v, NoDup (map fst l) -> In (% "_mask", v) l -> keep (% "_mask") = true ->
  attr (fold_left step l o) (% "_mask") = Some v.
Proof.
  induction l as [|[x w] l IH]; intros G o v D H K; [contradiction|]. cbn [fold_left map fst In] in *.
  inversion D as [|? ? A B]. subst. destruct H as [H|H].
  - assert (E : x = % "_mask" /\ w = v) by (split; congruence). destruct E as [-> ->]. rewrite fold_mask_out; [|intros; apply G; now right|exact A].
    unfold P_object.step. cbn [fst snd]. rewrite K. rewrite attr_setattr_mask by (apply G; now left). now rewrite str_eqb_refl.
  - apply IH; auto. 
Qed.
Lemma fold_mask_gti l : c_gti c = true -> keep (% "gti") = true -> ~ In (% "_mask") (map fst l) ->
  forall o v, In (% "gti", v) l -> (forall w, In (% "gti", w) l -> w <> VNone) -> attr (fold_left step l o) (% "_mask") = Some VNone.
Proof.
  intros T K M. enough (H : forall o, (attr o (% "_mask") = Some VNone \/ exists v, In (% "gti", v) l) ->
    (forall w, In (% "gti", w) l -> w <> VNone) -> attr (fold_left step l o) (% "_mask") = Some VNone) by eauto.
  induction l as [|[x w] l IH]; intros o H NN; cbn [fold_left].
  - destruct H as [H|(v & [])]. exact H.
  - cbn [map fst In] in M. apply IH; [tauto| |intros u U; apply NN; now right].
    destruct (str_eqb x (% "gti")) eqn:E.
    + left. apply str_eqb_spec in E. subst x. unfold P_object.step. cbn [fst snd]. rewrite K. unfold setattr.
      rewrite T, str_eqb_refl. cbn [andb]. specialize (NN w (or_introl eq_refl)).
      destruct w; try congruence; rewrite attr_set; reflexivity.
    + destruct H as [H|(v & [H|H])]; [|assert (X : x = % "gti") by congruence; rewrite X, str_eqb_refl in E; discriminate|right; eauto].
      left. unfold P_object.step. cbn [fst snd]. destruct (keep x); [|exact H].
      rewrite attr_setattr_mask.
      * rewrite str_eqb_neq; [exact H|tauto].
      * right. intros ->. rewrite str_eqb_refl in E. discriminate.
Qed.
End Fold.
