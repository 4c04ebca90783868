(* P_object2.v: proofs about tables made of objects and about the reading of times. *)
From Coq Require Import String Ascii.
From Verif Require Import Np Lib M_utils M_base M_io M_mission M_object S_object P_mission P_object P_helpers.
From Coq Require Import ZArith QArith List Bool Lia Lqa.
Import ListNotations.
Open Scope Q_scope.

Lemma values_of (f : str -> result (str * value)) o l :
  (forall x p, f x = Ok p -> fst p = x /\ attr o x = Some (snd p)) ->
  forall r, map_result f l = Ok r -> map fst r = l /\ forall x v, In (x, v) r -> attr o x = Some v.
Proof.
  intros F. induction l as [|x l IH]; intros r H; cbn [map_result] in H.
  - injection H as <-. split; [reflexivity|intros ? ? []].
  - destruct (f x) as [p|] eqn:E; [|discriminate]. cbn [bind] in H.
    destruct (map_result f l) as [r'|] eqn:E'; [|discriminate]. cbn [bind] in H. injection H as <-.
    destruct (IH r' eq_refl) as [A B]. destruct (F x p E) as [C D]. split; [cbn [map]; now rewrite A, C|].
    intros y v [K|K]; [subst p; cbn in *; now subst|now apply B].
Qed.
Lemma filter_nodup {A} (f : A -> bool) l : NoDup l -> NoDup (filter f l).
Proof. apply NoDup_filter. Qed.
Lemma filter_names {B} (f : str * B -> bool) l : NoDup (map fst l) -> NoDup (map fst (filter f l)).
Proof.
  induction l as [|p l IH]; cbn [map filter]; [auto|]. intros H. inversion H as [|? ? A C]. subst.
  destruct (f p); [|now apply IH]. cbn [map]. constructor; [|now apply IH].
  intros K. apply A. apply in_map_iff in K. destruct K as (q & E & K). apply filter_In in K. rewrite <- E. now apply in_map.
Qed.
Lemma nodup_app {A} (a b : list A) : NoDup a -> NoDup b -> (forall x, In x a -> ~ In x b) -> NoDup (a ++ b).
Proof.
  induction a as [|x a IH]; cbn; [auto|]. intros H K D. inversion H as [|? ? P Q]. subst. constructor.
  - rewrite in_app_iff. intros [E|E]; [now apply P|apply (D x); auto].
  - apply IH; auto.
Qed.
Lemma array_nodup c o l : proper o -> array_attrs c o = Ok l -> NoDup l.
Proof.
  unfold array_attrs. intros P H. destruct (main_length c o) as [[n|]|]; cbn [bind] in H; try discriminate; injection H as <-; [|constructor].
  apply filter_names. unfold data_attributes. now apply filter_names.
Qed.
Lemma internal_nodup c o l : proper o -> internal_array_attrs c o = Ok l -> NoDup l.
Proof.
  unfold internal_array_attrs. intros P H. destruct (main_length c o) as [[n|]|]; cbn [bind] in H; try discriminate; injection H as <-; [|constructor].
  apply filter_names. unfold data_attributes. now apply filter_names.
Qed.
Lemma meta_nodup c o l : proper o -> NoDup (c_not_array c) -> meta_attrs c o = Ok l -> NoDup l.
Proof.
  unfold meta_attrs. intros P N H. destruct (array_attrs c o) as [a|]; [|discriminate]. cbn [bind] in H.
  destruct (internal_array_attrs c o) as [i|]; [|discriminate]. cbn [bind] in H. injection H as <-.
  apply nodup_app; auto.
  - apply filter_names. unfold data_attributes. now apply filter_names.
  - intros x K. apply in_map_iff in K. destruct K as ([y v] & <- & K). apply filter_In in K. destruct K as [K _].
    apply in_data in K. tauto.
Qed.
(* the table of an object *)
Lemma table_ok c o n : proper o -> long c o n -> NoDup (c_not_array c) -> (forall x, In x (c_not_array c) -> exists v, In (x, v) o) ->
  ~ In (c_main c) (c_not_array c) -> public (c_main c) ->
  exists t, to_table c o = Ok t /\ NoDup (map fst (t_cols t)) /\ NoDup (map fst (t_meta t)) /\
    (forall x v, In (x, v) (t_cols t) <-> In (x, v) o /\ (x = c_main c \/ column c o n x \/ hidden c o n x)) /\
    (forall x v, In (x, v) (t_meta t) <-> In (x, v) o /\ v <> VNone /\ meta c o n x).
Proof.
  intros P L ND G NM PM. unfold to_table, get_meta_dict.
  destruct (array_list c o n P L) as (a & Ea & A). pose proof (array_nodup c o a P Ea) as Na.
  destruct (internal_list c o n P L) as (i & Ei & I). pose proof (internal_nodup c o i P Ei) as Ni.
  destruct (meta_list c o n P L) as (m & Em & M). pose proof (meta_nodup c o m P ND Em) as Nm.
  rewrite Ea, Ei, Em. cbn [bind].
  set (f := fun n0 : str => let! v := get_attr o n0 in match v with VArr _ _ => Ok (n0, v) | _ => Err TypeError end).
  set (g := fun n0 : str => let! v := get_attr o n0 in Ok (n0, v)).
  assert (F : forall x s d, In (x, VArr s d) o -> f x = Ok (x, VArr s d)).
  { intros x s d H. unfold f. apply (in_attr _ _ _ P), get_attr_ok in H. now rewrite H. }
  destruct (map_result f (a ++ [c_main c] ++ i)) as [cols|] eqn:EC.
  2:{ exfalso. destruct (P_helpers.map_result_ok f (a ++ [c_main c] ++ i)) as (r & K); [|congruence].
      intros x H. rewrite !in_app_iff in H. destruct H as [H|[[<-|[]]|H]].
      - apply A in H. destruct H as (_ & _ & _ & s & d & H). rewrite (F _ _ _ H). eauto.
      - destruct L as (s & d & H). rewrite (F _ _ _ H). eauto.
      - apply I in H. destruct H as (_ & _ & _ & _ & s & d & H & _). rewrite (F _ _ _ H). eauto. }
  destruct (values_of f o _ (fun x p => ltac:(unfold f; intros E; apply bind_ok in E; destruct E as (v & E1 & E2);
     apply get_attr_ok in E1; destruct v; try discriminate; injection E2 as <-; split; [reflexivity|exact E1])) cols EC) as [C1 C2].
  cbn [bind].
  destruct (map_result g m) as [ml|] eqn:EM.
  2:{ exfalso. destruct (P_helpers.map_result_ok g m) as (r & K); [|congruence].
      intros x H. apply M in H. assert (exists v, In (x, v) o) as (v & V).
      { destruct H as [H|(_ & _ & v & H & _)]; eauto. }
      unfold g. apply (in_attr _ _ _ P), get_attr_ok in V. rewrite V. cbn. eauto. }
  destruct (values_of g o _ (fun x p => ltac:(unfold g; intros E; apply bind_ok in E; destruct E as (v & E1 & E2);
     apply get_attr_ok in E1; injection E2 as <-; split; [reflexivity|exact E1])) ml EM) as [M1 M2].
  cbn [bind]. eexists. split; [reflexivity|]. cbn [t_cols t_meta]. rewrite C1. split; [|split; [|split]].
  - apply nodup_app; auto.
    + constructor; [|exact Ni]. intros K. apply I in K. destruct K as (K & _). now apply K.
    + intros x H [<-|K]; [apply A in H; destruct H as (_ & H & _); now apply H|].
      apply A in H. apply I in K. destruct H as (H & _), K as (K & _). now apply K.
  - apply filter_names. now rewrite M1.
  - intros x v. split.
    + intros H. split; [apply attr_in, C2, H|]. apply (in_map fst) in H. rewrite C1 in H. cbn [fst] in H.
      rewrite !in_app_iff in H. destruct H as [H|[[<-|[]]|H]]; [right; left; now apply A|now left|right; right; now apply I].
    + intros [H K]. assert (X : In x (map fst cols)).
      { rewrite C1, !in_app_iff. destruct K as [->|[K|K]]; [right; left; now left|left; now apply A|right; right; now apply I]. }
      apply in_map_iff in X. destruct X as ([y w] & E & X). cbn in E. subst y.
      apply (in_attr _ _ _ P) in H. pose proof (C2 _ _ X). congruence.
  - intros x v. rewrite filter_In. cbn [snd]. split.
    + intros [H K]. split; [apply attr_in, M2, H|]. split; [intros ->; discriminate|].
      apply (in_map fst) in H. rewrite M1 in H. now apply M.
    + intros (H & K & X). split; [|destruct v; congruence]. apply M in X. rewrite <- M1 in X.
      apply in_map_iff in X. destruct X as ([y w] & E & X). cbn in E. subst y.
      apply (in_attr _ _ _ P) in H. pose proof (M2 _ _ X). congruence.
Qed.
Lemma find_main (f : str * value -> bool) l x v : NoDup (map fst l) -> In (x, v) l -> f (x, v) = true ->
  (forall p, In p l -> f p = true -> fst p = x) -> find f l = Some (x, v).
Proof.
  intros N H F U. destruct (find f l) as [[y w]|] eqn:E.
  - apply find_some in E. destruct E as [E T]. pose proof (U _ E T) as Y. cbn in Y. subst y.
    pose proof (in_attr l x v N H) as A1. pose proof (in_attr l x w N E) as A2. congruence.
  - exfalso. pose proof (find_none _ _ E _ H). congruence.
Qed.
Lemma fold_ext {A B} (f g : A -> B -> A) l : (forall a b, In b l -> f a b = g a b) -> forall a, fold_left f l a = fold_left g l a.
Proof.
  induction l as [|b l IH]; intros H a; cbn; [reflexivity|]. rewrite (H a b (or_introl eq_refl)). apply IH. intros. apply H. now right.
Qed.
Section Trip.
Variables (c : cls) (o : obj) (n : nat).
Hypothesis P : proper o.
Hypothesis L : long c o n.
Hypothesis N0 : n <> 0%nat.
Hypothesis ND : NoDup (c_not_array c).
Hypothesis G : forall x, In x (c_not_array c) -> exists v, In (x, v) o.
Hypothesis NM : ~ In (c_main c) (c_not_array c).
Hypothesis PM : public (c_main c).
Hypothesis PN : forall x, In x (c_not_array c) -> public x.
Hypothesis LC : forall x v, In (x, v) o -> lowercase x.
Hypothesis GT : c_gti c = true -> In (% "gti") (c_not_array c).

Lemma rows_main t : to_table c o = Ok t -> rows t = n.
Proof.
  intros H. destruct (table_ok c o n P L ND G NM PM) as (t' & E & _ & _ & C & _).
  assert (t = t') by congruence. subst t'. clear E.
  unfold rows. destruct (t_cols t) as [|[x v] l] eqn:T.
  - destruct L as (s & d & K). destruct (proj2 (C (c_main c) (VArr (n :: s) d)) (conj K (or_introl eq_refl))).
  - cbn [snd]. destruct (proj1 (C x v) (or_introl eq_refl)) as [K [->|[(_ & _ & _ & s & d & K')|(_ & _ & _ & _ & s & d & K' & _)]]].
    + destruct L as (s & d & K'). apply (in_attr _ _ _ P) in K, K'. replace v with (VArr (n :: s) d) by congruence. reflexivity.
    + apply (in_attr _ _ _ P) in K, K'. replace v with (VArr (n :: s) d) by congruence. reflexivity.
    + apply (in_attr _ _ _ P) in K, K'. replace v with (VArr (n :: s) d) by congruence. reflexivity.
Qed.
(* the object read from the table, attribute by attribute *)
Lemma round_trip : exists t, to_table c o = Ok t /\
  (forall x v, x <> % "_mask" -> In (x, v) o -> x = c_main c \/ column c o n x \/ hidden c o n x -> attr (from_table c t) x = Some v) /\
  (forall x v, In (x, v) o -> v <> VNone -> meta c o n x -> ~ In x (c_readonly c) -> attr (from_table c t) x = Some v) /\
  (forall x, x <> % "_mask" -> ~ In x (map fst o) -> attr (from_table c t) x = attr (c_new c) x) /\
  (forall x, In (x, VNone) o -> x <> % "_mask" -> attr (from_table c t) x = attr (c_new c) x) /\
  (c_gti c = true -> ~ In (% "gti") (c_readonly c) -> (exists v, In (% "gti", v) o /\ v <> VNone) ->
     attr (from_table c t) (% "_mask") = Some VNone) /\
  (forall v, (c_gti c = false \/ In (% "gti", VNone) o) -> c_main c <> % "_mask" -> hidden c o n (% "_mask") -> In (% "_mask", v) o ->
     attr (from_table c t) (% "_mask") = Some v).
Proof.
  destruct (table_ok c o n P L ND G NM PM) as (t & ET & NC & NMe & C & M). exists t. split; [exact ET|].
  pose proof (rows_main t ET) as R.
  assert (LCC : forall x v, In (x, v) (t_cols t) -> lower x = x).
  { intros x v H. apply lower_low. apply C in H. destruct H as [H _]. now apply (LC x v). }
  assert (LCM : forall x v, In (x, v) (t_meta t) -> lower x = x).
  { intros x v H. apply lower_low. apply M in H. destruct H as [H _]. now apply (LC x v). }
  destruct L as (s & d & ML). assert (MC : In (c_main c, VArr (n :: s) d) (t_cols t)) by (apply C; auto).
  set (rest := filter (fun p => negb (is_main c p)) (t_cols t)).
  set (o1 := setattr c (c_new c) (c_main c) (VArr (n :: s) d)).
  assert (FORM : from_table c t = fold_left (step c (fun x => negb (mem x (c_readonly c)))) (t_meta t) (fold_left (step c (fun _ => true)) rest o1)).
  { unfold from_table. rewrite R. replace (n =? 0)%nat with false by (symmetry; now apply Nat.eqb_neq).
    rewrite (find_main (is_main c) (t_cols t) (c_main c) (VArr (n :: s) d) NC MC).
    - cbn [snd]. fold rest. fold o1. rewrite (fold_ext _ (step c (fun _ => true)) rest).
      2:{ intros a [x v] H. unfold rest in H. apply filter_In in H. destruct H as [H _]. unfold step. cbn [fst snd]. now rewrite (LCC _ _ H). }
      apply fold_ext. intros a [x v] H. unfold step. cbn [fst snd]. rewrite (LCM _ _ H). now destruct (mem x (c_readonly c)).
    - unfold is_main. cbn [fst]. rewrite (LCC _ _ MC). apply str_eqb_refl.
    - intros [x v] H T. unfold is_main in T. cbn [fst] in *. rewrite (LCC _ _ H) in T. now apply str_eqb_spec in T. }
  rewrite FORM. clear FORM.
  assert (NR : NoDup (map fst rest)) by (unfold rest; now apply filter_names).
  assert (RIN : forall x v, In (x, v) rest <-> In (x, v) (t_cols t) /\ x <> c_main c).
  { intros x v. unfold rest. rewrite filter_In. unfold is_main. cbn [fst]. split.
    - intros [H T]. split; [exact H|]. rewrite (LCC _ _ H) in T. now apply neg_eqb in T.
    - intros [H T]. split; [exact H|]. rewrite (LCC _ _ H). now apply neg_eqb. }
  assert (MET : forall x, In x (map fst (t_meta t)) -> meta c o n x).
  { intros x H. apply in_map_iff in H. destruct H as ([y v] & <- & H). now apply M in H. }
  assert (COL : forall x, In x (map fst rest) -> column c o n x \/ hidden c o n x).
  { intros x H. apply in_map_iff in H. destruct H as ([y v] & <- & H). apply RIN in H. destruct H as [H K]. apply C in H. cbn [fst]. tauto. }
  assert (MM : ~ meta c o n (c_main c)).
  { intros [K|(_ & K & _)]; [now apply NM|now apply K]. }
  assert (DISJ : forall x, x = c_main c \/ column c o n x \/ hidden c o n x -> ~ In x (map fst (t_meta t))).
  { intros x H K. apply MET in K. destruct H as [->|[H|H]]; [now apply MM| |].
    - destruct H as (_ & _ & A & s1 & d1 & H). destruct K as [K|(_ & _ & v & K & _ & V)]; [now apply A|].
      apply (in_attr _ _ _ P) in H, K. apply (V s1 d1). congruence.
    - destruct H as (A & _ & _ & B & _). destruct K as [K|(K & _)]; [now apply B|now apply A]. }
  assert (NMASK : ~ meta c o n (% "_mask")).
  { intros [K|(K & _)]; [apply PN in K|]; now apply (K (% "mask")). }
  assert (O1 : forall x, x <> % "_mask" -> attr o1 x = if str_eqb (c_main c) x then Some (VArr (n :: s) d) else attr (c_new c) x).
  { intros x X. unfold o1. now apply attr_setattr. }
  repeat match goal with |- _ /\ _ => split end.
  - intros x v X H K. rewrite fold_out by auto.
    destruct (str_eqb x (c_main c)) eqn:E.
    + apply str_eqb_spec in E. subst x. rewrite fold_out; [|exact X|].
      * rewrite O1 by exact X. rewrite str_eqb_refl. apply (in_attr _ _ _ P) in H, ML. congruence.
      * intros Y. apply COL in Y. destruct Y as [(_ & Y & _)|(Y & _)]; [now apply Y|now apply Y].
    + apply fold_in; auto. apply RIN. split; [apply C; auto|]. intros ->. rewrite str_eqb_refl in E. discriminate.
  - intros x v H V K Q. destruct (str_eqb x (% "_mask")) eqn:E.
    + apply str_eqb_spec in E. subst x. contradiction.
    + apply fold_in; auto; [intros ->; rewrite str_eqb_refl in E; discriminate|now apply M|now apply neg_mem].
  - intros x X K. assert (Z : ~ In x (map fst (t_meta t))).
    { intros Y. apply K. apply in_map_iff in Y. destruct Y as ([y v] & <- & Y). apply M in Y. destruct Y as [Y _]. now apply (in_map fst) in Y. }
    rewrite fold_out by auto. rewrite fold_out; [|exact X|].
    + rewrite O1 by exact X. rewrite str_eqb_neq; [reflexivity|]. intros <-. apply K. now apply (in_map fst) in ML.
    + intros Y. apply K. apply in_map_iff in Y. destruct Y as ([y v] & <- & Y). apply RIN in Y. destruct Y as [Y _].
      apply C in Y. destruct Y as [Y _]. now apply (in_map fst) in Y.
  - intros x H X. rewrite fold_out; [|exact X|].
    + rewrite fold_out; [|exact X|].
      * rewrite O1 by exact X. rewrite str_eqb_neq; [reflexivity|]. intros <-. apply (in_attr _ _ _ P) in H, ML. congruence.
      * intros Y. apply COL in Y. apply (in_attr _ _ _ P) in H.
        destruct Y as [(_ & _ & _ & s1 & d1 & Y)|(_ & _ & _ & _ & s1 & d1 & Y & _)]; apply (in_attr _ _ _ P) in Y; congruence.
    + intros Y. apply in_map_iff in Y. destruct Y as ([y v] & E & Y). cbn in E. subst y. apply M in Y. destruct Y as (Y & Z & _).
      apply (in_attr _ _ _ P) in H, Y. congruence.
  - intros T Q (v & H & V). apply (fold_mask_gti c _ (t_meta t) T) with (v := v).
    + now apply neg_mem.
    + intros Y. now apply NMASK, MET.
    + apply M. repeat split; auto. left. auto.
    + intros w W. apply M in W. tauto.
  - intros v T X H V. rewrite fold_mask_out.
    + apply fold_mask_in; auto.
      * intros x Y. destruct (c_gti c) eqn:GE; [|now left]. right. intros ->. apply COL in Y.
        destruct Y as [(_ & _ & Y & _)|(_ & _ & _ & Y & _)]; apply Y; auto.
      * apply RIN. split; [apply C; auto|auto].
    + intros x Y. destruct T as [T|T]; [now left|right]. intros ->. apply in_map_iff in Y. destruct Y as ([y w] & E & Y). change (y = % "gti") in E. subst y.
      apply M in Y. destruct Y as (Y & Z & _). apply (in_attr _ _ _ P) in T, Y. congruence.
    + apply DISJ. auto.
Qed.
End Trip.

(* a table without rows gives a new object *)
Lemma no_rows c t : rows t = 0%nat -> from_table c t = c_new c.
Proof. intros H. unfold from_table. now rewrite H. Qed.

(* ---- times ---- *)
Lemma seconds_days m ref : mjd_of ((m - ref) * 86400) ref == m.
Proof. unfold mjd_of. field. Qed.
(* the times and the reference stand for the given dates *)
Lemma interpret_many l mjdref t ref : interpret_times (TTime (Many l)) mjdref = Ok (t, ref) ->
  exists s, t = Some (Many s) /\ Forall2 (fun x m => mjd_of x ref == m) s l /\ (ref = mjdref \/ (mjdref == 0 /\ (forall m, In m l -> 10000 < m) /\ nth_error l 0 = Some ref)).
Proof.
  unfold interpret_times. intros H.
  assert (X : exists r, ref = r /\ t = Some (Many (map (fun m => (m - r) * 86400) l)) /\ (r = mjdref \/ (mjdref == 0 /\ (forall m, In m l -> 10000 < m) /\ nth_error l 0 = Some r))).
  { destruct (qeq mjdref 0 && tall (fun m => qlt 10000 m) (Many l))%bool eqn:B.
    - apply andb_true_iff in B. destruct B as [B1 B2]. apply qeq_iff in B1. cbn [tall] in B2. rewrite forallb_forall in B2.
      destruct l as [|m l]; cbn [bind] in H; [discriminate|]. injection H as <- <-. exists m. repeat split. right. repeat split; auto.
      intros x K. apply B2 in K. now apply qlt_t in K.
    - cbn [bind] in H. injection H as <- <-. exists mjdref. repeat split. now left. }
  destruct X as (r & -> & -> & X). eexists. split; [reflexivity|]. split; [|exact X].
  clear X H. induction l; cbn; constructor; auto using seconds_days.
Qed.
Lemma interpret_one m mjdref t ref : interpret_times (TTime (One m)) mjdref = Ok (t, ref) ->
  exists s, t = Some (One s) /\ mjd_of s ref == m /\ (ref = mjdref \/ (mjdref == 0 /\ 10000 < m /\ ref = m)).
Proof.
  unfold interpret_times. intros H. destruct (qeq mjdref 0 && tall (fun m => qlt 10000 m) (One m))%bool eqn:B.
  - apply andb_true_iff in B. destruct B as [B1 B2]. apply qeq_iff in B1. cbn [tall] in B2. apply qlt_t in B2.
    cbn [bind] in H. injection H as <- <-. eexists. split; [reflexivity|]. split; [apply seconds_days|right; auto].
  - cbn [bind] in H. injection H as <- <-. eexists. split; [reflexivity|]. split; [apply seconds_days|now left].
Qed.
Lemma interpret_total l mjdref : l <> [] -> exists t ref, interpret_times (TTime (Many l)) mjdref = Ok (t, ref).
Proof.
  intros H. unfold interpret_times. destruct (qeq mjdref 0 && _)%bool; cbn [bind]; [|eauto].
  destruct l; [congruence|]. cbn [bind]. eauto.
Qed.
Lemma interpret_numbers t mjdref :
  interpret_times (TPlain t) mjdref = Ok (Some t, mjdref) /\ interpret_times (TSeconds t) mjdref = Ok (Some t, mjdref) /\ interpret_times TNone mjdref = Ok (None, mjdref) /\ interpret_times TOther mjdref = Err ValueError.
Proof. repeat split; reflexivity. Qed.
(* a time series: with a reference other than zero the times stand for the dates *)
Lemma init_dates l mjdref arrays ts : ~ mjdref == 0 -> l <> [] -> timeseries_init (TTime (Many l)) mjdref arrays = Ok ts ->
  exists s, ts_time ts = Some (Many s) /\ Forall2 (fun x m => mjd_of x (ts_mjdref ts) == m) s l /\ ts_mjdref ts = mjdref.
Proof.
  intros Z NE H. unfold timeseries_init, set_times in H. cbn [tsize] in H. destruct l as [|m l]; [congruence|]. cbn [List.length] in H.
  destruct (interpret_times (TTime (Many (m :: l))) mjdref) as [[t ref]|] eqn:E; [|discriminate]. cbn [bind fst] in H.
  apply interpret_many in E. destruct E as (s & -> & F & R). cbn [bind] in H.
  destruct (add_columns _ arrays) as [cols|]; [|discriminate]. cbn [bind] in H. injection H as <-. cbn [ts_time ts_mjdref].
  exists s. repeat split. destruct R as [->|(K & _)]; [exact F|contradiction].
Qed.
(* without one, the first date is lost *)
Lemma init_lost l mjdref arrays ts : mjdref == 0 -> l <> [] -> (forall m, In m l -> 10000 < m) ->
  timeseries_init (TTime (Many l)) mjdref arrays = Ok ts ->
  exists s m0, ts_time ts = Some (Many s) /\ nth_error l 0 = Some m0 /\ ts_mjdref ts = mjdref /\ Forall2 (fun x m => mjd_of x (ts_mjdref ts) == m - m0) s l.
Proof.
  intros Z NE B H. unfold timeseries_init, set_times in H. cbn [tsize] in H. destruct l as [|m l]; [congruence|]. cbn [List.length] in H.
  assert (E : interpret_times (TTime (Many (m :: l))) mjdref = Ok (Some (Many (map (fun x => (x - m) * 86400) (m :: l))), m)).
  { unfold interpret_times. replace (qeq mjdref 0) with true by (symmetry; now apply qeq_iff).
    replace (tall (fun m0 => qlt 10000 m0) (Many (m :: l))) with true; [reflexivity|].
    symmetry. cbn [tall]. apply forallb_forall. intros x K. apply B in K. qb. lra. }
  rewrite E in H. cbn [bind fst] in H.
  destruct (add_columns _ arrays) as [cols|]; [|discriminate]. cbn [bind] in H. injection H as <-. cbn [ts_time ts_mjdref].
  eexists _, m. repeat split. clear - Z.
  enough (X : forall r, Forall2 (fun x m0 => mjd_of x mjdref == m0 - m) (map (fun x => (x - m) * 86400) r) r) by apply (X (m :: l)).
  induction r as [|x r IH]; cbn [map]; constructor; auto. unfold mjd_of. rewrite Z. field.
Qed.
Lemma columns_ok n l r : add_columns (Some n) l = Ok r -> r = l /\ forall k v, In (k, v) l -> List.length v = n.
Proof.
  revert r. induction l as [|[k v] l IH]; intros r H; cbn in H.
  - injection H as <-. split; [reflexivity|intros ? ? []].
  - destruct (n =? List.length v)%nat eqn:E; cbn [negb] in H; [|discriminate]. apply Nat.eqb_eq in E.
    destruct (add_columns (Some n) l) as [r'|] eqn:E'; [|discriminate]. cbn [bind] in H. injection H as <-.
    destruct (IH r' eq_refl) as [-> A]. split; [reflexivity|]. intros k' v' [K|K]; [injection K as <- <-; auto|eauto].
Qed.
Lemma columns_bad n l : (exists k v, In (k, v) l /\ List.length v <> n) -> add_columns (Some n) l = Err ValueError.
Proof.
  induction l as [|[k v] l IH]; intros (k' & v' & H & N); [contradiction|]. cbn.
  destruct (n =? List.length v)%nat eqn:E; cbn [negb]; [|reflexivity]. apply Nat.eqb_eq in E.
  rewrite IH; [reflexivity|]. destruct H as [H|H]; [injection H as -> ->; congruence|eauto].
Qed.
(* the array attributes of a time series have the length of the times *)
Lemma init_columns l mjdref arrays : l <> [] ->
  (forall ts, timeseries_init (TPlain (Many l)) mjdref arrays = Ok ts ->
     ts_time ts = Some (Many l) /\ ts_mjdref ts = mjdref /\ ts_cols ts = arrays /\ forall k v, In (k, v) arrays -> List.length v = List.length l) /\ ((forall k v, In (k, v) arrays -> List.length v = List.length l) -> exists ts, timeseries_init (TPlain (Many l)) mjdref arrays = Ok ts) /\ ((exists k v, In (k, v) arrays /\ List.length v <> List.length l) -> timeseries_init (TPlain (Many l)) mjdref arrays = Err ValueError).
Proof.
  intros NE. unfold timeseries_init, set_times. cbn [tsize]. destruct l as [|m l]; [congruence|]. cbn [List.length].
  cbn [interpret_times bind fst]. cbn [List.length]. split; [|split].
  - intros ts H. destruct (add_columns _ arrays) as [cols|] eqn:E; [|discriminate]. cbn [bind] in H. injection H as <-.
    apply columns_ok in E. destruct E as [-> E]. cbn. auto.
  - intros H. destruct (add_columns (Some (S (List.length l))) arrays) as [cols|] eqn:E; [cbn; eauto|]. exfalso.
    revert e E. clear - H. induction arrays as [|[k v] a IH]; cbn; [discriminate|].
    rewrite (H k v (or_introl eq_refl)), Nat.eqb_refl. cbn [negb].
    destruct (add_columns _ a) as [|e0]; cbn; [discriminate|]. intros _ _. apply (IH ltac:(intros; eapply H; right; eassumption) e0 eq_refl).
  - intros H. now rewrite columns_bad.
Qed.

Lemma lower_letter a b : same_letter a b -> lower_char a = lower_char b.
Proof.
  assert (X : forall a b, (65 <= nat_of_ascii a <= 90 /\ nat_of_ascii b = nat_of_ascii a + 32)%nat -> lower_char a = lower_char b).
  { clear. intros a b [A B]. unfold lower_char. rewrite B.
    replace (Nat.leb 65 (nat_of_ascii a) && Nat.leb (nat_of_ascii a) 90)%bool with true by (symmetry; apply andb_true_intro; split; apply Nat.leb_le; lia).
    replace (Nat.leb (nat_of_ascii a + 32) 90) with false by (symmetry; apply Nat.leb_gt; lia). rewrite andb_false_r.
    rewrite <- B. apply ascii_nat_embedding. }
  intros [->|[H|H]]; [reflexivity|now apply X|]. symmetry. now apply X.
Qed.
Lemma lower_same x y : Forall2 same_letter x y -> lower x = lower y.
Proof. unfold lower. induction 1 as [|a b x y H _ IH]; [reflexivity|]. cbn [map]. now rewrite (lower_letter a b H), IH. Qed.
Lemma from_table_case c t t' : same_entries (t_cols t) (t_cols t') -> same_entries (t_meta t) (t_meta t') -> from_table c t = from_table c t'.
Proof.
  intros A B. unfold from_table.
  assert (R : rows t = rows t').
  { unfold rows. destruct A as [|p q ? ? [_ E] _]; [reflexivity|]. now rewrite E. }
  rewrite R. destruct (Nat.eqb (rows t') 0); [reflexivity|].
  assert (F : option_map snd (find (is_main c) (t_cols t)) = option_map snd (find (is_main c) (t_cols t'))).
  { clear R B. induction A as [|p q l m [E V] _ IH]; [reflexivity|]. cbn [find]. replace (is_main c p) with (is_main c q) by (unfold is_main; now rewrite (lower_same _ _ E)).
    destruct (is_main c q); [cbn; now rewrite V|exact IH]. }
  assert (G : (match find (is_main c) (t_cols t) with Some p => setattr c (c_new c) (c_main c) (snd p) | None => c_new c end) =
              (match find (is_main c) (t_cols t') with Some p => setattr c (c_new c) (c_main c) (snd p) | None => c_new c end)).
  { destruct (find (is_main c) (t_cols t)), (find (is_main c) (t_cols t')); cbn in F; congruence. }
  rewrite G. clear F G. generalize (match find (is_main c) (t_cols t') with Some p => setattr c (c_new c) (c_main c) (snd p) | None => c_new c end). intros o.
  assert (C : forall o, fold_left (fun o p => setattr c o (lower (fst p)) (snd p)) (filter (fun p => negb (is_main c p)) (t_cols t)) o =
              fold_left (fun o p => setattr c o (lower (fst p)) (snd p)) (filter (fun p => negb (is_main c p)) (t_cols t')) o).
  { clear R B o. induction A as [|p q l m [E V] _ IH]; intros o; [reflexivity|]. cbn [filter]. replace (is_main c p) with (is_main c q) by (unfold is_main; now rewrite (lower_same _ _ E)).
    destruct (is_main c q); cbn [negb]; [apply IH|]. cbn [fold_left]. rewrite (lower_same _ _ E), V. apply IH. }
  rewrite C. generalize (fold_left (fun o p => setattr c o (lower (fst p)) (snd p)) (filter (fun p => negb (is_main c p)) (t_cols t')) o). clear C A R o.
  induction B as [|p q l m [E V] _ IH]; intros o; [reflexivity|]. cbn [fold_left]. rewrite (lower_same _ _ E), V. apply IH.
Qed.
Lemma init_empty t mjdref arrays : t = TNone \/ t = TTime (Many []) \/ t = TSeconds (Many []) \/ t = TPlain (Many []) ->
  timeseries_init t mjdref arrays = match arrays with [] => Ok (mkTs None mjdref []) | _ => Err AttributeError end.
Proof. intros [->|[->|[->| ->]]]; destruct arrays as [|[k v] l]; reflexivity. Qed.
