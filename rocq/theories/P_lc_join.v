(* P_lc_join.v: proofs about Lightcurve.join. *)
From Verif Require Import Np Lib S_gti S_lc M_gti M_seg M_utils M_lc P_gti_ops P_gti_final.
From Coq Require Import Lqa.
Open Scope Q_scope.

Lemma qeq_sym a b : qeq a b = qeq b a.
Proof. destruct (qeq a b) eqn:E, (qeq b a) eqn:F; try reflexivity; qb; exfalso; [apply F|apply E]; symmetry; assumption. Qed.
Lemma get_set d k v t : dict_get (dict_set d k v) t = if qeq k t then Some v else dict_get d t.
Proof.
  induction d as [|[k' v'] d IH]; simpl; [reflexivity|]. destruct (qeq k' k) eqn:E; simpl.
  - destruct (qeq k' t) eqn:F, (qeq k t) eqn:G; try reflexivity; qb; exfalso; [apply G|apply F]; lra.
  - rewrite IH. destruct (qeq k' t) eqn:F; [|reflexivity]. destruct (qeq k t) eqn:G; [|reflexivity]. qb. exfalso. apply E. lra.
Qed.
Definition distinct (d : list (Q * (Q * Q))) : Prop := ForallOrdPairs (fun a b => ~ fst a == fst b) d.
Lemma distinct_spec (d : list (Q * (Q * Q))) : distinct_times d <-> distinct d.
Proof.
  unfold distinct_times, distinct. split.
  - induction d as [|a d IH]; intros H; constructor.
    + apply Forall_forall. intros b Hb E. apply In_nth_error in Hb. destruct Hb as [j Hj].
      assert (K : 0%nat = S j) by (apply (H 0%nat (S j) a b); [reflexivity|exact Hj|exact E]). discriminate.
    + apply IH. intros i j x y Hi Hj E. assert (K : S i = S j) by (apply (H (S i) (S j) x y); assumption). congruence.
  - induction 1 as [|a d HF HD IH]; intros i j x y Hi Hj E; [destruct i; discriminate|].
    rewrite Forall_forall in HF. destruct i, j; [reflexivity| | |].
    + exfalso. simpl in Hi, Hj. injection Hi as <-. apply (HF y); [eapply nth_error_In; eassumption|assumption].
    + exfalso. simpl in Hi, Hj. injection Hj as <-. apply (HF x); [eapply nth_error_In; eassumption|symmetry; assumption].
    + f_equal. apply (IH i j x y); assumption.
Qed.
Lemma get_value d t v : distinct d -> (value_at d t v <-> dict_get d t = Some v).
Proof.
  unfold value_at. induction 1 as [|[k w] d HF HD IH]; simpl.
  - split; [intros (t' & [] & _)|discriminate].
  - rewrite Forall_forall in HF. destruct (qeq k t) eqn:E; qb.
    + split.
      * intros (t' & [Hin|Hin] & Et); [congruence|]. exfalso. apply (HF _ Hin). cbn [fst]. lra.
      * intros H. exists k. split; [left; congruence|assumption].
    + rewrite <- IH. split; intros (t' & Hin & Et).
      * destruct Hin as [Hin|Hin]; [injection Hin as -> ->; exfalso; apply E; assumption|]. exists t'. split; assumption.
      * exists t'. split; [right; assumption|assumption].
Qed.
Lemma get_none d t : no_value_at d t <-> dict_get d t = None.
Proof.
  unfold no_value_at. induction d as [|[k w] d IH]; simpl; [split; [reflexivity|intros _ ? ? []]|].
  destruct (qeq k t) eqn:E; qb.
  - split; [|discriminate]. intros H. exfalso. apply (H k w); [left; reflexivity|assumption].
  - rewrite <- IH. split; intros H t' v Hin.
    + apply (H t' v). right. assumption.
    + destruct Hin as [Hin|Hin]; [injection Hin as <- <-; assumption|apply (H t' v); assumption].
Qed.
Lemma set_absent d k v : dict_get d k = None -> dict_set d k v = d ++ [(k, v)].
Proof. induction d as [|[k' v'] d IH]; simpl; [reflexivity|]. destruct (qeq k' k); [discriminate|]. intros H. rewrite IH by assumption. reflexivity. Qed.
Lemma distinct_app d k v : distinct d -> dict_get d k = None -> distinct (d ++ [(k, v)]).
Proof.
  induction 1 as [|a d HF HD IH]; intros H; simpl.
  - constructor; constructor.
  - destruct a as [ka va]. simpl in H. destruct (qeq ka k) eqn:E; [discriminate|]. qb. constructor; [|apply IH; assumption].
    apply Forall_app. split; [assumption|]. constructor; [exact E|constructor].
Qed.
Lemma set_distinct d k v : distinct d -> distinct (dict_set d k v).
Proof.
  intros H. destruct (dict_get d k) eqn:G; [|rewrite set_absent by assumption; apply distinct_app; assumption].
  clear G. induction H as [|[ka va] d HF HD IH]; simpl; [constructor; constructor|].
  destruct (qeq ka k) eqn:E; [constructor; assumption|]. qb. constructor; [|assumption].
  clear IH HD. induction HF as [|[kb vb] d Hb HF IH]; simpl; [constructor; [exact E|constructor]|].
  destruct (qeq kb k) eqn:F; constructor; try assumption.
Qed.
Lemma fold_set first : forall d, (forall s, In s first -> dict_get d (fst s) = None) -> distinct first ->
  fold_left (fun d s => dict_set d (fst s) (snd s)) first d = d ++ first.
Proof.
  induction first as [|[k v] first IH]; intros d H HD; [rewrite app_nil_r; reflexivity|].
  inversion HD as [|? ? HF HD']; subst. rewrite Forall_forall in HF. simpl. rewrite set_absent by (apply (H (k, v)); left; reflexivity).
  rewrite IH; [rewrite <- app_assoc; reflexivity| |assumption].
  intros s Hs. rewrite <- set_absent by (apply (H (k, v)); left; reflexivity). rewrite get_set.
  destruct (qeq k (fst s)) eqn:E; [qb; exfalso; apply (HF s Hs); exact E|]. apply H. right. assumption.
Qed.
Definition avg (v w : Q * Q) : Q * Q := ((fst v + fst w) / 2, (snd v + snd w) / 2).
Definition both (v w : option (Q * Q)) : option (Q * Q) :=
  match v, w with Some x, Some y => Some (avg x y) | Some x, None => Some x | None, w => w end.
Definition step2 (d : list (Q * (Q * Q))) (s : Q * (Q * Q)) : list (Q * (Q * Q)) :=
  match dict_get d (fst s) with
  | Some (c, e) => dict_set d (fst s) ((c + fst (snd s)) / 2, (e + snd (snd s)) / 2)
  | None => dict_set d (fst s) (snd s) end.
Lemma dict_get_comp d k t : k == t -> dict_get d k = dict_get d t.
Proof.
  intros E. induction d as [|[k' v] d IH]; [reflexivity|]. simpl. rewrite IH.
  destruct (qeq k' k) eqn:F, (qeq k' t) eqn:G; try reflexivity; qb; exfalso; [apply G|apply F]; lra.
Qed.
Lemma fold_both second : forall d, distinct d -> distinct second ->
  distinct (fold_left step2 second d) /\ forall t, dict_get (fold_left step2 second d) t = both (dict_get d t) (dict_get second t).
Proof.
  induction second as [|[k v] second IH]; intros d HD HS; simpl.
  - split; [assumption|]. intros t. destruct (dict_get d t); reflexivity.
  - inversion HS as [|? ? HF HS']; subst. rewrite Forall_forall in HF.
    set (w := both (dict_get d k) (Some v)).
    assert (E : exists x, w = Some x /\ step2 d (k, v) = dict_set d k x).
    { unfold w, step2. cbn [fst snd]. destruct (dict_get d k) as [[c e]|]; eexists; split; reflexivity. }
    destruct E as (x & Ex & ->). destruct (IH (dict_set d k x)) as [K1 K2]; [apply set_distinct; assumption|assumption|].
    split; [assumption|]. intros t. rewrite K2, get_set. destruct (qeq k t) eqn:E; [|reflexivity]. qb.
    assert (N : dict_get second t = None).
    { apply get_none. intros t' v' Hin Et. apply (HF _ Hin). cbn [fst]. lra. }
    rewrite N. rewrite <- (dict_get_comp d k t E). unfold w in Ex. cbn [both]. rewrite Ex. reflexivity.
Qed.
Lemma app_distinct a b : distinct a -> distinct b -> (forall s s', In s a -> In s' b -> ~ fst s == fst s') -> distinct (a ++ b).
Proof.
  induction 1 as [|x a HF HD IH]; intros HB H; [assumption|]. simpl. constructor.
  - apply Forall_app. split; [assumption|]. apply Forall_forall. intros y Hy. apply H; [left; reflexivity|assumption].
  - apply IH; [assumption|]. intros s s' Hs. apply H. right. assumption.
Qed.
Lemma get_app a b t : dict_get (a ++ b) t = match dict_get a t with Some v => Some v | None => dict_get b t end.
Proof. induction a as [|[k v] a IH]; [reflexivity|]. simpl. destruct (qeq k t); [reflexivity|apply IH]. Qed.
Lemma samples_both a b : distinct a -> distinct b ->
  distinct (lc_join_samples a b) /\ forall t, dict_get (lc_join_samples a b) t = both (dict_get a t) (dict_get b t).
Proof.
  intros Ha Hb. unfold lc_join_samples. destruct (existsb _ a) eqn:E.
  - rewrite fold_set; [|intros; reflexivity|assumption]. simpl. apply (fold_both b a Ha Hb).
  - assert (K : forall s s', In s a -> In s' b -> ~ fst s == fst s').
    { intros s s' Hs Hs' Eq. assert (T : existsb (fun s => existsb (fun s' => qeq (fst s) (fst s')) b) a = true).
      { apply existsb_exists. exists s. split; [assumption|]. apply existsb_exists. exists s'. split; [assumption|]. qb. assumption. }
      congruence. }
    split; [apply app_distinct; assumption|]. intros t. rewrite get_app.
    destruct (dict_get a t) as [v|] eqn:Ga; [|destruct (dict_get b t); reflexivity].
    destruct (dict_get b t) as [w|] eqn:Gb; [|reflexivity]. exfalso.
    apply (get_value a t v Ha) in Ga. apply (get_value b t w Hb) in Gb. destruct Ga as (x & Hx & Ex), Gb as (y & Hy & Ey).
    apply (K _ _ Hx Hy). cbn [fst]. lra.
Qed.

(* a sample of the joined light curve *)
Definition close_to (v w : Q * Q) : Prop := fst v == fst w /\ snd v == snd w.
Lemma join_main s_start s_edge a b start_a start_b ga gb r g :
  distinct_times a -> distinct_times b -> lc_join s_start s_edge a b start_a start_b ga gb = Ok (r, g) ->
  join_gtis s_start s_edge ga gb = Ok g /\ distinct_times r /\
  (forall t va vb, value_at a t va -> value_at b t vb ->
     exists c e, value_at r t (c, e) /\ average_is [fst va; fst vb] c /\ average_is [snd va; snd vb] e) /\
  (forall t va, value_at a t va -> no_value_at b t -> value_at r t va) /\
  (forall t vb, value_at b t vb -> no_value_at a t -> value_at r t vb) /\
  (forall t, no_value_at a t -> no_value_at b t -> no_value_at r t).
Proof.
  intros Ha Hb H. apply distinct_spec in Ha. apply distinct_spec in Hb. unfold lc_join in H.
  destruct (join_gtis s_start s_edge ga gb) as [g'|]; [|discriminate]. simpl in H. injection H as Hr ->. split; [reflexivity|].
  assert (AV : forall x y : Q, average_is [x; y] ((x + y) / 2)).
  { intros x y. unfold average_is. simpl. field. }
  assert (AV' : forall x y : Q, average_is [x; y] ((y + x) / 2)).
  { intros x y. unfold average_is. simpl. field. }
  destruct (qlt start_a start_b); subst r.
  - destruct (samples_both a b Ha Hb) as [K1 K2]. split; [apply distinct_spec; assumption|]. repeat split.
    + intros t va vb Va Vb. apply get_value in Va; [|assumption]. apply get_value in Vb; [|assumption].
      do 2 eexists. split; [apply get_value; [assumption|]; rewrite K2, Va, Vb; reflexivity|]. split; apply AV.
    + intros t va Va Vb. apply get_value in Va; [|assumption]. apply get_none in Vb. apply get_value; [assumption|]. rewrite K2, Va, Vb. reflexivity.
    + intros t vb Vb Va. apply get_value in Vb; [|assumption]. apply get_none in Va. apply get_value; [assumption|]. rewrite K2, Va, Vb. reflexivity.
    + intros t Va Vb. apply get_none in Va. apply get_none in Vb. apply get_none. rewrite K2, Va, Vb. reflexivity.
  - destruct (samples_both b a Hb Ha) as [K1 K2]. split; [apply distinct_spec; assumption|]. repeat split.
    + intros t va vb Va Vb. apply get_value in Va; [|assumption]. apply get_value in Vb; [|assumption].
      do 2 eexists. split; [apply get_value; [assumption|]; rewrite K2, Va, Vb; reflexivity|]. split; apply AV'.
    + intros t va Va Vb. apply get_value in Va; [|assumption]. apply get_none in Vb. apply get_value; [assumption|]. rewrite K2, Va, Vb. reflexivity.
    + intros t vb Vb Va. apply get_value in Vb; [|assumption]. apply get_none in Va. apply get_value; [assumption|]. rewrite K2, Va, Vb. reflexivity.
    + intros t Va Vb. apply get_none in Va. apply get_none in Vb. apply get_none. rewrite K2, Va, Vb. reflexivity.
Qed.
