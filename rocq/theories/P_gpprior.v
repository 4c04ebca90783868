(* Proofs about the prior *)
From Verif Require Import Np Lib M_gpprior S_gpprior.
From Coq Require Import List String.
Import ListNotations.

Section P.
Context {D V : Type}.
Implicit Types (priors : list (string * given D)).

Lemma find_iff k priors g : find_entry k priors = Some g <-> entry_of k priors g.
Proof.
  induction priors as [|(n, h) r IH]; cbn; [split; [discriminate|intros H; inversion H]|].
  destruct (String.eqb_spec n k) as [->|N].
  - split; [intros [= ->]; constructor|]. intros H. inversion H; subst; [reflexivity|congruence].
  - rewrite IH. split; [now constructor|]. intros H. inversion H; subst; [congruence|assumption].
Qed.
Lemma find_none k priors : find_entry k priors = None <-> ~ In k (map fst priors).
Proof.
  induction priors as [|(n, h) r IH]; cbn; [tauto|]. destruct (String.eqb_spec n k) as [->|N].
  - split; [discriminate|]. intros H. exfalso. apply H. now left.
  - rewrite IH. tauto.
Qed.

Definition named_right (priors : list (string * given D)) (k : string) (p : string * D) : Prop :=
  exists g, entry_of k priors g /\ (g = Dist (snd p) /\ fst p = k \/ g = Named (fst p) (snd p)).
Lemma yield_all priors params : (forall k, In k params -> usable priors k) ->
  exists l, yielded params priors = (l, Ok tt) /\ Forall2 (named_right priors) params l.
Proof.
  induction params as [|k r IH]; intros H; [exists []; split; [reflexivity|constructor]|].
  destruct IH as (l & E & F); [intros k' I; apply H; now right|].
  destruct (H k (or_introl eq_refl)) as (g & d & Hg & Hd). cbn. pose proof Hg as Hf. apply find_iff in Hf. rewrite Hf, E.
  destruct Hd as [->|(n & ->)].
  - exists ((k, d) :: l). split; [reflexivity|]. constructor; [|exact F]. exists (Dist d). split; [exact Hg|]. left. now split.
  - exists ((n, d) :: l). split; [reflexivity|]. constructor; [|exact F]. exists (Named n d). split; [exact Hg|]. now right.
Qed.
Lemma yield_names priors params : (forall k, In k params -> usable priors k) -> (forall k, In k params -> well_named priors k) ->
  exists l, yielded params priors = (l, Ok tt) /\ map fst l = params /\
    Forall (fun p => exists g, entry_of (fst p) priors g /\ distribution g (snd p)) l.
Proof.
  intros H W. destruct (yield_all priors params H) as (l & E & F). exists l. split; [exact E|]. clear E H.
  induction F as [|k p r l (g & Hg & Hc) _ IH]; [split; [reflexivity|constructor]|].
  destruct IH as (I1 & I2); [intros k' I; apply W; now right|].
  assert (K : fst p = k).
  { destruct Hc as [(_ & K)| ->]; [exact K|]. apply (W k (or_introl eq_refl) (fst p) (snd p)). exact Hg. }
  split; [cbn; now rewrite K, I1|]. constructor; [|exact I2]. exists g. rewrite K. split; [exact Hg|].
  destruct Hc as [(-> & _)| ->]; [now left|right; now exists (fst p)].
Qed.
Lemma drawn (draw : string -> D -> V) priors params : (forall k, In k params -> usable priors k) -> (forall k, In k params -> well_named priors k) ->
  exists vs, prior_model draw params priors = Ok vs /\
    Forall2 (fun k v => exists g d, entry_of k priors g /\ distribution g d /\ v = draw k d) params vs.
Proof.
  intros H W. destruct (yield_names priors params H W) as (l & E & N & F). unfold prior_model. rewrite E. eexists. split; [reflexivity|].
  rewrite <- N. clear -F. induction F as [|p l (g & Hg & Hd) _ IH]; cbn; constructor; [|exact IH]. exists g, (snd p). repeat split; trivial.
Qed.
(* the first parameter that cannot be used *)
Lemma first_missing (draw : string -> D -> V) priors before k after : (forall b, In b before -> usable priors b) -> ~ In k (map fst priors) ->
  prior_model draw (before ++ k :: after) priors = Err KeyError.
Proof.
  intros H N. apply find_none in N. unfold prior_model.
  assert (E : exists l, yielded (before ++ k :: after) priors = (l, Err KeyError)).
  { induction before as [|b r IH]; [exists []; cbn; now rewrite N|]. destruct IH as (l & E); [intros b' I; apply H; now right|].
    destruct (H b (or_introl eq_refl)) as (g & d & Hg & Hd). apply find_iff in Hg. cbn. rewrite Hg, E. destruct Hd as [->|(n & ->)]; eauto. }
  destruct E as (l & ->). reflexivity.
Qed.
Lemma first_other (draw : string -> D -> V) priors before k after : (forall b, In b before -> usable priors b) -> entry_of k priors Other ->
  prior_model draw (before ++ k :: after) priors = Err ValueError.
Proof.
  intros H N. apply find_iff in N. unfold prior_model.
  assert (E : exists l, yielded (before ++ k :: after) priors = (l, Err ValueError)).
  { induction before as [|b r IH]; [exists []; cbn; now rewrite N|]. destruct IH as (l & E); [intros b' I; apply H; now right|].
    destruct (H b (or_introl eq_refl)) as (g & d & Hg & Hd). apply find_iff in Hg. cbn. rewrite Hg, E. destruct Hd as [->|(n & ->)]; eauto. }
  destruct E as (l & ->). reflexivity.
Qed.
End P.
