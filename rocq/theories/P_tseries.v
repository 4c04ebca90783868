(* Proofs about the conversion of time series *)
From Coq Require Import String Ascii.
From Verif Require Import Np Lib M_io M_object M_tseries S_tseries.
From Coq Require Import ZArith QArith List Bool Lia Lqa.
Import ListNotations.
Open Scope Q_scope.

Lemma filter_all {A} (f : A -> bool) l : Forall (fun x => f x = true) l -> filter f l = l.
Proof. induction 1 as [|x l H _ IH]; cbn; trivial. rewrite H. now f_equal. Qed.
Lemma filter_none {A} (f : A -> bool) l : Forall (fun x => f x = false) l -> filter f l = [].
Proof. induction 1 as [|x l H _ IH]; cbn; trivial. now rewrite H. Qed.

Lemma round_trip s : even_columns s -> from_ts (to_ts s) = Ok s.
Proof.
  intros (x & t & E & H). destruct s as [tm ref cols meta]. cbn in *. subst tm. unfold to_ts, from_ts, array_columns. cbn.
  rewrite filter_all; trivial. revert H. apply Forall_impl. intros c Hc. now apply Nat.eqb_eq.
Qed.
Lemma table_columns s x t : s_time s = Some (x :: t) ->
  a_time (to_ts s) = Some (Elapsed (x :: t)) /\ a_mjdref (to_ts s) = Some (s_mjdref s) /\ a_meta (to_ts s) = s_meta s /\
  forall k v, In (k, v) (a_cols (to_ts s)) <-> In (k, v) (s_cols s) /\ List.length v = List.length (x :: t).
Proof.
  intros E. unfold to_ts, array_columns. rewrite E. cbn [a_time a_cols a_mjdref a_meta]. repeat split; trivial.
  - apply filter_In in H. tauto.
  - apply filter_In in H. destruct H as (_ & H). now apply Nat.eqb_eq in H.
  - intros (H1 & H2). apply filter_In. split; trivial. now apply Nat.eqb_eq.
Qed.
Lemma empty_error s : s_time s = None \/ s_time s = Some [] -> a_cols (to_ts s) = [] /\ a_meta (to_ts s) = s_meta s /\ from_ts (to_ts s) = Err KeyError.
Proof. unfold to_ts. intros [-> | ->]; cbn; auto. Qed.

Lemma from_elapsed x t cols ref meta :
  from_ts (mkAtable (Some (Elapsed (x :: t))) cols ref meta) = Ok (mkSeries (Some (x :: t)) (match ref with Some r => r | None => 0 end) cols meta).
Proof. reflexivity. Qed.

Lemma tall_iff m : tall (fun v => qlt 10000 v) (Many m) = true <-> Forall (fun v => 10000 < v) m.
Proof. cbn. rewrite forallb_forall, Forall_forall. split; intros H v I; apply H in I; now apply qlt_t. Qed.

Lemma absolute_value x m cols ref meta : ~ ref == 0 ->
  from_ts (mkAtable (Some (Absolute (x :: m))) cols (Some ref) meta) = Ok (mkSeries (Some (map (fun v => (v - ref) * 86400) (x :: m))) ref cols meta).
Proof.
  intros H. unfold from_ts, interpret_times. cbn [a_time a_mjdref a_cols a_meta].
  destruct (qeq ref 0) eqn:B; [apply qeq_t in B; contradiction|]. cbn [andb]. reflexivity.
Qed.
Lemma low_value x m cols ref meta : Exists (fun v => v <= 10000) (x :: m) ->
  from_ts (mkAtable (Some (Absolute (x :: m))) cols (Some ref) meta) = Ok (mkSeries (Some (map (fun v => (v - ref) * 86400) (x :: m))) ref cols meta).
Proof.
  intros H. unfold from_ts, interpret_times. cbn [a_time a_mjdref a_cols a_meta].
  destruct (tall (fun v => qlt 10000 v) (Many (x :: m))) eqn:B.
  - exfalso. apply tall_iff in B. rewrite Forall_forall in B. apply Exists_exists in H. destruct H as (v & I & L). apply B in I. lra.
  - rewrite andb_false_r. reflexivity.
Qed.
Lemma zero_value x m cols ref meta : ref == 0 -> Forall (fun v => 10000 < v) (x :: m) ->
  from_ts (mkAtable (Some (Absolute (x :: m))) cols (Some ref) meta) = Ok (mkSeries (Some (map (fun v => (v - x) * 86400) (x :: m))) ref cols meta).
Proof.
  intros H F. unfold from_ts, interpret_times. cbn [a_time a_mjdref a_cols a_meta].
  destruct (qeq ref 0) eqn:B; [|apply qeq_t in H; congruence]. apply tall_iff in F. rewrite F. reflexivity.
Qed.
Lemma moments_back ref l : same_moments (map (fun t => ref + t / 86400) (map (fun v => (v - ref) * 86400) l)) l.
Proof. induction l as [|v l IH]; cbn [map]; constructor; trivial. field. Qed.

Lemma absolute_kept x m cols ref meta : ~ ref == 0 \/ Exists (fun v => v <= 10000) (x :: m) ->
  exists s, from_ts (mkAtable (Some (Absolute (x :: m))) cols (Some ref) meta) = Ok s /\ s_cols s = cols /\ s_meta s = meta /\
    s_mjdref s = ref /\ same_moments (moments s) (x :: m).
Proof.
  intros H. assert (E : from_ts (mkAtable (Some (Absolute (x :: m))) cols (Some ref) meta) = Ok (mkSeries (Some (map (fun v => (v - ref) * 86400) (x :: m))) ref cols meta)).
  { destruct H; [now apply absolute_value | now apply low_value]. }
  rewrite E. eexists. split; [reflexivity|]. cbn [s_cols s_meta s_mjdref]. repeat split; trivial. apply (moments_back ref (x :: m)).
Qed.
(* the moments are counted from the first one *)
Lemma zero_lost x m cols ref meta : ref == 0 -> Forall (fun v => 10000 < v) (x :: m) ->
  exists s, from_ts (mkAtable (Some (Absolute (x :: m))) cols (Some ref) meta) = Ok s /\ s_mjdref s == 0 /\
    same_moments (moments s) (map (fun v => v - x) (x :: m)).
Proof.
  intros H F. rewrite (zero_value x m cols ref meta H F). eexists. split; [reflexivity|]. split; [exact H|].
  unfold moments. cbn [s_time s_mjdref]. clear F. unfold same_moments. rewrite map_map.
  generalize (x :: m) as l. intros l. induction l as [|v l IH]; cbn [map]; constructor; trivial. rewrite H. field.
Qed.
Lemma no_reference m cols meta : from_ts (mkAtable (Some (Absolute m)) cols None meta) = Err TypeError.
Proof. reflexivity. Qed.
