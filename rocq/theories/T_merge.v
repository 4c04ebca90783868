(* T_merge.v: property theorems about merge_gtis (C47). *)
From Verif Require Import Lib S_gti M_gti P_gti_cross P_gti_final S_merge M_merge P_merge.
Open Scope Q_scope.

Theorem C47_nothing_present : forall s_end s_start s_edge l st,
  (forall g, ~ present l g) -> merge_gtis s_end s_start s_edge l st = Ok None.
Proof. exact merge_nothing. Qed.
Print Assumptions C47_nothing_present.

Theorem C47_union : forall s_end s_start s_edge, sorts_by t_end s_end -> sorts_by fst s_start -> sorts_by fst s_edge ->
  forall l, (exists g, present l g) -> (forall g, present l g -> good g) ->
  exists r, merge_gtis s_end s_start s_edge l Union = Ok (Some r) /\ good r /\
    (forall t, covered r t <-> exists g, present l g /\ covered g t).
Proof. exact merge_union. Qed.
Print Assumptions C47_union.

(* Whatever "append" returns is the union, and the lists were mutually exclusive. *)
Theorem C47_append_sound : forall s_end s_start s_edge, sorts_by fst s_start ->
  forall l r, (forall g, present l g -> good g) ->
  merge_gtis s_end s_start s_edge l Append = Ok (Some r) ->
  good r /\ (forall t, covered r t <-> exists g, present l g /\ covered g t) /\
  (forall i j g g' t, i <> j -> nth_error l i = Some (Some g) -> nth_error l j = Some (Some g') -> ~ (covered g t /\ covered g' t)).
Proof. exact merge_append. Qed.
Print Assumptions C47_append_sound.

(* Missing: lists that touch each other (C01). *)
Theorem C47_intersection_partial : forall s_end s_start s_edge, sorts_by t_end s_end ->
  forall l, (exists g, present l g) -> (forall g, present l g -> good g) ->
  (forall g g', two_present l g g' -> no_touching g g') ->
  exists o, merge_gtis s_end s_start s_edge l Intersection = Ok o /\
    (forall r, o = Some r -> good r) /\
    (forall t, ocovered o t <-> (forall g, present l g -> covered g t)).
Proof. exact merge_cross. Qed.
Print Assumptions C47_intersection_partial.

Theorem C47_infer_partial : forall s_end s_start s_edge, sorts_by t_end s_end -> sorts_by fst s_start -> sorts_by fst s_edge ->
  forall l, (exists g, present l g) -> (forall g, present l g -> good g) ->
  (forall g g', two_present l g g' -> no_touching g g') ->
  exists r, merge_gtis s_end s_start s_edge l Infer = Ok (Some r) /\ good r /\
    ((exists t, forall g, present l g -> covered g t) ->
       forall t, covered r t <-> (forall g, present l g -> covered g t)) /\
    ((~ exists t, forall g, present l g -> covered g t) ->
       forall t, covered r t <-> exists g, present l g /\ covered g t).
Proof. exact merge_infer. Qed.
Print Assumptions C47_infer_partial.

Theorem C47_none : forall s1 s2 s3 l, (exists g, present l g) ->
  exists a b, merge_gtis s1 s2 s3 l NoMerge = Ok (Some [(a, b)]) /\
    (exists g, present l g /\ edge_of g a) /\ (exists g, present l g /\ edge_of g b) /\
    (forall g x, present l g -> edge_of g x -> a <= x /\ x <= b).
Proof. exact merge_none. Qed.
Print Assumptions C47_none.

Example C47_nonvacuous :
  let l := [Some [(0, 10); (20, 30)]; None; Some []; Some [(5, 12)]] in
  let m := merge_gtis (isort_by t_end) (isort_by fst) (isort_by fst) in
  (exists g, present l g) /\ (forall g, present l g -> good g) /\
  m l Union = Ok (Some [(0, 12); (20, 30)]) /\ m l Intersection = Ok (Some [(5, 10)]) /\
  m l Infer = Ok (Some [(5, 10)]) /\ m l Append = Err ValueError /\ m l NoMerge = Ok (Some [(0, 30)]) /\
  m [Some [(0, 1)]; Some [(2, 3)]] Append = Ok (Some [(0, 1); (2, 3)]).
Proof.
  intros l m. split; [exists [(5, 12)]; split; [unfold l; simpl; tauto|discriminate]|].
  split. { intros g [H N]. unfold l in H. simpl in H.
    destruct H as [E|[E|[E|[E|[]]]]]; inversion E; subst; try congruence; apply good_dec; reflexivity. }
  repeat split; vm_compute; reflexivity.
Qed.

(* Documented as "if there are no overlaps, union is used, otherwise intersection"; with three lists two of
   which overlap, the union is returned. *)
Theorem C47_infer_refuted : exists (l : list (option gtis)) r,
  (forall g, present l g -> good g) /\
  (exists g g' t, two_present l g g' /\ covered g t /\ covered g' t) /\
  merge_gtis (isort_by t_end) (isort_by fst) (isort_by fst) l Infer = Ok (Some r) /\
  (forall g, present l g -> exists t, covered g t /\ covered r t) /\ exists t, covered r t /\ ~ covered [(0, 10)] t.
Proof. exact merge_infer_overlap. Qed.
Print Assumptions C47_infer_refuted.
