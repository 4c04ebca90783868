(* P_gti_final.v: last step towards the statements of T_gti.v, and witnesses of the refutations. *)
From Verif Require Import Lib S_gti M_gti P_gti_cross P_gti_ops P_gti_exposure.
Open Scope Q_scope.

Lemma cross_two_complete srt g0 g1 :
  sorts_by t_end srt -> good g0 -> good g1 ->
  exists r, cross_two_gtis srt g0 g1 = Ok r /\ well_formed r /\ positive_lengths r /\ gaps_between r /\
    (forall t, covered g0 t -> covered g1 t -> covered r t) /\
    (forall t, covered r t -> covered g0 t \/ covered g1 t).
Proof.
  intros Hs (N0 & W0 & P0) (N1 & W1 & P1).
  destruct (cross_two_main srt g0 g1 Hs N0 N1 W0 W1 P0 P1) as (r & H). exists r. tauto.
Qed.
Lemma cross_two_exact srt g0 g1 :
  sorts_by t_end srt -> good g0 -> good g1 -> no_touching g0 g1 ->
  exists r, cross_two_gtis srt g0 g1 = Ok r /\ well_formed r /\ positive_lengths r /\ gaps_between r /\
    (forall t, covered r t <-> (covered g0 t /\ covered g1 t)).
Proof.
  intros Hs (N0 & W0 & P0) (N1 & W1 & P1) Hn.
  destruct (cross_two_main srt g0 g1 Hs N0 N1 W0 W1 P0 P1) as (r & A & B & C & D & E & _ & F & _).
  exists r. split; [assumption|]. split; [assumption|]. split; [assumption|]. split; [assumption|].
  intros t. split; [apply F; assumption|intros []; apply E; assumption].
Qed.
Lemma cross_gtis_complete srt l : sorts_by t_end srt -> l <> [] -> (forall g, In g l -> good g) ->
  exists r, cross_gtis srt l = Ok r /\ well_formed r /\ positive_lengths r /\
    (forall t, (forall g, In g l -> covered g t) -> covered r t).
Proof.
  intros Hs Hl HF. rewrite <- Forall_forall in HF.
  destruct (cross_gtis_main srt l Hs Hl HF) as (r & H). exists r. tauto.
Qed.
Lemma cross_gtis_exact srt l : sorts_by t_end srt -> l <> [] -> (forall g, In g l -> good g) ->
  (forall i j g g', i <> j -> nth_error l i = Some g -> nth_error l j = Some g' -> no_touching g g') ->
  exists r, cross_gtis srt l = Ok r /\ well_formed r /\ positive_lengths r /\
    (forall t, covered r t <-> (forall g, In g l -> covered g t)).
Proof.
  intros Hs Hl HF Hn. rewrite <- Forall_forall in HF.
  destruct (cross_gtis_main srt l Hs Hl HF) as (r & A & B & C & D & E). exists r.
  split; [assumption|]. split; [assumption|]. split; [assumption|]. intros t. split; [apply E; assumption|apply D].
Qed.
Lemma cross_gtis_order srt l l' : sorts_by t_end srt -> l <> [] -> (forall g, In g l -> good g) ->
  (forall i j g g', i <> j -> nth_error l i = Some g -> nth_error l j = Some g' -> no_touching g g') ->
  Permutation l l' ->
  exists r r', cross_gtis srt l = Ok r /\ cross_gtis srt l' = Ok r' /\ (forall t, covered r t <-> covered r' t).
Proof. intros Hs Hl HF. rewrite <- Forall_forall in HF. apply cross_gtis_perm; assumption. Qed.

Lemma append_rejects_overlap srt g0 g1 t : good g0 -> good g1 ->
  covered g0 t -> covered g1 t -> append_gtis srt g0 g1 = Err ValueError.
Proof. intros G0 G1 H0 H1. apply append_not_sep; [assumption|assumption|]. eapply overlap_not_sep; eauto. Qed.
Lemma append_sound srt g0 g1 r : sorts_by fst srt -> good g0 -> good g1 ->
  append_gtis srt g0 g1 = Ok r ->
  well_formed r /\ positive_lengths r /\ gaps_between r /\ (forall t, covered r t <-> (covered g0 t \/ covered g1 t)).
Proof.
  intros Hs G0 G1 E. pose proof G0 as (N0 & W0 & P0). pose proof G1 as (N1 & W1 & P1).
  destruct (check_separate_exact g0 g1 N0 N1 W0 W1) as (b & Eb & Hb). destruct b.
  - destruct (append_sep srt g0 g1 Hs G0 G1) as (r' & E' & H); [apply Hb; reflexivity|].
    rewrite E in E'. injection E' as <-. assumption.
  - rewrite append_not_sep in E; [discriminate|assumption|assumption|]. intros H. apply Hb in H. discriminate.
Qed.
Lemma btis_complement g start stop : g <> [] -> well_formed g ->
  (forall a b, In (a, b) g -> start <= a /\ b <= stop) ->
  exists r, get_btis g (Some start) (Some stop) = Ok r /\ well_formed r /\
    (forall t, covered r t <-> (start <= t /\ t < stop /\ ~ covered g t)) /\
    exposure g + exposure r == stop - start.
Proof.
  intros N W H. destruct (get_btis_main g start stop N W H) as (r & A & B & C & D). exists r.
  split; [assumption|]. split; [assumption|]. split; [assumption|]. rewrite !exposure_qsum. exact D.
Qed.
Lemma btis_empty start stop : get_btis [] (Some start) (Some stop) = Ok [(start, stop)].
Proof. reflexivity. Qed.
Lemma separate_exact g0 g1 : good g0 -> good g1 ->
  exists b, check_separate g0 g1 = Ok b /\
    (b = true <-> (all_before g0 g1 \/ all_before g1 g0 \/ closed_disjoint g0 g1)).
Proof. intros (N0 & W0 & P0) (N1 & W1 & P1). apply check_separate_exact; assumption. Qed.
Lemma separate_sound g0 g1 t : good g0 -> good g1 ->
  check_separate g0 g1 = Ok true -> ~ (covered g0 t /\ covered g1 t).
Proof.
  intros G0 G1 E [H0 H1]. destruct (separate_exact g0 g1 G0 G1) as (b & Eb & Hb). rewrite E in Eb. injection Eb as <-.
  apply (overlap_not_sep g0 g1 t H0 H1). apply Hb. reflexivity.
Qed.
Lemma separate_empty g : check_separate [] g = Ok true /\ check_separate g [] = Ok true.
Proof. split; [reflexivity|destruct g; reflexivity]. Qed.
Lemma check_gtis_error g : check_gtis g <> Ok tt -> check_gtis g = Err ValueError.
Proof. destruct (check_gtis_cases g); tauto. Qed.
Lemma exposure_extensional g g' : well_formed g -> well_formed g' ->
  (forall t, covered g t <-> covered g' t) -> exposure g == exposure g'.
Proof.
  intros W W' H.
  pose proof (exposure_incl_excl g g' g g W W' W W). 
  assert (exposure g + exposure g == exposure g + exposure g').
  { apply H0; intros t; specialize (H t); tauto. }
  lra.
Qed.

(* ---- witnesses ---- *)
Lemma good_dec g : check_gtis g = Ok tt -> forallb (fun iv => qlt (fst iv) (snd iv)) g = true -> good g.
Proof.
  intros H1 H2. apply check_gtis_iff in H1. destruct H1 as [N W]. split; [assumption|]. split; [assumption|].
  apply positive_F. rewrite Forall_forall. rewrite forallb_forall in H2. intros x Hx. apply H2 in Hx. qb. assumption.
Qed.
Lemma no_touching_dec g0 g1 :
  forallb (fun x : ivl => forallb (fun y : ivl => negb (qeq (snd x) (fst y)) && negb (qeq (snd y) (fst x))) g1) g0 = true ->
  no_touching g0 g1.
Proof.
  intros H a b c d H1 H2. rewrite forallb_forall in H. apply H in H1. rewrite forallb_forall in H1. apply H1 in H2.
  simpl in H2. qb. auto.
Qed.
Lemma covered_dec_t g t : coveredb g t = true -> covered g t.
Proof. apply coveredb_iff. Qed.
Lemma covered_dec_f g t : coveredb g t = false -> ~ covered g t.
Proof. intros H K. apply coveredb_iff in K. congruence. Qed.

Lemma cross_touching_refuted : exists g0 g1 r t,
  good g0 /\ good g1 /\ cross_two_gtis (isort_by t_end) g0 g1 = Ok r /\ covered r t /\ ~ covered g0 t.
Proof.
  exists [(1, 2); (10, 11)], [(2, 3); (10, 11)], [(2, 3); (10, 11)], (5 # 2).
  split; [apply good_dec; reflexivity|]. split; [apply good_dec; reflexivity|].
  split; [vm_compute; reflexivity|]. split; [apply covered_dec_t; reflexivity|apply covered_dec_f; reflexivity].
Qed.
Lemma cross_zero_refuted : exists g0 g1 r t,
  check_gtis g0 = Ok tt /\ check_gtis g1 = Ok tt /\ no_touching g0 g1 /\
  cross_two_gtis (isort_by t_end) g0 g1 = Ok r /\ covered r t /\ ~ covered g0 t.
Proof.
  exists [(0, 1); (5, 5); (6, 10)], [(4, 12)], [(4, 5); (6, 10)], (9 # 2).
  split; [reflexivity|]. split; [reflexivity|]. split; [apply no_touching_dec; reflexivity|].
  split; [vm_compute; reflexivity|]. split; [apply covered_dec_t; reflexivity|apply covered_dec_f; reflexivity].
Qed.
Lemma cross_order_refuted : exists l l' r r' t,
  (forall g, In g l -> good g) /\ Permutation l l' /\
  cross_gtis (isort_by t_end) l = Ok r /\ cross_gtis (isort_by t_end) l' = Ok r' /\
  covered r' t /\ ~ covered r t.
Proof.
  exists [[(1, 2); (10, 11)]; [(2, 3); (10, 11)]; [(1, 5 # 2); (10, 11)]],
         [[(1, 2); (10, 11)]; [(1, 5 # 2); (10, 11)]; [(2, 3); (10, 11)]],
         [(2, 5 # 2); (10, 11)], [(2, 3); (10, 11)], (11 # 4).
  split; [intros g [<-|[<-|[<-|[]]]]; apply good_dec; reflexivity|].
  split; [apply perm_skip, perm_swap|].
  split; [vm_compute; reflexivity|]. split; [vm_compute; reflexivity|].
  split; [apply covered_dec_t; reflexivity|apply covered_dec_f; reflexivity].
Qed.
Lemma touching_disjoint : forall t, ~ (covered [(0, 10); (20, 30)] t /\ covered [(10, 20)] t).
Proof.
  intros t [(a & b & [H|[H|[]]] & h1 & h2) (c & d & [K|[]] & h3 & h4)]; inversion H; inversion K; subst; lra.
Qed.
Lemma append_touching_refuted : exists g0 g1, good g0 /\ good g1 /\
  (forall t, ~ (covered g0 t /\ covered g1 t)) /\ append_gtis (isort_by fst) g0 g1 = Err ValueError.
Proof.
  exists [(0, 10); (20, 30)], [(10, 20)].
  split; [apply good_dec; reflexivity|]. split; [apply good_dec; reflexivity|]. split; [apply touching_disjoint|reflexivity].
Qed.
Lemma separate_touching_refuted : exists g0 g1, good g0 /\ good g1 /\
  (forall t, ~ (covered g0 t /\ covered g1 t)) /\ check_separate g0 g1 = Ok false.
Proof.
  exists [(0, 10); (20, 30)], [(10, 20)].
  split; [apply good_dec; reflexivity|]. split; [apply good_dec; reflexivity|]. split; [apply touching_disjoint|reflexivity].
Qed.
Lemma exposure_touching_refuted : exists g0 g1 u i, good g0 /\ good g1 /\
  join_gtis (isort_by fst) (isort_by fst) g0 g1 = Ok u /\ cross_two_gtis (isort_by t_end) g0 g1 = Ok i /\
  ~ exposure u + exposure i == exposure g0 + exposure g1.
Proof.
  exists [(1, 2); (10, 11)], [(2, 3); (10, 11)], [(1, 3); (10, 11)], [(2, 3); (10, 11)].
  split; [apply good_dec; reflexivity|]. split; [apply good_dec; reflexivity|].
  split; [vm_compute; reflexivity|]. split; [vm_compute; reflexivity|]. vm_compute. discriminate.
Qed.
Lemma btis_defaults (g : gtis) a b c d so sp : g <> [] -> hd_error g = Some (a, b) -> last g (a, b) = (c, d) ->
  get_btis g so sp = get_btis g (Some (match so with Some x => x | None => a end))
                                (Some (match sp with Some x => x | None => d end)).
Proof.
  intros N Hh Hl. destruct g as [|g0 g]; [congruence|]. injection Hh as ->. unfold get_btis.
  rewrite Hl. cbn [fst snd]. destruct so, sp; reflexivity.
Qed.
Lemma btis_empty_error so sp : so = None \/ sp = None -> get_btis [] so sp = Err ValueError.
Proof. intros [ -> | -> ]; [|destruct so]; reflexivity. Qed.
