(* T_gti.v: property theorems about the GTI set operations (C01-C07, C11). *)
From Verif Require Import Lib S_gti M_gti P_gti_cross P_gti_ops P_gti_exposure P_gti_final.
Open Scope Q_scope.

(* Example lists used below; sorters instantiated by the stable sort. *)
Notation cross2 := (cross_two_gtis (isort_by t_end)).
Definition ex_a : gtis := [(0, 10); (20, 30); (40, 50)].
Definition ex_b : gtis := [(5, 25); (28, 45)].

(* ---------- C01 ---------- *)
(* No common good time is lost; what is returned is valid and lies in at least one of the inputs. *)
Theorem C01_cross_two_complete : forall srt g0 g1,
  sorts_by t_end srt -> good g0 -> good g1 ->
  exists r, cross_two_gtis srt g0 g1 = Ok r /\ well_formed r /\ positive_lengths r /\ gaps_between r /\
    (forall t, covered g0 t -> covered g1 t -> covered r t) /\
    (forall t, covered r t -> covered g0 t \/ covered g1 t).
Proof. exact cross_two_complete. Qed.
Print Assumptions C01_cross_two_complete.

(* The intersection is exact when no interval of one list ends exactly where one of the other starts
   (missing from C01: the touching case, which is refuted below). *)
Theorem C01_cross_two_exact_partial : forall srt g0 g1,
  sorts_by t_end srt -> good g0 -> good g1 -> no_touching g0 g1 ->
  exists r, cross_two_gtis srt g0 g1 = Ok r /\ well_formed r /\ positive_lengths r /\ gaps_between r /\
    (forall t, covered r t <-> (covered g0 t /\ covered g1 t)).
Proof. exact cross_two_exact. Qed.
Print Assumptions C01_cross_two_exact_partial.

Example C01_nonvacuous : sorts_by t_end (isort_by t_end) /\ good ex_a /\ good ex_b /\ no_touching ex_a ex_b /\
  cross2 ex_a ex_b = Ok [(5, 10); (20, 25); (28, 30); (40, 45)].
Proof.
  split; [apply isort_sorts|]. split; [apply good_dec; reflexivity|]. split; [apply good_dec; reflexivity|].
  split; [apply no_touching_dec; reflexivity|]. vm_compute. reflexivity.
Qed.

(* C01 fails when intervals touch: 5/2 is not good time of the first list but is returned. *)
Theorem C01_touching_refuted : exists g0 g1 r t,
  good g0 /\ good g1 /\ cross2 g0 g1 = Ok r /\ covered r t /\ ~ covered g0 t.
Proof. exact cross_touching_refuted. Qed.
Print Assumptions C01_touching_refuted.
(* ... and with zero-length intervals, which check_gtis accepts. *)
Theorem C01_zero_length_refuted : exists g0 g1 r t,
  check_gtis g0 = Ok tt /\ check_gtis g1 = Ok tt /\ no_touching g0 g1 /\
  cross2 g0 g1 = Ok r /\ covered r t /\ ~ covered g0 t.
Proof. exact cross_zero_refuted. Qed.
Print Assumptions C01_zero_length_refuted.

(* ---------- C02 ---------- *)
Theorem C02_cross_gtis_complete : forall srt l, sorts_by t_end srt -> l <> [] -> (forall g, In g l -> good g) ->
  exists r, cross_gtis srt l = Ok r /\ well_formed r /\ positive_lengths r /\
    (forall t, (forall g, In g l -> covered g t) -> covered r t).
Proof. exact cross_gtis_complete. Qed.
Print Assumptions C02_cross_gtis_complete.

Theorem C02_cross_gtis_exact_partial : forall srt l, sorts_by t_end srt -> l <> [] -> (forall g, In g l -> good g) ->
  (forall i j g g', i <> j -> nth_error l i = Some g -> nth_error l j = Some g' -> no_touching g g') ->
  exists r, cross_gtis srt l = Ok r /\ well_formed r /\ positive_lengths r /\
    (forall t, covered r t <-> (forall g, In g l -> covered g t)).
Proof. exact cross_gtis_exact. Qed.
Print Assumptions C02_cross_gtis_exact_partial.

Theorem C02_cross_gtis_order_partial : forall srt l l', sorts_by t_end srt -> l <> [] -> (forall g, In g l -> good g) ->
  (forall i j g g', i <> j -> nth_error l i = Some g -> nth_error l j = Some g' -> no_touching g g') ->
  Permutation l l' ->
  exists r r', cross_gtis srt l = Ok r /\ cross_gtis srt l' = Ok r' /\ (forall t, covered r t <-> covered r' t).
Proof. exact cross_gtis_order. Qed.
Print Assumptions C02_cross_gtis_order_partial.

Example C02_nonvacuous :
  (forall g, In g [ex_a; ex_b; [(1, 22)]] -> good g) /\
  (forall i j g g', i <> j -> nth_error [ex_a; ex_b; [(1, 22)]] i = Some g ->
                    nth_error [ex_a; ex_b; [(1, 22)]] j = Some g' -> no_touching g g') /\
  cross_gtis (isort_by t_end) [ex_a; ex_b; [(1, 22)]] = Ok [(5, 10); (20, 22)].
Proof.
  split; [|split; [|vm_compute; reflexivity]].
  - intros g [<-|[<-|[<-|[]]]]; apply good_dec; reflexivity.
  - intros [|[|[|i]]] [|[|[|j]]] g g' Hij Hi Hj; simpl in *; try congruence;
      try (rewrite nth_error_nil in *; discriminate);
      try (destruct i; discriminate); try (destruct j; discriminate);
      inversion Hi; inversion Hj; subst; apply no_touching_dec; reflexivity.
Qed.

(* With touching intervals the result depends on the order in which the lists are given. *)
Theorem C02_order_refuted : exists l l' r r' t,
  (forall g, In g l -> good g) /\ Permutation l l' /\
  cross_gtis (isort_by t_end) l = Ok r /\ cross_gtis (isort_by t_end) l' = Ok r' /\
  covered r' t /\ ~ covered r t.
Proof. exact cross_order_refuted. Qed.
Print Assumptions C02_order_refuted.

(* ---------- C03 ---------- *)
Theorem C03_join_gtis_exact : forall srt1 srt2 g0 g1,
  sorts_by fst srt1 -> sorts_by fst srt2 -> good g0 -> good g1 ->
  exists r, join_gtis srt1 srt2 g0 g1 = Ok r /\ well_formed r /\ positive_lengths r /\ gaps_between r /\
    (forall t, covered r t <-> (covered g0 t \/ covered g1 t)).
Proof. exact join_gtis_main. Qed.
Print Assumptions C03_join_gtis_exact.

Example C03_nonvacuous : good [(0, 1); (3, 5)] /\ good [(1, 3); (7, 9)] /\
  join_gtis (isort_by fst) (isort_by fst) [(0, 1); (3, 5)] [(1, 3); (7, 9)] = Ok [(0, 5); (7, 9)] /\
  join_gtis (isort_by fst) (isort_by fst) ex_a ex_b = Ok [(0, 50)].
Proof. repeat split; try (apply good_dec; reflexivity); try discriminate; vm_compute; try reflexivity; try discriminate.
  all: apply good_dec; reflexivity. Qed.

(* ---------- C04 ---------- *)
Theorem C04_append_rejects_overlap : forall srt g0 g1 t, good g0 -> good g1 ->
  covered g0 t -> covered g1 t -> append_gtis srt g0 g1 = Err ValueError.
Proof. exact append_rejects_overlap. Qed.
Print Assumptions C04_append_rejects_overlap.

(* Disjoint lists are appended exactly when they are accepted: one list before the other, or no contact
   between closed intervals.  Missing: interleaved lists with touching intervals (refuted below). *)
Theorem C04_append_union_partial : forall srt g0 g1, sorts_by fst srt -> good g0 -> good g1 ->
  (all_before g0 g1 \/ all_before g1 g0 \/ closed_disjoint g0 g1) ->
  exists r, append_gtis srt g0 g1 = Ok r /\ well_formed r /\ positive_lengths r /\ gaps_between r /\
    (forall t, covered r t <-> (covered g0 t \/ covered g1 t)).
Proof. exact append_sep. Qed.
Print Assumptions C04_append_union_partial.

(* Whatever is returned is the union. *)
Theorem C04_append_sound : forall srt g0 g1 r, sorts_by fst srt -> good g0 -> good g1 ->
  append_gtis srt g0 g1 = Ok r ->
  well_formed r /\ positive_lengths r /\ gaps_between r /\ (forall t, covered r t <-> (covered g0 t \/ covered g1 t)).
Proof. exact append_sound. Qed.
Print Assumptions C04_append_sound.

Example C04_nonvacuous : good ex_a /\ good [(12, 15); (60, 70)] /\ closed_disjoint ex_a [(12, 15); (60, 70)] /\
  append_gtis (isort_by fst) ex_a [(12, 15); (60, 70)] = Ok [(0, 10); (12, 15); (20, 30); (40, 50); (60, 70)].
Proof.
  split; [apply good_dec; reflexivity|]. split; [apply good_dec; reflexivity|]. split; [|vm_compute; reflexivity].
  intros a b c d [H|[H|[H|[]]]] [K|[K|[]]]; inversion H; inversion K; subst; unfold Qlt; simpl; lia.
Qed.

(* Lists that only touch are rejected when they interleave, contrary to the documentation
   ("If the two GTIs touch, this is tolerated"). *)
Theorem C04_touching_refuted : exists g0 g1, good g0 /\ good g1 /\
  (forall t, ~ (covered g0 t /\ covered g1 t)) /\ append_gtis (isort_by fst) g0 g1 = Err ValueError.
Proof. exact append_touching_refuted. Qed.
Print Assumptions C04_touching_refuted.
(* An interval of length 0 is valid; with one at the start of an interval of the other list the result is not a valid list. *)
Theorem C04_zero_length_refuted : exists g0 g1 r, check_gtis g0 = Ok tt /\ check_gtis g1 = Ok tt /\
  append_gtis (isort_by fst) g0 g1 = Ok r /\ check_gtis r = Err ValueError.
Proof. exists [(5, 7)], [(5, 5)], [(5, 7); (5, 5)]. repeat split; vm_compute; reflexivity. Qed.
Print Assumptions C04_zero_length_refuted.

(* ---------- C05 ---------- *)
Theorem C05_btis_complement : forall g start stop, g <> [] -> well_formed g ->
  (forall a b, In (a, b) g -> start <= a /\ b <= stop) ->
  exists r, get_btis g (Some start) (Some stop) = Ok r /\ well_formed r /\
    (forall t, covered r t <-> (start <= t /\ t < stop /\ ~ covered g t)) /\
    exposure g + exposure r == stop - start.
Proof. exact btis_complement. Qed.
Print Assumptions C05_btis_complement.

Theorem C05_btis_empty : forall start stop, get_btis [] (Some start) (Some stop) = Ok [(start, stop)].
Proof. exact btis_empty. Qed.
Print Assumptions C05_btis_empty.

(* Missing bounds default to the first start and the last end; without GTIs they are required. *)
Theorem C05_btis_defaults : forall (g : gtis) a b c d so sp, g <> [] -> hd_error g = Some (a, b) -> last g (a, b) = (c, d) ->
  get_btis g so sp = get_btis g (Some (match so with Some x => x | None => a end))
                                (Some (match sp with Some x => x | None => d end)).
Proof. exact btis_defaults. Qed.
Print Assumptions C05_btis_defaults.
Theorem C05_btis_empty_error : forall so sp, so = None \/ sp = None -> get_btis [] so sp = Err ValueError.
Proof. exact btis_empty_error. Qed.
Print Assumptions C05_btis_empty_error.

Example C05_nonvacuous : ex_a <> [] /\ well_formed ex_a /\ (forall a b, In (a, b) ex_a -> (-5) <= a /\ b <= 60) /\
  get_btis ex_a (Some (-5)) (Some 60) = Ok [(-5, 0); (10, 20); (30, 40); (50, 60)].
Proof.
  split; [discriminate|]. split; [apply good_dec; reflexivity|]. split; [|vm_compute; reflexivity].
  intros a b [H|[H|[H|[]]]]; inversion H; subst; split; unfold Qle; simpl; lia.
Qed.

(* ---------- C06 ---------- *)
Theorem C06_separate_sound : forall g0 g1 t, good g0 -> good g1 ->
  check_separate g0 g1 = Ok true -> ~ (covered g0 t /\ covered g1 t).
Proof. exact separate_sound. Qed.
Print Assumptions C06_separate_sound.

(* Exact meaning of the answer.  Missing from C06: interleaved touching lists are called not separate. *)
Theorem C06_separate_exact_partial : forall g0 g1, good g0 -> good g1 ->
  exists b, check_separate g0 g1 = Ok b /\
    (b = true <-> (all_before g0 g1 \/ all_before g1 g0 \/ closed_disjoint g0 g1)).
Proof. exact separate_exact. Qed.
Print Assumptions C06_separate_exact_partial.

Theorem C06_separate_empty : forall g, check_separate [] g = Ok true /\ check_separate g [] = Ok true.
Proof. exact separate_empty. Qed.
Print Assumptions C06_separate_empty.

Theorem C06_touching_refuted : exists g0 g1, good g0 /\ good g1 /\
  (forall t, ~ (covered g0 t /\ covered g1 t)) /\ check_separate g0 g1 = Ok false.
Proof. exact separate_touching_refuted. Qed.
Print Assumptions C06_touching_refuted.

Example C06_nonvacuous : good ex_a /\ good [(12, 15); (60, 70)] /\ check_separate ex_a [(12, 15); (60, 70)] = Ok true.
Proof. split; [apply good_dec; reflexivity|]. split; [apply good_dec; reflexivity|reflexivity]. Qed.

(* ---------- C07 ---------- *)
Theorem C07_check_gtis_exact : forall g, check_gtis g = Ok tt <-> (g <> [] /\ well_formed g).
Proof. exact check_gtis_iff. Qed.
Print Assumptions C07_check_gtis_exact.
Theorem C07_check_gtis_error : forall g, check_gtis g <> Ok tt -> check_gtis g = Err ValueError.
Proof. exact check_gtis_error. Qed.
Print Assumptions C07_check_gtis_error.
Example C07_nonvacuous : check_gtis [(0, 1); (1, 3); (3, 3)] = Ok tt /\ check_gtis [(0, 2); (1, 3)] = Err ValueError.
Proof. split; reflexivity. Qed.

(* ---------- C11 ---------- *)
Theorem C11_inclusion_exclusion_partial : forall srt1 srt2 srt3 g0 g1,
  sorts_by fst srt1 -> sorts_by fst srt2 -> sorts_by t_end srt3 -> good g0 -> good g1 -> no_touching g0 g1 ->
  exists u i, join_gtis srt1 srt2 g0 g1 = Ok u /\ cross_two_gtis srt3 g0 g1 = Ok i /\
    exposure u + exposure i == exposure g0 + exposure g1.
Proof. exact exposure_main. Qed.
Print Assumptions C11_inclusion_exclusion_partial.

Theorem C11_total_length : forall g minlen,
  get_total_gti_length g minlen == exposure (filter (fun iv => Qle_bool minlen (snd iv - fst iv)) g).
Proof. exact total_length_exposure. Qed.
Print Assumptions C11_total_length.

(* Exposure of a valid list depends only on the times it covers. *)
Theorem C11_exposure_extensional : forall g g', well_formed g -> well_formed g' ->
  (forall t, covered g t <-> covered g' t) -> exposure g == exposure g'.
Proof. exact exposure_extensional. Qed.
Print Assumptions C11_exposure_extensional.

Theorem C11_touching_refuted : exists g0 g1 u i, good g0 /\ good g1 /\
  join_gtis (isort_by fst) (isort_by fst) g0 g1 = Ok u /\ cross2 g0 g1 = Ok i /\
  ~ exposure u + exposure i == exposure g0 + exposure g1.
Proof. exact exposure_touching_refuted. Qed.
Print Assumptions C11_touching_refuted.

Example C11_nonvacuous : good ex_a /\ good ex_b /\ no_touching ex_a ex_b /\ get_total_gti_length [(0, 1); (2, 5)] 2 == 3.
Proof.
  split; [apply good_dec; reflexivity|]. split; [apply good_dec; reflexivity|].
  split; [apply no_touching_dec; reflexivity|reflexivity].
Qed.
