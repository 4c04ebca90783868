(* P_segan6.v: overlapping segments, comparison of lists of intervals. *)
From Coq Require Import Lqa Lia Permutation Qabs.
From Verif Require Import Np Lib M_gti M_seg M_merge M_utils M_lc M_base M_segan S_gti S_seg S_base S_flux S_segan P_gti_cross P_gti_final P_seg_cut P_flux P_segan P_segan2 P_segan3 P_segan4 P_segan5.
Open Scope Q_scope.

Lemma steps_one size frac eps iv : 0 < size -> 0 < frac -> steps_of size (size * frac) eps iv (segment_starts size frac eps iv).
Proof.
  intros Hs Hf. assert (Hp : 0 < size * frac) by nra. unfold segment_starts, steps_of. destruct (qlt _ _) eqn:E; qb.
  - split; [|intros [|k] s; discriminate]. intros k. cbn [length]. split; [lia|]. intros H. exfalso. pose proof (zof_0 k) as Z. nra.
  - split.
    + intros k. unfold arange. rewrite map_length, seq_length, arange_len_spec by assumption. split; lra.
    + intros k s H. apply nth_arange in H; [|assumption]. destruct H as [-> _]. reflexivity.
Qed.
Lemma steps_all g size frac eps st : 0 < size -> 0 < frac -> st = flat_map (segment_starts size frac eps) g -> step_grid g size (size * frac) eps st.
Proof.
  intros Hs Hf ->. exists (map (segment_starts size frac eps) g). split; [|apply flat_map_concat_map].
  induction g as [|iv g IH]; cbn; constructor; [now apply steps_one|exact IH].
Qed.
Lemma analyze_steps {A} lc srt (f : series -> A) s g seg frac : sorts_by t_end srt -> good g -> gti_of s = Some g ->
  nondecreasing (s_time s) -> s_dt s == 0 -> regular s -> 0 < seg -> 0 < frac -> (exists a b, In (a, b) g /\ seg < b - a + (1 # 100000)) ->
  exists st, step_grid g seg (seg * frac) (1 # 100000) st /\
  analyze_segments lc srt (fun x => Ok (f x)) s (Some seg) frac =
  Ok (st, map (fun a => a + seg) st,
      map (fun a => f (cut_window lc s a (a + seg))) (filter (fun a => Nat.leb 2 (samples_in (s_time s) a (a + seg))) st)).
Proof.
  intros Hs G Hg Ht Hd R Hseg Hf (a0 & b0 & Hin & Hlt).
  assert (E : exists st, time_intervals_from_gtis g seg frac (1 # 100000) = Ok (st, map (fun s => s + seg) st) /\ st = flat_map (segment_starts seg frac (1 # 100000)) g).
  { unfold time_intervals_from_gtis. destruct (flat_map _ g) eqn:F; [|eexists; split; reflexivity]. exfalso.
    destruct (steps_one seg frac (1 # 100000) (a0, b0) Hseg Hf) as [S1 _]. specialize (S1 0%nat). cbn [fst snd] in S1.
    change (inject_Z (Z.of_nat 0)) with 0 in S1. assert (L : (0 < length (segment_starts seg frac (1 # 100000) (a0, b0)))%nat) by (apply S1; lra).
    assert (X : incl (segment_starts seg frac (1 # 100000) (a0, b0)) []) by (rewrite <- F; intros x Hx; apply in_flat_map; exists (a0, b0); auto).
    destruct (segment_starts seg frac (1 # 100000) (a0, b0)) as [|y ys]; [cbn in L; lia|]. exact (X y (or_introl eq_refl)). }
  destruct E as (st & E & Est). exists st. split; [now apply steps_all|]. clear Est. unfold analyze_segments. rewrite Hg.
  assert (Z : qlt 0 (s_dt s) = false) by (destruct (qlt 0 (s_dt s)) eqn:Z; [qb; lra|reflexivity]). rewrite Z, E. cbn [bind fst snd].
  assert (C : combine st (map (fun a => a + seg) st) = map (fun a => (a, a + seg)) st) by (clear; induction st as [|a st IH]; cbn; [reflexivity|]; now f_equal).
  rewrite C. destruct (touch_fields s g Hg) as (T1 & T2 & T3 & T4 & T5 & T6 & T7).
  rewrite <- T2. rewrite (analyze_windows lc srt (fun x => Ok (f x)) (touch s) g (map (fun a => (a, a + seg)) st) Hs G T1);
    [| now rewrite T2 | rewrite T5; lra | now apply T7 | intros lo hi Hi; apply in_map_iff in Hi; destruct Hi as (a & E' & _); injection E' as <- <-; lra].
  rewrite (map_result_total _ f) by reflexivity. cbn [bind]. rewrite T2, !map_map. cbn [fst snd].
  assert (I : forall l : list Q, map (fun a => a) l = l) by (intros l; apply map_id). rewrite I. do 2 f_equal.
  clear - Hg. induction st as [|a st IH]; [reflexivity|]. cbn [map filter fst snd]. destruct (Nat.leb 2 (samples_in (s_time s) a (a + seg))); [|exact IH].
  cbn [map fst snd]. rewrite (window_touch _ _ g) by assumption. now f_equal.
Qed.

Lemma near_iff h : forall g, close_lists h g = true <-> near_lists h g.
Proof.
  unfold close_lists, near_lists. induction h as [|[a b] h IH]; intros [|[c d] g]; cbn [length Nat.eqb flatten flat_map app zip_with forallb fst snd andb].
  - split; [constructor|reflexivity].
  - split; [discriminate|intros H; inversion H].
  - split; [discriminate|intros H; inversion H].
  - specialize (IH g). unfold flatten in IH. rewrite !andb_true_iff, !qlt_t. rewrite andb_true_iff in IH. split.
    + intros (L & P1 & P2 & R). constructor; [auto|]. apply IH. auto.
    + intros H. inversion H as [|x y l l' [P1 P2] R]; subst. apply IH in R. tauto.
Qed.
Lemma near_false h g : ~ near_lists h g -> close_lists h g = false.
Proof. intros H. destruct (close_lists h g) eqn:E; [|reflexivity]. apply near_iff in E. contradiction. Qed.
Lemma apply_lists_far lc srt s g h l : sorts_by t_end srt -> good g -> gti_of s = Some g -> increasing (s_time s) -> 0 <= s_dt s -> regular s ->
  ~ near_lists h g ->
  (forall h', In h' (h :: l) -> h' <> [] -> exists t, In t (s_time s) /\ first_start h' <= t /\ t <= last_end h') ->
  apply_gti_lists lc srt s (h :: l) =
  Ok (map (fun h => piece_of lc (map (in_closed (first_start h) (last_end h)) (s_time s)) h s) (filter (fun h => match h with [] => false | _ => true end) (h :: l))).
Proof. intros H1 H2 H3 H4 H5 H6 H7. apply (apply_lists_main lc srt s g h l); auto using near_false. Qed.
Lemma filter_far lc srt s g ivs : sorts_by t_end srt -> good g -> gti_of s = Some g -> increasing (s_time s) -> 0 <= s_dt s -> regular s -> ivs <> [] ->
  (forall iv, hd_error ivs = Some iv -> ~ near_lists [iv] g) ->
  (forall a b, In (a, b) ivs -> exists t, In t (s_time s) /\ a <= t /\ t <= b) ->
  filter_at_time_intervals lc srt s ivs false = Ok (map (fun iv => piece_of lc (map (in_closed (fst iv) (snd iv)) (s_time s)) [iv] s) ivs).
Proof. intros H1 H2 H3 H4 H5 H6 H7 H8. apply (filter_unchecked lc srt s g ivs); auto. intros iv E. apply near_false. now apply H8. Qed.
Lemma apply_lists_near lc srt s g h l : gti_of s = Some g -> near_lists h g ->
  apply_gti_lists lc srt s (h :: l) = apply_gti_lists lc srt s [g].
Proof. intros E N. unfold apply_gti_lists. cbn [get nth_error bind]. rewrite E. rewrite (proj2 (near_iff h g) N), close_refl. reflexivity. Qed.
