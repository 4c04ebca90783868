(* P_reader4.v: filtering an event file at time intervals; headers and calibration tables; refutations. *)
From Coq Require Import String Ascii.
From Verif Require Import Np Lib S_gti S_seg S_utils M_gti M_seg M_utils M_reader S_reader P_gti_ops P_gti_cross P_gti_final P_seg_regions P_seg_cut P_helpers P_flux P_seg_split P_reader P_reader2 P_reader3.
From Coq Require Import Lqa.
Open Scope Q_scope.

Lemma good_one a b : a < b -> good [(a, b)].
Proof.
  intros H. split; [discriminate|]. split; [split|].
  - intros x y [E|[]]. inversion E; subst. lra.
  - intros i j x y c d Hij Hi Hj. destruct j as [|j]; [lia|]. destruct j; discriminate.
  - intros x y [E|[]]. inversion E; subst. assumption.
Qed.
Lemma crosses srt g : sorts_by t_end srt -> good g -> forall ints,
  (forall a b, In (a, b) ints -> a < b /\ no_touching g [(a, b)]) ->
  exists lists, map_result (fun iv => cross_two_gtis srt g [iv]) ints = Ok lists /\
    Forall2 (fun iv r => good_time_in g (fst iv) (snd iv) r) ints lists.
Proof.
  intros Hsrt Hg. induction ints as [|[a b] ints IH]; intros Hi; [exists []; split; [reflexivity|constructor]|].
  destruct IH as (lists & E & F); [intros; apply Hi; now right|].
  destruct (Hi a b (or_introl eq_refl)) as [Hab Hno].
  destruct (cross_two_exact srt g [(a, b)] Hsrt Hg (good_one a b Hab) Hno) as (r & Er & W & P & _ & C).
  exists (r :: lists). cbn [map_result]. rewrite Er. cbn [bind]. rewrite E. cbn [bind]. split; [reflexivity|]. constructor; [|assumption].
  cbn [fst snd]. split; [assumption|]. split; [assumption|]. intros t. rewrite C. split; intros [H1 H2]; (split; [assumption|]).
  - destruct H2 as (x & y & [E'|[]] & H). inversion E'; subst. assumption.
  - exists a, b. split; [now left|assumption].
Qed.
Lemma not_close g a b r : good g -> good_time_in g a b r -> shorter g a b -> ~ close_lists r g.
Proof.
  intros Hg (W & P & C) (c & d & [(x & g1 & E1) (g2 & y & E2)] & H) Hcl.
  unfold close_lists in Hcl. destruct H as [H|H].
  - rewrite E1 in Hcl. inversion Hcl as [|[u v] ? r' ? [H1 _] _]; subst. cbn [fst snd] in H1.
    assert (u < v) by (apply P; now left).
    assert (Cu : covered ((u, v) :: r') u) by (exists u, v; split; [now left|lra]). apply C in Cu.
    apply Qabs_Qlt_condition in H1. lra.
  - rewrite E2 in Hcl. apply Forall2_app_inv_r in Hcl. destruct Hcl as (r1 & r2 & _ & F2 & Er).
    inversion F2 as [|[u v] ? r3 ? [_ H1] F3]; subst. inversion F3; subst. cbn [fst snd] in H1. apply Qabs_Qlt_condition in H1.
    assert (u < v) by (apply P; apply in_app_iff; right; now left).
    assert (v <= b); [|lra]. apply Qnot_lt_le. intros Cn.
    set (m := if qle u b then b else u).
    assert (Hm : u <= m /\ m < v /\ b <= m) by (unfold m; destruct (qle u b) eqn:E; qb; lra).
    assert (Cm : covered (r1 ++ [(u, v)]) m) by (exists u, v; split; [apply in_app_iff; right; now left|lra]). apply C in Cm. lra.
Qed.
Lemma filter_at_main {A} srt (rd : reader A) a b ints : sorts_by t_end srt -> in_order (rd_rows rd) -> rd_rows rd <> [] -> good (rd_gti rd) ->
  (forall c d, In (c, d) ((a, b) :: ints) -> c < d /\ no_touching (rd_gti rd) [(c, d)]) -> shorter (rd_gti rd) a b ->
  exists lists pieces, filter_at srt rd None ((a, b) :: ints) true = Ok pieces /\
    Forall2 (fun iv r => good_time_in (rd_gti rd) (fst iv) (snd iv) r) ((a, b) :: ints) lists /\
    Forall2 (has_good_events (rd_rows rd) (rd_zero rd)) (filter nonempty lists) pieces.
Proof.
  intros Hsrt Hs Hr Hg Hi Hsh. assert (Hne : rd_gti rd <> []) by apply Hg. unfold filter_at.
  destruct (crosses srt _ Hsrt Hg _ Hi) as (lists & -> & F). cbn [bind].
  destruct lists as [|r0 lists]; [inversion F|].
  assert (Hno : ~ close_lists r0 (rd_gti rd)).
  { inversion F; subst. eapply not_close; [exact Hg|eassumption|assumption]. }
  assert (Hg' : forall g', In g' (r0 :: lists) -> well_formed g' /\ positive_lengths g' /\ forall t, covered g' t -> covered (rd_gti rd) t).
  { clear - F. revert F. generalize ((a, b) :: ints) (r0 :: lists). intros l1 l2 F. induction F as [|iv r l1 l2 (W & P & C) F IH]; [intros g' []|].
    intros g' [<-|H]; [|now apply IH]. split; [assumption|]. split; [assumption|]. intros t Ht. now apply C. }
  destruct (pieces_main rd r0 lists Hs Hr Hne) as (pieces & E & F2); [|assumption|].
  { intros g' c d Hin Sp. destruct (Hg' g' Hin) as (W & P & C). destruct (spans_in _ _ _ Sp) as [(y & Hy) (x & Hx)].
    split; [|eapply inside_reach; [exact P|exact C|exact Hy|exact Hx]].
    assert (B := span_bounds _ _ _ (proj1 (wf2_iff _) W) Sp _ _ Hy). assert (c < y) by (apply P; assumption). lra. }
  exists (r0 :: lists), pieces. split; [assumption|]. split; [assumption|].
  assert (Hin : forall g', In g' (filter nonempty (r0 :: lists)) -> well_formed g') by (intros g' H; apply filter_In in H; destruct H as [H _]; apply (Hg' _ H)).
  clear - F2 Hin Hs. induction F2 as [|r p l ps (E & c & d & Sp & E2) F2 IH]; constructor; [|apply IH; intros; apply Hin; now right].
  split; [assumption|]. exists (rows_in (rd_rows rd) c d). split; [assumption|].
  assert (Er : rows_in (rd_rows rd) c d = filter (fun x => in_good [(c, d)] (fst x)) (rd_rows rd)).
  { unfold rows_in, in_good. cbn [existsb fst snd]. clear. induction (rd_rows rd) as [|x rows IH]; [reflexivity|]. cbn [filter].
    rewrite orb_false_r, IH. reflexivity. }
  rewrite Er. apply good_rows_sub. intros t (x & y & Hxy & H1 & H2). unfold in_good. cbn [existsb fst snd].
  assert (W := Hin r (or_introl eq_refl)). assert (B := span_bounds _ _ _ (proj1 (wf2_iff _) W) Sp _ _ Hxy).
  replace (qle c t) with true by (symmetry; qb; lra). replace (qlt t d) with true by (symmetry; qb; lra). reflexivity.
Qed.

(* ---- refutations ---- *)
Definition ex_rows : list (Q * nat) := combine [0; 1; 2; 3; 4; 5; 6; 7; 8; 10; 21; 25; 29; 30; 35] (seq 0 15).
Definition ex_reader z : reader nat := {| rd_rows := ex_rows; rd_zero := z; rd_gti := [(0, 10); (20, 30)] |}.
Lemma ex_order z : in_order (rd_rows (ex_reader z)).
Proof.
  unfold in_order, nondecreasing. cbn -[nth_error]. apply (proj1 (ss_nth Qle _)). repeat constructor; discriminate.
Qed.
Lemma ex_good : good [(0, 10); (20, 30)].
Proof.
  split; [discriminate|]. split; [apply wf2_iff; split; repeat constructor; discriminate|].
  intros a b [E|[E|[]]]; inversion E; subst; reflexivity.
Qed.
Lemma ex_ranges : (forall a b, In (a, b) [(3, 6); (0, 35); (34, 35)] -> a < b /\ reaches ex_rows [(0, 10); (20, 30)] a b) /\
  get_idx_all (ex_reader 0) None [(3, 6); (0, 35); (34, 35)] = Ok [(3, 5); (0, 13); (14, 13)]%Z /\
  ~ reaches ex_rows [(0, 10); (20, 30)] 3 36.
Proof.
  split; [|split; [vm_compute; reflexivity|]].
  - intros a b [E|[E|[E|[]]]]; inversion E; subst; (split; [reflexivity|]);
      (split; [exists 0; split; [left; left; reflexivity|discriminate]|exists 35; split; [left; vm_compute; tauto|discriminate]]).
  - intros [_ (x & [K|[K|K]] & H)]; vm_compute in K; repeat (destruct K as [K|K]; [subst x; apply H; reflexivity|]); exact K.
Qed.
Lemma ex_pieces :
  (forall c d, In (c, d) [(2, 22); (8, 12); (12, 18)] -> c < d /\ no_touching [(0, 10); (20, 30)] [(c, d)]) /\
  shorter [(0, 10); (20, 30)] 2 22 /\
  filter_at (isort_by t_end) (ex_reader 0) None [(2, 22); (8, 12); (12, 18)] true =
    Ok [(combine [2; 3; 4; 5; 6; 7; 8; 10; 21] (seq 2 9), [(2, 10); (20, 22)]); ([(8, 8%nat)], [(8, 10)])].
Proof.
  split; [|split; [|vm_compute; reflexivity]].
  - intros c d [E|[E|[E|[]]]]; inversion E; subst; (split; [reflexivity|]);
      intros x y u v [E1|[E1|[]]] [E2|[]]; inversion E1; inversion E2; subst; split; discriminate.
  - exists 0, 30. split; [split; [exists 10, [(20, 30)]; reflexivity|exists [(0, 10)], 20; reflexivity]|]. left. discriminate.
Qed.
Lemma ex_split : split_by_number (ex_reader 0) None 4 =
  Ok [(combine [0; 1; 2; 3; 4] (seq 0 5), [(0 # 4, 20 # 4)]); (combine [5; 6; 7; 8] (seq 5 4), [(20 # 4, 10)]);
      ([(21, 10%nat)], [(80 # 4, 100 # 4)]); (combine [25; 29] (seq 11 2), [(100 # 4, 30)])].
Proof. vm_compute. reflexivity. Qed.

(* with a clock offset, the good times of the pieces are not those of their events *)
Lemma zero_refuted : exists (rd : reader nat) pieces p, in_order (rd_rows rd) /\ good (rd_gti rd) /\
  (forall r, In r (rd_rows rd) -> covered (rd_gti rd) (fst r)) /\
  split_by_number rd None 2 = Ok pieces /\ In p pieces /\ fst p <> [] /\ (forall r, In r (fst p) -> ~ covered (snd p) (fst r)).
Proof.
  exists {| rd_rows := [(1, 0%nat); (2, 1%nat); (6, 2%nat); (7, 3%nat)]; rd_zero := 100; rd_gti := [(0, 10)] |}.
  eexists _, ([(101, 0%nat); (102, 1%nat)], [(0 # 2, 10 # 2)]). cbn [rd_rows rd_gti].
  split; [|split; [|split; [|split; [vm_compute; reflexivity|split; [vm_compute; tauto|split; [discriminate|]]]]]].
  - unfold in_order, nondecreasing. cbn -[nth_error]. apply (proj1 (ss_nth Qle _)). repeat constructor; discriminate.
  - now apply good_one.
  - intros r H. exists 0, 10. split; [now left|]. repeat (destruct H as [<-|H]; [split; [discriminate|reflexivity]|]). destruct H.
  - intros r H (a & b & [E|[]] & H1 & H2). inversion E; subst. destruct H as [<-|[<-|[]]]; cbn [fst] in H2; vm_compute in H2; discriminate.
Qed.
(* an event at the very end of the good times is in no piece, unless there is only one *)
Lemma end_refuted : exists (rd : reader nat) pieces r, in_order (rd_rows rd) /\ good (rd_gti rd) /\ rd_zero rd = 0 /\
  In r (rd_rows rd) /\ covered_closed (rd_gti rd) (fst r) /\ split_by_number rd None 2 = Ok pieces /\
  (forall p q, In p pieces -> In q (fst p) -> snd q <> snd r) /\
  (exists p q, split_by_number rd None 4 = Ok [p] /\ In q (fst p) /\ snd q = snd r).
Proof.
  exists {| rd_rows := [(1, 0%nat); (2, 1%nat); (6, 2%nat); (10, 3%nat)]; rd_zero := 0; rd_gti := [(0, 10)] |}.
  eexists _, (10, 3%nat). cbn [rd_rows rd_gti rd_zero].
  split; [|split; [|split; [reflexivity|split; [now (do 3 right); left|split; [|split; [vm_compute; reflexivity|split]]]]]].
  - unfold in_order, nondecreasing. cbn -[nth_error]. apply (proj1 (ss_nth Qle _)). repeat constructor; discriminate.
  - now apply good_one.
  - exists 0, 10. split; [now left|]. split; discriminate.
  - intros p q Hp Hq. repeat (destruct Hp as [<-|Hp]; [repeat (destruct Hq as [<-|Hq]; [discriminate|]); destruct Hq|]). destruct Hp.
  - eexists _, (10, 3%nat). split; [vm_compute; reflexivity|]. split; [now (do 3 right); left|reflexivity].
Qed.
(* the first interval covers the observation: the others are ignored, and one piece has everything *)
Lemma first_refuted : exists ints pieces,
  (forall c d, In (c, d) ints -> c < d /\ no_touching [(0, 10); (20, 30)] [(c, d)]) /\ length ints = 3%nat /\
  filter_at (isort_by t_end) (ex_reader 0) None ints true = Ok pieces /\ length pieces = 1%nat /\
  (exists p, In p pieces /\ fst p = moved 0 ex_rows /\ exists r, In r ex_rows /\ ~ covered_closed [(0, 10); (20, 30)] (fst r)).
Proof.
  exists [(-1, 40); (8, 12); (2, 4)]. eexists. split; [|split; [reflexivity|split; [vm_compute; reflexivity|split; [reflexivity|]]]].
  - intros c d [E|[E|[E|[]]]]; inversion E; subst; (split; [reflexivity|]);
      intros x y u v [E1|[E1|[]]] [E2|[]]; inversion E1; inversion E2; subst; split; discriminate.
  - eexists. split; [now left|]. split; [vm_compute; reflexivity|]. exists (35, 14%nat). split; [vm_compute; tauto|].
    intros (a & b & [E|[E|[]]] & H1 & H2); inversion E; subst; apply H2; reflexivity.
Qed.
(* an interval that fills a gap between good times: the gap is taken as good *)
Lemma gap_refuted : exists p, filter_at (isort_by t_end) (ex_reader 0) None [(10, 20)] true = Ok [p] /\
  covered (snd p) 15 /\ ~ covered [(0, 10); (20, 30)] 15 /\ (exists r, In r (fst p) /\ ~ covered [(0, 10); (20, 30)] (fst r)).
Proof.
  exists ([(10, 9%nat)], [(10, 20)]). split; [vm_compute; reflexivity|].
  assert (N : forall t, 10 <= t -> t < 20 -> ~ covered [(0, 10); (20, 30)] t).
  { intros t H1 H2 (a & b & [E|[E|[]]] & H3 & H4); inversion E; subst; lra. }
  split; [exists 10, 20; split; [now left|split; [discriminate|reflexivity]]|]. split; [apply N; [discriminate|reflexivity]|].
  exists (10, 9%nat). split; [now left|]. apply N; [discriminate|reflexivity].
Qed.

(* ---- header keywords ---- *)
Lemma hdr_in hdr : forall k v, NoDup (map fst hdr) -> In (k, v) hdr -> hdr_get hdr k = Ok v.
Proof.
  induction hdr as [|[k' v'] hdr IH]; intros k v Hn Hin; [destruct Hin|]. cbn [hdr_get fst snd map] in *. inversion Hn; subst.
  destruct (String.eqb k' k) eqn:E.
  - apply String.eqb_eq in E. subst k'. destruct Hin as [Ei|Hin]; [congruence|]. exfalso. apply H1. apply in_map_iff. exists (k, v). auto.
  - apply String.eqb_neq in E. destruct Hin as [Ei|Hin]; [congruence|]. now apply IH.
Qed.
Lemma hdr_out hdr : forall k, ~ In k (map fst hdr) -> hdr_get hdr k = Err KeyError.
Proof.
  induction hdr as [|[k' v'] hdr IH]; intros k Hn; [reflexivity|]. cbn [hdr_get fst snd map] in *.
  destruct (String.eqb k' k) eqn:E; [apply String.eqb_eq in E; subst; exfalso; apply Hn; now left|]. apply IH. intros C. apply Hn. now right.
Qed.
Lemma key_whole hdr k v : NoDup (map fst hdr) -> In (k, v) hdr -> keyword_read hdr k = Some v.
Proof. intros Hn Hin. unfold keyword_read. now rewrite (hdr_in _ _ _ Hn Hin). Qed.
Lemma key_split hdr k root vi vf : NoDup (map fst hdr) -> ~ In k (map fst hdr) ->
  root = (if Nat.eqb (String.length k) 8 then substring 0 7 k else k) ->
  In ((root ++ "I")%string, vi) hdr -> In ((root ++ "F")%string, vf) hdr -> keyword_read hdr k = Some (vi + vf).
Proof.
  intros Hn Hk -> Hi Hf. unfold keyword_read. rewrite (hdr_out _ _ Hk). now rewrite (hdr_in _ _ _ Hn Hi), (hdr_in _ _ _ Hn Hf).
Qed.
Lemma key_none hdr k root : NoDup (map fst hdr) -> ~ In k (map fst hdr) ->
  root = (if Nat.eqb (String.length k) 8 then substring 0 7 k else k) ->
  ~ In (root ++ "I")%string (map fst hdr) \/ ~ In (root ++ "F")%string (map fst hdr) -> keyword_read hdr k = None.
Proof.
  intros Hn Hk -> Hi. unfold keyword_read. rewrite (hdr_out _ _ Hk). destruct Hi as [Hi|Hi].
  - now rewrite (hdr_out _ _ Hi).
  - destruct (hdr_get hdr _); [|reflexivity]. cbn [bind]. now rewrite (hdr_out _ _ Hi).
Qed.
(* ref_mjd says that it reads the two halves and, failing them, the whole *)
Lemma mjdref_refuted : exists hdr v vi vf, NoDup (map fst hdr) /\ In ("MJDREFI"%string, vi) hdr /\ In ("MJDREFF"%string, vf) hdr /\
  keyword_read hdr "MJDREF" = Some v /\ ~ v == vi + vf.
Proof.
  exists [("MJDREF"%string, 55197); ("MJDREFI"%string, 55197); ("MJDREFF"%string, 766 # 1000000)], 55197, 55197, (766 # 1000000).
  split; [repeat constructor; simpl; intros H; repeat (destruct H as [H|H]; try discriminate); assumption|].
  split; [simpl; tauto|]. split; [simpl; tauto|]. split; [reflexivity|]. discriminate.
Qed.

(* ---- energies of the channels ---- *)
Lemma write_nth pis : forall es row i pi, length es = length pis -> nth_error pis i = Some pi ->
  exists e, nth_error es i = Some e /\
    nth_error (write_channel pis es row) i = Some (if (pi =? fst row)%Z then (fst (snd row) + snd (snd row)) / 2 else e).
Proof.
  unfold write_channel. induction pis as [|p pis IH]; intros [|e es] row i pi L H; try discriminate; destruct i as [|i]; try discriminate.
  - simpl in H. inversion H; subst. exists e. split; reflexivity.
  - simpl in H, L. injection L as L. apply (IH es row i pi L H).
Qed.
Lemma write_len pis es row : length es = length pis -> length (write_channel pis es row) = length pis.
Proof. intros L. unfold write_channel. rewrite map_length, combine_length. lia. Qed.
Lemma fold_keep pis : forall rmf es i pi, length es = length pis -> nth_error pis i = Some pi -> ~ In pi (map fst rmf) ->
  nth_error (fold_left (write_channel pis) rmf es) i = nth_error es i /\ length (fold_left (write_channel pis) rmf es) = length pis.
Proof.
  induction rmf as [|row rmf IH]; intros es i pi L H Hn; cbn [fold_left]; [split; [reflexivity|assumption]|].
  cbn [map] in Hn. destruct (IH (write_channel pis es row) i pi) as [E1 E2]; [now apply write_len|assumption|intros C; apply Hn; now right|].
  split; [|assumption]. rewrite E1. destruct (write_nth pis es row i pi L H) as (e & -> & ->).
  destruct (Z.eqb_spec pi (fst row)); [exfalso; apply Hn; left; auto|reflexivity].
Qed.
Lemma fold_len pis : forall rmf es, length es = length pis -> length (fold_left (write_channel pis) rmf es) = length pis.
Proof. induction rmf as [|row rmf IH]; intros es L; cbn [fold_left]; [assumption|]. apply IH. now apply write_len. Qed.
Lemma energies pis rmf : length (pi_to_energy pis rmf) = length pis /\
  forall i pi, nth_error pis i = Some pi ->
    (forall pre lo hi post, rmf = pre ++ (pi, (lo, hi)) :: post -> ~ In pi (map fst post) ->
       nth_error (pi_to_energy pis rmf) i = Some ((lo + hi) / 2)) /\
    (~ In pi (map fst rmf) -> nth_error (pi_to_energy pis rmf) i = Some 0).
Proof.
  unfold pi_to_energy. assert (L0 : length (repeat 0 (length pis)) = length pis) by apply repeat_length. split; [now apply fold_len|].
  intros i pi H. assert (Hi : (i < length pis)%nat) by (apply nth_error_Some; congruence). split.
  - intros pre lo hi post -> Hp. rewrite fold_left_app. cbn [fold_left].
    set (es := fold_left (write_channel pis) pre (repeat 0 (length pis))).
    assert (L : length es = length pis) by now apply fold_len.
    destruct (fold_keep pis post (write_channel pis es (pi, (lo, hi))) i pi) as [-> _]; [now apply write_len|assumption|assumption|].
    destruct (write_nth pis es (pi, (lo, hi)) i pi L H) as (e & _ & ->). cbn [fst snd]. now rewrite Z.eqb_refl.
  - intros Hn. destruct (fold_keep pis rmf (repeat 0 (length pis)) i pi L0 H Hn) as [-> _].
    clear - Hi. revert i Hi. induction (length pis) as [|n IH]; intros [|i] Hi; try lia; [reflexivity|]. apply IH. lia.
Qed.
Lemma split_zero {A} (rd : reader A) cache : split_by_number rd cache 0 = Err ZeroDivisionError.
Proof. reflexivity. Qed.
