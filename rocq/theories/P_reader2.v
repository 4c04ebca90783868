(* P_reader2.v: the pieces of an event file. *)
From Verif Require Import Np Lib S_gti S_seg S_utils M_gti M_seg M_utils M_reader S_reader P_gti_ops P_gti_cross P_gti_final P_seg_regions P_seg_cut P_helpers P_flux P_seg_split P_reader.
From Coq Require Import Lqa.
Open Scope Q_scope.

Lemma span_ex (g : gtis) : g <> [] -> exists a b, spans g a b /\ (exists x g', g = (a, x) :: g') /\ (exists x, get_last g = Ok (x, b)).
Proof.
  intros H. destruct g as [|[a x] g']; [congruence|]. clear H.
  destruct (@exists_last _ ((a, x) :: g') ltac:(discriminate)) as (l & [y b] & E). exists a, b. split; [|split].
  - split; [exists x, g'; reflexivity|exists l, y; assumption].
  - exists x, g'. reflexivity.
  - exists y. rewrite E. unfold get_last. rewrite rev_app_distr. reflexivity.
Qed.
Lemma spans_unique g a b c d : spans g a b -> spans g c d -> a = c /\ b = d.
Proof.
  intros [(x & g1 & E1) (g2 & y & E2)] [(x' & g1' & E1') (g2' & y' & E2')]. split; [congruence|].
  rewrite E2 in E2'. apply app_inj_tail in E2'. destruct E2' as [_ E]. congruence.
Qed.

Lemma apply_loop_main {A} (rd : reader A) : in_order (rd_rows rd) -> rd_rows rd <> [] -> rd_gti rd <> [] ->
  forall l cache, (forall c, cache = Some c -> good_edges rd c) ->
  (forall g a b, In g l -> spans g a b -> a < b /\ reaches (rd_rows rd) (rd_gti rd) a b) ->
  exists pieces, apply_loop rd cache l = Ok pieces /\
    Forall2 (piece_of (rd_rows rd) (rd_zero rd)) (filter nonempty l) pieces.
Proof.
  intros Hs Hr Hg. induction l as [|g l IH]; intros cache Hc Hl; [exists []; split; [reflexivity|constructor]|].
  assert (Hl' : forall g a b, In g l -> spans g a b -> a < b /\ reaches (rd_rows rd) (rd_gti rd) a b) by (intros; eapply Hl; [right|]; eassumption).
  destruct g as [|iv g].
  - cbn [apply_loop filter nonempty]. now apply IH.
  - destruct (span_ex (iv :: g) ltac:(discriminate)) as (a & b & Sp & (x & g' & E1) & (y & E2)).
    destruct (Hl _ a b (or_introl eq_refl) Sp) as [Hab Hre].
    cbn [apply_loop]. rewrite E2. cbn [bind snd]. inversion E1. cbn [fst].
    destruct (get_idx_main rd cache a b Hab Hs Hr Hg Hc Hre) as (c & -> & G). cbn [bind fst snd].
    destruct (IH (Some c)) as (pieces & -> & F); [intros c' E; inversion E; subst; assumption|assumption|].
    cbn [bind]. eexists. split; [reflexivity|]. cbn [filter nonempty]. constructor; [|assumption].
    split; [reflexivity|]. exists a, b. split; [subst; exact Sp|]. unfold getitem. cbn [fst].
    rewrite Nat2Z.id. replace (Z.to_nat (Z.of_nat (rows_before (rd_rows rd) b) - 1 + 1)) with (rows_before (rd_rows rd) b) by lia.
    rewrite rows_slice by (try assumption; lra). reflexivity.
Qed.
Lemma same_gti_iff g : forall h, same_gti g h = true <-> close_lists g h.
Proof.
  unfold same_gti, close_lists. induction g as [|[a b] g IH]; intros [|[c d] h]; cbn [length Nat.eqb andb].
  - split; [constructor|reflexivity].
  - split; [discriminate|inversion 1].
  - split; [discriminate|inversion 1].
  - unfold gti_flat in *. cbn [flat_map app combine forallb fst snd]. specialize (IH h).
    split.
    + intros H. apply andb_prop in H. destruct H as [L H]. apply andb_prop in H. destruct H as [H1 H]. apply andb_prop in H. destruct H as [H2 H].
      constructor; [split; qb; assumption|]. apply IH. now rewrite L, H.
    + intros H. inversion H as [|? ? ? ? [H1 H2] H3]; subst. apply IH in H3. apply andb_prop in H3. destruct H3 as [L H3]. cbn [fst snd] in *.
      rewrite L, H3. cbn [andb]. replace (qlt _ _) with true by (symmetry; qb; assumption).
      replace (qlt _ _) with true by (symmetry; qb; assumption). reflexivity.
Qed.
Lemma same_case {A} (rd : reader A) cache g l : close_lists g (rd_gti rd) ->
  apply_gti_lists rd cache (g :: l) = Ok [(moved (rd_zero rd) (rd_rows rd), moved_gti (rd_zero rd) (rd_gti rd))].
Proof. intros H. unfold apply_gti_lists. cbn [get nth_error bind]. rewrite (proj2 (same_gti_iff _ _) H). reflexivity. Qed.
Lemma pieces_main {A} (rd : reader A) g l : in_order (rd_rows rd) -> rd_rows rd <> [] -> rd_gti rd <> [] ->
  (forall g' a b, In g' (g :: l) -> spans g' a b -> a < b /\ reaches (rd_rows rd) (rd_gti rd) a b) ->
  ~ close_lists g (rd_gti rd) ->
  exists pieces, apply_gti_lists rd None (g :: l) = Ok pieces /\
    Forall2 (piece_of (rd_rows rd) (rd_zero rd)) (filter nonempty (g :: l)) pieces.
Proof.
  intros Hs Hr Hg Hl Hn. unfold apply_gti_lists. cbn [get nth_error bind].
  destruct (same_gti g (rd_gti rd)) eqn:E; [apply same_gti_iff in E; contradiction|].
  apply apply_loop_main; try assumption. discriminate.
Qed.

(* ---- events in consecutive spans ---- *)
Lemma filter_two {A} (rows : list (Q * A)) p q b : in_order rows ->
  (forall t, p t = true -> t < b) -> (forall t, q t = true -> b <= t) ->
  filter (fun r => p (fst r)) rows ++ filter (fun r => q (fst r)) rows = filter (fun r => p (fst r) || q (fst r))%bool rows.
Proof.
  intros Hs Hp Hq. unfold in_order in Hs. apply (proj2 (ss_nth Qle _)) in Hs.
  induction rows as [|[t x] rows IH]; [reflexivity|]. cbn [map fst] in Hs. apply StronglySorted_inv in Hs. destruct Hs as [Hs Hf].
  specialize (IH Hs). cbn [filter fst]. destruct (p t) eqn:Ep; cbn [orb].
  - apply Hp in Ep. destruct (q t) eqn:Eq; [apply Hq in Eq; lra|]. cbn [app]. now rewrite IH.
  - destruct (q t) eqn:Eq; [|assumption]. apply Hq in Eq.
    assert (E0 : filter (fun r => p (fst r)) rows = []).
    { clear - Hp Eq Hf. induction rows as [|r rows IH]; [reflexivity|]. cbn [map] in Hf. inversion Hf; subst. cbn [filter].
      destruct (p (fst r)) eqn:E; [apply Hp in E; lra|]. now apply IH. }
    rewrite E0 in *. cbn [app] in *. now rewrite <- IH.
Qed.
Definition in_span (t : Q) (s : Q * Q) : bool := (qle (fst s) t && qlt t (snd s))%bool.
Lemma spans_concat {A} (rows : list (Q * A)) sp : in_order rows -> StronglySorted (fun x y : Q * Q => snd x <= fst y) sp ->
  concat (map (fun s => rows_in rows (fst s) (snd s)) sp) = filter (fun r => in_good sp (fst r)) rows.
Proof.
  intros Hs. induction 1 as [|s sp SS IH Hf]; cbn [map concat].
  - unfold in_good. cbn [existsb]. clear. induction rows; [reflexivity|assumption].
  - rewrite IH. unfold rows_in. rewrite (filter_two rows (fun t => qle (fst s) t && qlt t (snd s))%bool (in_good sp) (snd s) Hs).
    + reflexivity.
    + intros t H. apply andb_prop in H. destruct H as [_ H]. qb. assumption.
    + intros t H. unfold in_good in H. apply existsb_exists in H. destruct H as (s' & Hin & H). apply andb_prop in H. destruct H as [H _].
      rewrite Forall_forall in Hf. specialize (Hf _ Hin). qb. lra.
Qed.
Lemma in_good_iff g t : in_good g t = true <-> covered g t.
Proof.
  unfold in_good, covered. rewrite existsb_exists. split.
  - intros ([a b] & Hin & H). apply andb_prop in H. destruct H. cbn [fst snd] in *. qb. exists a, b. tauto.
  - intros (a & b & Hin & H1 & H2). exists (a, b). split; [assumption|]. apply andb_true_intro. cbn [fst snd]. split; qb; assumption.
Qed.
