(* P_seg_mask.v: GTI masks. *)
From Verif Require Import Np Lib S_gti S_seg M_gti M_seg P_gti_cross P_gti_ops P_gti_final P_seg_regions P_seg_cut P_seg_bins P_seg_split.
Open Scope Q_scope.

Lemma nth_error_combine {A B} (l : list A) (l' : list B) i a b :
  nth_error l i = Some a -> nth_error l' i = Some b -> nth_error (combine l l') i = Some (a, b).
Proof.
  revert l l'. induction i as [|i IH]; intros [|x l] [|y l'] Ha Hb; simpl in *; try discriminate.
  - inversion Ha; inversion Hb; reflexivity.
  - apply IH; assumption.
Qed.

Lemma ok_pair_inj {A B} (a c : A) (b d : B) : Ok (a, b) = Ok (c, d) -> a = c /\ b = d.
Proof. intros H. injection H as -> ->. auto. Qed.

Lemma check_gtis_wf g : well_formed g -> g <> [] -> check_gtis g = Ok tt.
Proof. intros H1 H2. apply check_gtis_iff. auto. Qed.

Lemma mask_complete_main time dts g safe minlen eps : g <> [] -> well_formed g -> length dts = length time ->
  exists mask new, create_gti_mask_complete time g safe minlen (Some dts) eps = Ok (mask, new) /\
    length mask = length time /\
    (forall i t d, nth_error time i = Some t -> nth_error dts i = Some d ->
       (nth_error mask i = Some true <->
        exists a b, In (a, b) g /\ minlen <= (b - snd safe) - (a + fst safe) /\
                    bin_inside t d (eps * d) (a + fst safe) (b - snd safe))) /\
    (forall x y, In (x, y) new <-> exists a b, In (a, b) g /\ x = a + fst safe /\ y = b - snd safe /\ minlen <= y - x).
Proof.
  intros Hg Hwf Hlen. unfold create_gti_mask_complete. rewrite (check_gtis_wf g Hwf Hg). cbn [bind].
  eexists _, _. split; [reflexivity|]. split; [|split].
  - rewrite map_length, combine_length. lia.
  - intros i t d Ht Hd. rewrite nth_error_map, (nth_error_combine _ _ _ _ _ Ht Hd). simpl. split.
    + intros H. injection H as H. apply existsb_exists in H. destruct H as ([x y] & Hin & H). apply filter_In in Hin.
      destruct Hin as [Hin Hm]. apply in_map_iff in Hin. destruct Hin as ([a b] & E & Hab). inversion E; subst; clear E.
      simpl in *. qb. exists a, b. split; [assumption|]. split; [assumption|]. apply bin_inside_iff. split; assumption.
    + intros (a & b & Hab & Hm & Hb). apply bin_inside_iff in Hb. f_equal. apply existsb_exists.
      exists (a + fst safe, b - snd safe). split.
      * apply filter_In. split; [apply in_map_iff; exists (a, b); auto|]. simpl. qb. assumption.
      * simpl. apply andb_true_iff. split; qb; tauto.
  - intros x y. rewrite filter_In, in_map_iff. split.
    + intros [([a b] & E & Hab) Hm]. inversion E; subst. simpl in *. qb. exists a, b. auto.
    + intros (a & b & Hab & -> & -> & Hm). split; [exists (a, b); auto|]. simpl. qb. assumption.
Qed.

(* the fast mask *)
Definition inb (iv : Q * Q) (t : Q) : bool := qle (fst iv) t && qle t (snd iv).

Lemma mask_jit_sound minlen time : forall cur nxt rest i,
  nth_error (fst (mask_jit minlen time cur nxt rest)) i = Some true ->
  exists t iv, nth_error time i = Some t /\ inb iv t = true /\
    ((cur = Some iv /\ nxt = false) \/ (In iv rest /\ minlen <= snd iv - fst iv)).
Proof.
  induction time as [|t time IH]; intros cur nxt rest i H; simpl in H; [destruct i; discriminate|].
  destruct (match cur with None => true | Some iv => qlt (snd iv) t || nxt end) eqn:Ea.
  - destruct rest as [|iv rest].
    + exfalso. destruct i as [|i]; simpl in H; [discriminate|]. rewrite nth_error_map in H.
      destruct (nth_error time i); discriminate.
    + destruct (qlt (snd iv - fst iv) minlen) eqn:El; qb; destruct i as [|i]; simpl in H.
      * discriminate.
      * destruct (IH _ _ _ _ H) as (t' & iv' & H1 & H2 & [[H3 H4]|[H3 H4]]); [discriminate|].
        exists t', iv'. simpl. split; [auto|]. split; [auto|]. right. split; [right; assumption|assumption].
      * injection H as H. exists t, iv. simpl. split; [auto|]. split; [auto|]. right. split; [left; reflexivity|assumption].
      * destruct (IH _ _ _ _ H) as (t' & iv' & H1 & H2 & [[H3 H4]|[H3 H4]]).
        -- inversion H3; subst. exists t', iv'. simpl. split; [auto|]. split; [auto|]. right. split; [left; reflexivity|assumption].
        -- exists t', iv'. simpl. split; [auto|]. split; [auto|]. right. split; [right; assumption|assumption].
  - destruct cur as [c|]; [|discriminate]. apply orb_false_iff in Ea. destruct Ea as [_ ->].
    destruct i as [|i]; simpl in H.
    + injection H as H. exists t, c. simpl. repeat split; auto.
    + destruct (IH _ _ _ _ H) as (t' & iv' & H1 & H2 & H3). exists t', iv'. simpl. auto.
Qed.

Definition curl (cur : option (Q * Q)) : gtis := match cur with Some c => [c] | None => [] end.

Lemma inb_true iv t : inb iv t = true <-> fst iv <= t /\ t <= snd iv.
Proof. unfold inb. rewrite andb_true_iff, !qle_t. reflexivity. Qed.
Lemma inb_false_r iv t : snd iv < t -> inb iv t = false.
Proof. intros H. apply not_true_iff_false. rewrite inb_true. intros [_ C]. lra. Qed.
Lemma inb_false_l iv t : t < fst iv -> inb iv t = false.
Proof. intros H. apply not_true_iff_false. rewrite inb_true. intros [C _]. lra. Qed.

Lemma mask_jit_complete minlen time : StronglySorted Qle time ->
  forall cur rest,
  StronglySorted (fun x y : Q * Q => snd x < fst y) (curl cur ++ rest) ->
  (forall iv, In iv rest -> minlen <= snd iv - fst iv) ->
  (forall iv, In iv rest -> exists t, In t time /\ inb iv t = true) ->
  mask_jit minlen time cur false rest =
    (map (fun t => existsb (fun iv => inb iv t) (curl cur ++ rest)) time, map (fun _ => true) rest).
Proof.
  induction 1 as [|t time Hs IH Hf]; intros cur rest Hss Hlen Hc.
  - destruct rest as [|iv rest]; [reflexivity|]. destruct (Hc iv (or_introl eq_refl)) as (x & [] & _).
  - rewrite Forall_forall in Hf.
    (* advancing into the next GTI *)
    assert (Hadv : forall iv rest', rest = iv :: rest' ->
      (forall c, In c (curl cur) -> snd c < t) ->
      (let r := mask_jit minlen time (Some iv) false rest' in
         ((qle (fst iv) t && qle t (snd iv)) :: fst r, true :: snd r)) =
      (map (fun t => existsb (fun iv => inb iv t) (curl cur ++ rest)) (t :: time), map (fun _ => true) rest)).
    { intros iv rest' -> Hcur. apply ss_app in Hss. destruct Hss as (_ & Hss & Hcr).
      assert (Hss' := Hss). apply StronglySorted_inv in Hss'. destruct Hss' as [_ Hiv]. rewrite Forall_forall in Hiv.
      assert (Hti : t <= snd iv).
      { destruct (Hc iv (or_introl eq_refl)) as (s & Hin & Hb). apply inb_true in Hb.
        destruct Hin as [-> |Hin]; [tauto|]. apply Hf in Hin. lra. }
      rewrite (IH (Some iv) rest').
      - cbv zeta. cbn [fst snd map]. f_equal. f_equal.
        + rewrite existsb_app. cbn [existsb]. change (qle (fst iv) t && qle t (snd iv)) with (inb iv t).
          replace (existsb (fun iv0 => inb iv0 t) (curl cur)) with false.
          2:{ symmetry. apply existsb_false. intros c Hcc. apply inb_false_r. auto. }
          replace (existsb (fun iv0 => inb iv0 t) rest') with false.
          2:{ symmetry. apply existsb_false. intros c Hcc. apply inb_false_l. apply Hiv in Hcc. lra. }
          rewrite orb_false_r. reflexivity.
        + apply map_ext_in. intros x Hx. rewrite (existsb_app _ (curl cur) (iv :: rest')).
          replace (existsb (fun iv0 => inb iv0 x) (curl cur)) with false; [reflexivity|].
          symmetry. apply existsb_false. intros c Hcc. apply inb_false_r. apply Hcur in Hcc. apply Hf in Hx. lra.
      - exact Hss.
      - intros iv' H'. apply Hlen. right; assumption.
      - intros iv' H'. destruct (Hc iv' (or_intror H')) as (s & [-> |Hin] & Hb); [|eauto].
        exfalso. apply inb_true in Hb. apply Hiv in H'. lra. }
    destruct cur as [c|]; simpl.
    + destruct (qlt (snd c) t) eqn:E; simpl.
      * qb. destruct rest as [|iv rest'].
        -- simpl. f_equal. f_equal; [symmetry; rewrite orb_false_r; apply inb_false_r; assumption|].
           apply map_ext_in. intros x Hx. symmetry. rewrite orb_false_r. apply inb_false_r. apply Hf in Hx. lra.
        -- assert (El : qlt (snd iv - fst iv) minlen = false) by (qb; apply Hlen; left; reflexivity). rewrite El.
           apply Hadv; [reflexivity|]. intros x [<-|[]]. assumption.
      * qb. apply StronglySorted_inv in Hss. destruct Hss as [Hss Hcf]. rewrite Forall_forall in Hcf. simpl in Hcf.
        rewrite (IH (Some c) rest).
        -- simpl. f_equal. f_equal. change (qle (fst c) t && qle t (snd c)) with (inb c t).
           replace (existsb (fun iv => inb iv t) rest) with false; [rewrite orb_false_r; reflexivity|].
           symmetry. apply existsb_false. intros x Hx. apply inb_false_l. apply Hcf in Hx. lra.
        -- simpl. constructor; [assumption|]. apply Forall_forall. assumption.
        -- assumption.
        -- intros iv' H'. destruct (Hc iv' H') as (s & [-> |Hin] & Hb); [|eauto].
           exfalso. apply inb_true in Hb. apply Hcf in H'. lra.
    + destruct rest as [|iv rest']; [simpl; reflexivity|].
      assert (El : qlt (snd iv - fst iv) minlen = false) by (qb; apply Hlen; left; reflexivity). rewrite El.
      apply Hadv; [reflexivity|]. intros x [].
Qed.

Lemma select_all {A} (l : list A) (m : list bool) : length m = length l -> (forall b, In b m -> b = true) -> select l m = l.
Proof.
  revert m. induction l as [|a l IH]; intros [|b m] Hlen Hb; simpl in *; try lia; [reflexivity|].
  rewrite (Hb b (or_introl eq_refl)). f_equal. apply IH; [lia|auto].
Qed.

(* core of create_gti_mask with numba *)
Lemma mask_fast_core minlen time g safe d eps : nondecreasing time -> well_formed g ->
  0 <= fst safe -> 0 <= snd safe -> 0 <= d -> 0 <= eps -> eps < 1 # 2 -> (0 < d \/ gaps_between g) ->
  let gnew := map (fun iv : Q * Q => (fst iv + fst safe, snd iv - snd safe)) g in
  let gmask := map (fun iv : Q * Q => (fst iv - eps * d + d / 2, snd iv + eps * d - d / 2)) gnew in
  (forall iv, In iv gmask -> minlen <= snd iv - fst iv) ->
  (forall a b, In (a, b) g -> exists t, In t time /\ bin_inside t d (eps * d) (a + fst safe) (b - snd safe)) ->
  let r := mask_jit minlen time None false gmask in
  length (fst r) = length time /\
  (forall i t, nth_error time i = Some t -> (nth_error (fst r) i = Some true <->
     exists a b, In (a, b) g /\ bin_inside t d (eps * d) (a + fst safe) (b - snd safe))) /\
  select gnew (snd r) = gnew.
Proof.
  intros Hs Hwf Hs0 Hs1 Hd He0 He Hgap gnew gmask Hlen Hc r.
  assert (Hed : 0 <= eps * d) by (apply Qmult_le_0_compat; lra).
  assert (Hhalf : d / 2 == (1 # 2) * d) by (unfold Qdiv; change (/ 2) with (1 # 2); ring).
  assert (Hin : forall t a b, inb (a + fst safe - eps * d + d / 2, b - snd safe + eps * d - d / 2) t = true <->
                bin_inside t d (eps * d) (a + fst safe) (b - snd safe)).
  { intros t a b. rewrite inb_true. unfold bin_inside. simpl. split; intros [H1 H2]; split; lra. }
  assert (E : r = (map (fun t => existsb (fun iv => inb iv t) gmask) time, map (fun _ => true) gmask)).
  { unfold r. apply (mask_jit_complete minlen time) with (cur := None).
    - apply ss_nth. exact Hs.
    - simpl. apply ss_nth. intros i j [x y] [x' y'] Hij Hx Hx'. unfold gmask, gnew in *. rewrite !nth_error_map in Hx, Hx'.
      destruct (nth_error g i) as [[a b]|] eqn:E1; [|discriminate]. destruct (nth_error g j) as [[a' b']|] eqn:E2; [|discriminate].
      simpl in Hx, Hx'. inversion Hx; inversion Hx'; subst. simpl. destruct Hwf as [_ Hwf].
      assert (b <= a') by (eapply Hwf; eassumption). destruct Hgap as [Hd0|Hgap].
      + assert (eps * d < (1 # 2) * d) by (apply Qmult_lt_r; assumption). lra.
      + assert (b < a') by (eapply Hgap; eassumption).
        assert (eps * d <= (1 # 2) * d) by (apply Qmult_le_compat_r; lra). lra.
    - assumption.
    - intros iv Hiv. unfold gmask, gnew in Hiv. rewrite map_map in Hiv. apply in_map_iff in Hiv. destruct Hiv as ([a b] & <- & Hab).
      destruct (Hc a b Hab) as (t & Ht & Hb). exists t. split; [assumption|]. simpl. apply Hin. assumption. }
  rewrite E. simpl fst; simpl snd. split; [apply map_length|]. split.
  - intros i t Ht. rewrite nth_error_map, Ht. simpl. unfold gmask, gnew. rewrite map_map. split.
    + intros H. injection H as H. apply existsb_exists in H. destruct H as (iv & Hiv & H). apply in_map_iff in Hiv.
      destruct Hiv as ([a b] & <- & Hab). exists a, b. split; [assumption|]. apply Hin. exact H.
    + intros (a & b & Hab & H). f_equal. apply existsb_exists. apply Hin in H. eexists. split; [|exact H].
      apply in_map_iff. exists (a, b). auto.
  - apply select_all; [unfold gmask; rewrite !map_length; reflexivity|].
    intros b Hb. apply in_map_iff in Hb. destruct Hb as (x & <- & _). reflexivity.
Qed.

(* A given bin width, no minimum length. *)
Lemma mask_fast_main time g safe minlen d eps : time <> [] -> nondecreasing time -> g <> [] -> well_formed g ->
  0 <= fst safe -> 0 <= snd safe -> 0 <= d -> 0 <= eps -> eps < 1 # 2 -> (0 < d \/ gaps_between g) -> minlen <= 0 ->
  (forall a b, In (a, b) g -> exists t, In t time /\ bin_inside t d (eps * d) (a + fst safe) (b - snd safe)) ->
  exists mask new, create_gti_mask true time g safe minlen (Some d) eps = Ok (mask, new) /\
    length mask = length time /\
    (forall i t, nth_error time i = Some t -> (nth_error mask i = Some true <->
       exists a b, In (a, b) g /\ bin_inside t d (eps * d) (a + fst safe) (b - snd safe))) /\
    new = map (fun iv : Q * Q => (fst iv + fst safe, snd iv - snd safe)) g.
Proof.
  intros Ht Hs Hg Hwf Hs0 Hs1 Hd He0 He Hgap Hm Hc.
  unfold create_gti_mask. destruct time as [|t0 time]; [congruence|]. destruct g as [|g0 g]; [congruence|].
  replace (qlt 0 minlen) with false by (symmetry; qb; assumption).
  rewrite (check_gtis_wf _ Hwf) by discriminate. cbn [bind].
  eexists _, _. split; [reflexivity|].
  apply mask_fast_core; try assumption.
  intros iv Hiv. rewrite map_map in Hiv. apply in_map_iff in Hiv. destruct Hiv as ([a b] & <- & Hab).
  destruct (Hc a b Hab) as (t & _ & Hb1 & Hb2). simpl.
  assert (Hed : 0 <= eps * d) by (apply Qmult_le_0_compat; lra).
  assert (Hhalf : d / 2 == (1 # 2) * d) by (unfold Qdiv; change (/ 2) with (1 # 2); ring).
  assert (E : 2 * (1 + eps) * d == 2 * d + 2 * (eps * d)) by ring. rewrite E. lra.
Qed.

(* Default bin width (median), minimum length, no safe interval. *)
Lemma well_formed_filter f g : well_formed g -> well_formed (filter f g).
Proof.
  rewrite !wf2_iff. intros [H1 H2]. split; [|apply ss_filter; assumption].
  rewrite Forall_forall in *. intros x Hx. apply H1. eapply filter_sub; eassumption.
Qed.
Lemma mask_fast_minlen time g minlen d eps : time <> [] -> nondecreasing time -> well_formed g ->
  median (diffs time) = Some d -> 0 < d -> 0 <= eps -> eps < 1 # 2 -> 0 < minlen ->
  (exists a b, In (a, b) g /\ minlen <= b - a) ->
  (forall a b, In (a, b) g -> minlen <= b - a -> exists t, In t time /\ bin_inside t d (eps * d) a b) ->
  exists mask new, create_gti_mask true time g (0, 0) minlen None eps = Ok (mask, new) /\
    length mask = length time /\
    (forall i t, nth_error time i = Some t -> (nth_error mask i = Some true <->
       exists a b, In (a, b) g /\ minlen <= b - a /\ bin_inside t d (eps * d) a b)) /\
    (forall x y, In (x, y) new <-> exists a b, In (a, b) g /\ minlen <= b - a /\ x = a + 0 /\ y = b - 0).
Proof.
  intros Ht Hs Hwf Hmed Hd He0 He Hm (a0 & b0 & Hab0 & Hlen0) Hc.
  unfold create_gti_mask. destruct time as [|t0 time]; [congruence|]. destruct g as [|g0 g]; [destruct Hab0|].
  replace (qlt 0 minlen) with true by (symmetry; qb; assumption).
  set (gf := filter (fun iv : Q * Q => qle minlen (snd iv - fst iv)) (g0 :: g)).
  assert (Hgf : forall a b, In (a, b) gf <-> In (a, b) (g0 :: g) /\ minlen <= b - a).
  { intros a b. unfold gf. rewrite filter_In. simpl snd; simpl fst. rewrite qle_t. reflexivity. }
  assert (Hne : gf <> []). { intros C. assert (H : In (a0, b0) gf) by (apply Hgf; auto). rewrite C in H. destruct H. }
  assert (Hwf' : well_formed gf) by (apply well_formed_filter; assumption).
  clearbody gf. destruct gf as [|f0 gf]; [congruence|].
  rewrite (check_gtis_wf _ Hwf') by discriminate. cbn [bind]. rewrite Hmed.
  assert (Hadd : forall t a b, bin_inside t d (eps * d) (a + 0) (b - 0) <-> bin_inside t d (eps * d) a b).
  { intros t a b. unfold bin_inside. split; intros [H1 H2]; split; lra. }
  destruct (mask_fast_core (minlen - 2 * (1 + eps) * d) (t0 :: time) (f0 :: gf) (0, 0) d eps) as (M1 & M2 & M3); try assumption; simpl fst; simpl snd; try lra.
  - intros iv Hiv. rewrite map_map in Hiv. apply in_map_iff in Hiv. destruct Hiv as ([a b] & <- & Hab).
    apply Hgf in Hab. simpl. destruct Hab as [_ Hab].
    assert (Hed : 0 <= eps * d) by (apply Qmult_le_0_compat; lra).
    assert (Hhalf : d / 2 == (1 # 2) * d) by (unfold Qdiv; change (/ 2) with (1 # 2); ring).
    assert (E : 2 * (1 + eps) * d == 2 * d + 2 * (eps * d)) by ring. rewrite E. lra.
  - intros a b Hab. apply Hgf in Hab. destruct Hab as [Hab Hl]. destruct (Hc a b Hab Hl) as (t & Hin & Hb).
    exists t. split; [assumption|]. apply Hadd. assumption.
  - eexists _, _. split; [reflexivity|]. split; [exact M1|]. split.
    + intros i t Hi. rewrite (M2 i t Hi). split.
      * intros (a & b & Hab & Hb). apply Hgf in Hab. apply (proj1 (Hadd t a b)) in Hb. exists a, b. tauto.
      * intros (a & b & Hab & Hl & Hb). exists a, b. split; [apply Hgf; auto|]. apply Hadd. assumption.
    + intros x y. simpl fst in M3; simpl snd in M3. rewrite M3. rewrite in_map_iff. split.
      * intros ([a b] & E & Hab). inversion E; subst. apply Hgf in Hab. exists a, b. tauto.
      * intros (a & b & Hab & Hl & -> & ->). exists (a, b). split; [reflexivity|]. apply Hgf; auto.
Qed.

(* Nothing outside good time is ever selected. *)
Lemma mask_fast_sound time g safe minlen d eps mask new i t :
  create_gti_mask true time g safe minlen (Some d) eps = Ok (mask, new) -> nth_error time i = Some t ->
  nth_error mask i = Some true -> exists a b, In (a, b) g /\ bin_inside t d (eps * d) (a + fst safe) (b - snd safe).
Proof.
  unfold create_gti_mask. destruct time as [|t0 time]; [discriminate|]. destruct g as [|g0 g]; [discriminate|].
  destruct (qlt 0 minlen); [discriminate|]. intros H Ht Hm. apply bind_ok in H. destruct H as ([] & _ & H).
  apply ok_pair_inj in H. destruct H as [<- _]. apply mask_jit_sound in Hm. destruct Hm as (t' & iv & Ht' & Hb & [[C _]|[Hin _]]); [discriminate|].
  rewrite Ht in Ht'. inversion Ht'; subst t'. rewrite map_map in Hin. apply in_map_iff in Hin. destruct Hin as ([a b] & <- & Hab).
  exists a, b. split; [assumption|]. apply inb_true in Hb. simpl in Hb. unfold bin_inside. split; lra.
Qed.

Lemma mask_fast_skips : exists time g mask new t a b,
  (forall i x y, nth_error time i = Some x -> nth_error time (S i) = Some y -> y - x == 1) /\ good g /\
  create_gti_mask true time g (0, 0) 0 (Some 1) (1 # 1000) = Ok (mask, new) /\
  nth_error time 2 = Some t /\ In (a, b) g /\ bin_inside t 1 0 a b /\ nth_error mask 2 = Some false.
Proof.
  exists [1 # 2; 3 # 2; 5 # 2], [(0, 1); (11 # 10, 12 # 10); (13 # 10, 14 # 10); (2, 3)].
  eexists _, _, _. exists 2, 3. split; [|split; [|split; [|split; [|split; [|split]]]]].
  - intros [|[|[|i]]] x y; simpl; intros H1 H2; inversion H1; inversion H2; subst; reflexivity.
  - split; [discriminate|]. split.
    + apply wf2_iff. split; repeat constructor; simpl; try lra.
    + intros a b [E|[E|[E|[E|[]]]]]; inversion E; reflexivity.
  - vm_compute. reflexivity.
  - reflexivity.
  - simpl; tauto.
  - split; vm_compute; discriminate.
  - reflexivity.
Qed.
Lemma mask_minlen_dt numba time g safe minlen d eps : time <> [] -> g <> [] -> 0 < minlen ->
  create_gti_mask numba time g safe minlen (Some d) eps = Err TypeError.
Proof.
  intros Ht Hg Hm. unfold create_gti_mask. destruct time; [congruence|]. destruct g; [congruence|].
  replace (qlt 0 minlen) with true by (symmetry; qb; assumption). reflexivity.
Qed.
Lemma mask_no_numba time g safe minlen d eps : time <> [] -> g <> [] -> well_formed g -> minlen <= 0 ->
  exists mask new, create_gti_mask false time g safe minlen (Some d) eps = Ok (mask, new) /\
    length mask = length time /\
    (forall i t, nth_error time i = Some t ->
       (nth_error mask i = Some true <->
        exists a b, In (a, b) g /\ minlen <= (b - snd safe) - (a + fst safe) /\
                    bin_inside t d (eps * d) (a + fst safe) (b - snd safe))) /\
    (forall x y, In (x, y) new <-> exists a b, In (a, b) g /\ x = a + fst safe /\ y = b - snd safe /\ minlen <= y - x).
Proof.
  intros Nt Ng W Hm. unfold create_gti_mask. destruct time as [|t0 time]; [congruence|]. destruct g as [|g0 g]; [congruence|].
  destruct (qlt 0 minlen) eqn:E; [qb; lra|]. cbn [option_map].
  destruct (mask_complete_main (t0 :: time) (map (fun _ => d) (t0 :: time)) (g0 :: g) safe minlen eps Ng W) as (mask & new & A & B & C & D).
  { apply map_length. }
  exists mask, new. split; [exact A|]. split; [assumption|]. split; [|assumption].
  intros i t Hi. apply C; [assumption|]. rewrite nth_error_map, Hi. reflexivity.
Qed.
Lemma mask_nothing_long numba time g safe minlen eps : time <> [] -> g <> [] -> 0 < minlen ->
  (forall a b, In (a, b) g -> b - a < minlen) ->
  create_gti_mask numba time g safe minlen None eps = Ok (map (fun _ => false) time, []).
Proof.
  intros Nt Ng Hm H. unfold create_gti_mask. destruct time as [|t0 time]; [congruence|]. destruct g as [|g0 g]; [congruence|].
  destruct (qlt 0 minlen) eqn:E; [|qb; lra].
  replace (filter (fun iv : Q * Q => qle minlen (snd iv - fst iv)) (g0 :: g)) with (@nil (Q * Q)); [reflexivity|].
  symmetry. revert H. generalize (g0 :: g). clear. induction l as [|[a b] l IH]; intros H; [reflexivity|]. simpl.
  destruct (qle minlen (b - a)) eqn:E.
  - qb. specialize (H a b (or_introl eq_refl)). lra.
  - apply IH. intros x y Hx. apply H. right; assumption.
Qed.
Lemma mask_complete_default time g safe minlen eps d : median (map (fun x => x / 2) (diffs (np_sort time))) = Some d ->
  create_gti_mask_complete time g safe minlen None eps = create_gti_mask_complete time g safe minlen (Some (map (fun _ => d) time)) eps.
Proof. intros H. unfold create_gti_mask_complete. rewrite H. reflexivity. Qed.
Lemma mask_complete_default_half : exists time g mask new t,
  (forall i x y, nth_error time i = Some x -> nth_error time (S i) = Some y -> y - x == 1) /\ good g /\
  create_gti_mask_complete time g (0, 0) 0 None (1 # 1000) = Ok (mask, new) /\
  nth_error time 1 = Some t /\ nth_error mask 1 = Some true /\ (forall a b, In (a, b) g -> ~ bin_inside t 1 (1 # 1000) a b).
Proof.
  exists [1 # 2; 3 # 2; 5 # 2], [(5 # 4, 3)]. eexists. eexists. eexists. split.
  - intros [|[|[|i]]] x y A B; inversion A; inversion B; reflexivity || (destruct i; discriminate).
  - split; [apply good_dec; reflexivity|]. split; [vm_compute; reflexivity|]. split; [reflexivity|]. split; [reflexivity|].
    intros a b [E|[]]. inversion E; subst. intros [H _]. vm_compute in H. apply H. reflexivity.
Qed.
