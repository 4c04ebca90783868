(* P_mission2.v: channels, energies and calibration of event files *)
From Coq Require Import String Ascii.
From Verif Require Import Np Lib M_utils M_base M_io M_mission S_mission P_mission.
From Coq Require Import ZArith QArith List Bool Lia.
From Coq Require Import Lqa.
Import ListNotations.
Open Scope Z_scope.

(* ---- channels of events ---- *)
Lemma mean_between a b : 0 <= a -> a <= b -> a <= Z.quot (a + b) 2 <= b.
Proof. intros A B. rewrite Z.quot_div_nonneg by lia. split; [apply Z.div_le_lower_bound; lia|apply Z.div_le_upper_bound; lia]. Qed.
Lemma py_get_nat {A} (l : list A) i : py_get l (Z.of_nat i) = get l i.
Proof. unfold py_get. destruct (Z.ltb_spec (Z.of_nat i) 0); [lia|]. now rewrite Nat2Z.id. Qed.
Lemma map_result_len {A B} (f : A -> result B) l r : map_result f l = Ok r -> length r = length l /\ forall i a, nth_error l i = Some a -> exists b, nth_error r i = Some b /\ f a = Ok b.
Proof.
  revert r. induction l as [|a l IH]; intros r H; cbn [map_result] in H.
  - injection H as <-. split; [reflexivity|]. intros [|i] a E; discriminate E.
  - destruct (f a) as [b|] eqn:E; [|discriminate H]. cbn [bind] in H. destruct (map_result f l) as [r'|] eqn:E'; [|discriminate H]. cbn [bind] in H. injection H as <-.
    destruct (IH r' eq_refl) as [L K]. split; [cbn; congruence|]. intros [|i] x X; cbn [nth_error] in *; [injection X as <-; exists b; auto|now apply K].
Qed.
Lemma pha_ok tevtb2 pha out chans : decode_energy_channels tevtb2 = Ok chans -> rxte_pha tevtb2 pha = Ok out ->
  length out = length pha /\
  forall i c, nth_error pha i = Some (Z.of_nat c) -> exists a b, nth_error chans c = Some (a, b) /\ nth_error out i = Some (Z.quot (a + b) 2).
Proof.
  intros D H. unfold rxte_pha in H. rewrite D in H. cbn [bind] in H. destruct (map_result_len _ _ _ H) as [L K]. split; [exact L|]. intros i c E.
  destruct (K i _ E) as (v & V & F). rewrite py_get_nat in F. unfold get, local_chans in F. rewrite nth_error_map in F. destruct (nth_error chans c) as [[a b]|]; [|discriminate F]. cbn in F. injection F as <-. exists a, b. auto.
Qed.
Lemma pha_outside tevtb2 chans c : decode_energy_channels tevtb2 = Ok chans -> (length chans <= c)%nat -> rxte_pha tevtb2 [Z.of_nat c] = Err IndexError.
Proof.
  intros D H. unfold rxte_pha. rewrite D. cbn [bind map_result]. rewrite py_get_nat. unfold get, local_chans. rewrite nth_error_map. apply nth_error_None in H. now rewrite H.
Qed.

(* ---- calibration ---- *)
Definition table_channels : list (Z * Z) := match map_result (fun r => split_chan_spec (fst r) "-") caltable with Ok l => l | Err _ => [] end.
Lemma channels_ok : map_result (fun r => split_chan_spec (fst r) "-") caltable = Ok table_channels.
Proof. vm_compute. reflexivity. Qed.
(* rows that contain a channel, with the value in a column *)
Definition rows_with (rows : list ((Z * Z) * Z)) (c : Z) : list Z := map snd (filter (fun p => (fst (fst p) <=? c) && (c <=? snd (fst p)))%bool rows).
Definition in_rows (k : nat) (c : Z) : list Z := rows_with (combine table_channels (column k)) c.
Definition arr (k : nat) : list Q := energies_of table_channels (column k).
Definition check_array (a : list Q) (rows : list ((Z * Z) * Z)) : bool :=
  (Nat.eqb (length a) 256 && forallb (fun p => match rows_with rows (fst p) with [v] => Qeq_bool (snd p) (inject_Z v / 100) | _ => false end)
     (combine (map Z.of_nat (seq 0 256)) a))%bool.
Lemma arrays_check : forallb (fun k => check_array (arr k) (combine table_channels (column k))) (seq 0 6) = true.
Proof. vm_compute. reflexivity. Qed.
Lemma increasing_check : forallb (fun k => forallb (fun p => Qle_bool (fst p) (snd p)) ((fun a => combine a (tl a)) (arr k))) (seq 0 6) = true.
Proof. vm_compute. reflexivity. Qed.
Lemma arr_eq k : arr k = energies_of table_channels (column k).
Proof. reflexivity. Qed.
Opaque caltable table_channels arr.
Lemma combine_in {A B} (l : list A) (m : list B) i a b : nth_error l i = Some a -> nth_error m i = Some b -> In (a, b) (combine l m).
Proof. revert m i. induction l as [|x l IH]; intros [|y m] [|i] H K; try discriminate; cbn in *; [injection H as <-; injection K as <-; now left|right; eapply IH; eassumption]. Qed.
Lemma arr_value k c : (k < 6)%nat -> (c < 256)%nat -> length (arr k) = 256%nat /\ exists e v, nth_error (arr k) c = Some e /\ in_rows k (Z.of_nat c) = [v] /\ (e == inject_Z v / 100)%Q.
Proof.
  intros K C. pose proof arrays_check as H. rewrite forallb_forall in H. specialize (H k ltac:(apply in_seq; lia)). apply andb_true_iff in H. destruct H as [L H]. apply Nat.eqb_eq in L. split; [exact L|].
  destruct (nth_error (arr k) c) as [e|] eqn:E; [|apply nth_error_None in E; lia]. rewrite forallb_forall in H.
  assert (N : nth_error (map Z.of_nat (seq 0 256)) c = Some (Z.of_nat c)). { apply map_nth_error. rewrite (nth_error_nth' _ 0%nat) by (rewrite seq_length; lia). now rewrite seq_nth. }
  specialize (H _ (combine_in _ _ _ _ _ N E)). cbn [fst snd] in H. unfold in_rows. destruct (rows_with _ _) as [|v [|]]; try discriminate H.
  exists e, v. repeat split. now apply Qeq_bool_iff.
Qed.
Lemma arr_step k c e e' : (k < 6)%nat -> nth_error (arr k) c = Some e -> nth_error (arr k) (S c) = Some e' -> (e <= e')%Q.
Proof.
  intros K E E'. pose proof increasing_check as H. rewrite forallb_forall in H. specialize (H k ltac:(apply in_seq; lia)). rewrite forallb_forall in H.
  assert (T : nth_error (tl (arr k)) c = Some e') by (destruct (arr k); [destruct c; discriminate E|exact E']). specialize (H _ (combine_in _ _ _ _ _ E T)). now apply Qle_bool_iff.
Qed.
Lemma arr_mono k c c' e e' : (k < 6)%nat -> (c <= c')%nat -> nth_error (arr k) c = Some e -> nth_error (arr k) c' = Some e' -> (e <= e')%Q.
Proof.
  intros K L E. revert e'. induction L as [|m L IH]; intros e' E'; [rewrite E in E'; injection E' as <-; apply Qle_refl|].
  destruct (nth_error (arr k) m) as [x|] eqn:X; [|apply nth_error_None in X; assert (nth_error (arr k) (S m) = None) by (apply nth_error_None; lia); congruence].
  apply Qle_trans with x; [now apply IH|eapply arr_step; eassumption].
Qed.
(* column used in an epoch by a detector *)
Definition column_used (i : nat) (detector : Z) : nat := if (detector =? 0) then i else if Nat.eqb i 4 then 5%nat else i.
Lemma epoch_index i a b epoch : (i < 5)%nat -> nth_error edge_epochs i = Some a -> nth_error edge_epochs (S i) = Some b -> (a < epoch)%Q -> (epoch <= b)%Q -> searchsorted_left edge_epochs epoch = S i.
Proof.
  intros I A B LA LB. unfold edge_epochs in *. do 5 (destruct i as [|i]; [cbn [nth_error] in A, B; injection A as <-; injection B as <-; cbn [searchsorted_left]; unfold qlt; 
    repeat (match goal with |- context [Qle_bool ?x ?y] => let E := fresh in destruct (Qle_bool x y) eqn:E; [apply Qle_bool_iff in E; try (exfalso; lra)|] end; cbn [negb]; try reflexivity);
    try reflexivity; match goal with E : Qle_bool ?x ?y = false |- _ => assert (~ (x <= y)%Q) by (intros Q; apply Qle_bool_iff in Q; congruence); exfalso; lra end|]). lia.
Qed.
Lemma pca_arrays_at i a b epoch : (i < 5)%nat -> nth_error edge_epochs i = Some a -> nth_error edge_epochs (S i) = Some b -> (a < epoch)%Q -> (epoch <= b)%Q ->
  pca_arrays epoch = Ok (arr (column_used i 0), arr (column_used i 1)).
Proof.
  intros I A B LA LB. unfold pca_arrays. rewrite channels_ok. cbn [bind]. rewrite (epoch_index i a b epoch) by assumption. rewrite !arr_eq. do 5 (destruct i as [|i]; [cbn [columns_of bind fst snd column_used Z.eqb Nat.eqb]; reflexivity|]). lia.
Qed.
Lemma column_used_det i d : column_used i d = column_used i (if d =? 0 then 0 else 1).
Proof. unfold column_used. destruct (d =? 0); reflexivity. Qed.
Lemma column_used_6 i d : (i < 5)%nat -> (column_used i d < 6)%nat.
Proof. unfold column_used. destruct (d =? 0), (Nat.eqb i 4); lia. Qed.
Lemma energy_at i a b epoch c d : (i < 5)%nat -> nth_error edge_epochs i = Some a -> nth_error edge_epochs (S i) = Some b -> (a < epoch)%Q -> (epoch <= b)%Q -> (c < 256)%nat ->
  exists e text values lo hi, pca_energy epoch (Z.of_nat c) d = Ok e /\ In (text, values) caltable /\ split_chan_spec text "-" = Ok (lo, hi) /\ lo <= Z.of_nat c <= hi /\
    (e == inject_Z (nth (column_used i d) values 0%Z) / 100)%Q /\
    forall text' values' lo' hi', In (text', values') caltable -> split_chan_spec text' "-" = Ok (lo', hi') -> lo' <= Z.of_nat c <= hi' -> nth (column_used i d) values' 0 = nth (column_used i d) values 0.
Proof.
  intros I A B LA LB C. assert (K : (column_used i d < 6)%nat) by now apply column_used_6. set (k := column_used i d) in *.
  destruct (arr_value k c K C) as (L & e & v & E & R & V).
  assert (PE : pca_energy epoch (Z.of_nat c) d = Ok e).
  { unfold pca_energy. rewrite (pca_arrays_at i a b epoch) by assumption. cbn [bind fst snd]. rewrite py_get_nat. unfold get. unfold k in E. rewrite column_used_det in E. destruct (d =? 0); rewrite E; reflexivity. }
  assert (CE : combine table_channels (column k) = map (fun r => (match split_chan_spec (fst r) "-" with Ok p => p | Err _ => (0, 0) end, nth k (snd r) 0)) caltable).
  { unfold column. pose proof channels_ok as O. revert O. generalize table_channels. generalize caltable. induction l as [|r l IH]; intros tc O; cbn [map_result] in O.
    - injection O as <-. reflexivity.
    - destruct (split_chan_spec (fst r) "-") as [p|] eqn:P; [|discriminate O]. cbn [bind] in O. destruct (map_result _ l) as [tc'|] eqn:O'; [|discriminate O]. cbn [bind] in O. injection O as <-. cbn [map combine]. rewrite P. f_equal. now apply IH. }
  unfold in_rows, rows_with in R. rewrite CE in R.
  assert (U : forall text values lo hi, In (text, values) caltable -> split_chan_spec text "-" = Ok (lo, hi) -> lo <= Z.of_nat c <= hi -> nth k values 0 = v).
  { intros text values lo hi IN S B'. assert (IV : In (nth k values 0) [v]). { rewrite <- R. apply in_map_iff. exists ((lo, hi), nth k values 0). split; [reflexivity|]. apply filter_In. split; [apply in_map_iff; exists (text, values); cbn [fst snd]; rewrite S; auto|].
      cbn [fst snd]. apply andb_true_iff. split; apply Z.leb_le; lia. }
    destruct IV as [<-|[]]. reflexivity. }
  assert (IV : In v [v]) by now left. rewrite <- R in IV. apply in_map_iff in IV. destruct IV as (q & Q & IV). apply filter_In in IV. destruct IV as [IV F]. apply in_map_iff in IV. destruct IV as ((text, values) & <- & IN). cbn [fst snd] in *.
  destruct (split_chan_spec text "-") as [[lo hi]|] eqn:S.
  - cbn [fst snd] in F. apply andb_true_iff in F. destruct F as [F1 F2]. apply Z.leb_le in F1, F2. exists e, text, values, lo, hi. rewrite Q. repeat (split; [assumption || (split; assumption)|]). exact U.
  - exfalso. pose proof channels_ok as O. clear -O IN S. revert O IN. generalize table_channels. generalize caltable. induction l as [|r l IH]; intros tc O IN; [destruct IN|destruct IN as [->|IN]].
    + cbn [map_result fst] in O. rewrite S in O. discriminate O.
    + cbn [map_result] in O. destruct (split_chan_spec (fst r) "-"); [|discriminate O]. cbn [bind] in O. destruct (map_result _ l) as [tc'|] eqn:O'; [|discriminate O]. now apply (IH tc').
Qed.
Lemma energy_mono i a b epoch c c' d e e' : (i < 5)%nat -> nth_error edge_epochs i = Some a -> nth_error edge_epochs (S i) = Some b -> (a < epoch)%Q -> (epoch <= b)%Q ->
  (c <= c')%nat -> pca_energy epoch (Z.of_nat c) d = Ok e -> pca_energy epoch (Z.of_nat c') d = Ok e' -> (e <= e')%Q.
Proof.
  intros I A B LA LB L E E'. unfold pca_energy in *. rewrite (pca_arrays_at i a b epoch) in E, E' by assumption. cbn [bind fst snd] in E, E'. rewrite py_get_nat in E, E'. unfold get in E, E'.
  apply (arr_mono (column_used i (if d =? 0 then 0 else 1)) c c'); [now apply column_used_6|exact L| |].
  - destruct (d =? 0); destruct (nth_error _ c); now try injection E as ->.
  - destruct (d =? 0); destruct (nth_error _ c'); now try injection E' as ->.
Qed.
Lemma energy_outside i a b epoch c d : (i < 5)%nat -> nth_error edge_epochs i = Some a -> nth_error edge_epochs (S i) = Some b -> (a < epoch)%Q -> (epoch <= b)%Q ->
  (256 <= c)%nat -> pca_energy epoch (Z.of_nat c) d = Err IndexError.
Proof.
  intros I A B LA LB L. unfold pca_energy. rewrite (pca_arrays_at i a b epoch) by assumption. cbn [bind fst snd]. rewrite py_get_nat. unfold get.
  destruct (arr_value (column_used i (if d =? 0 then 0 else 1)) 0 ltac:(now apply column_used_6) ltac:(lia)) as [N _].
  replace (nth_error (if d =? 0 then arr (column_used i 0) else arr (column_used i 1)) c) with (@None Q); [reflexivity|]. symmetry. apply nth_error_None. destruct (d =? 0); lia.
Qed.
Lemma epoch_outside epoch c d : (epoch <= 72116640 # 1440)%Q \/ (80540640 # 1440 < epoch)%Q -> pca_energy epoch c d = Err KeyError.
Proof.
  intros H. unfold pca_energy, pca_arrays. rewrite channels_ok. cbn [bind].
  assert (E : searchsorted_left edge_epochs epoch = 0%nat \/ searchsorted_left edge_epochs epoch = 6%nat).
  { unfold edge_epochs. cbn [searchsorted_left]. unfold qlt. destruct H as [H|H].
    - left. apply Qle_bool_iff in H. rewrite H. reflexivity.
    - right. repeat (match goal with |- context [Qle_bool ?x ?y] => let E := fresh in destruct (Qle_bool x y) eqn:E; [apply Qle_bool_iff in E; exfalso; lra|] end; cbn [negb]). reflexivity. }
  destruct E as [-> | ->]; reflexivity.
Qed.
Lemma energy_detector i a b epoch c d d' : (i < 4)%nat -> nth_error edge_epochs i = Some a -> nth_error edge_epochs (S i) = Some b -> (a < epoch)%Q -> (epoch <= b)%Q -> pca_energy epoch c d = pca_energy epoch c d'.
Proof.
  intros I A B LA LB. unfold pca_energy. rewrite (pca_arrays_at i a b epoch) by (assumption || lia). cbn [bind fst snd]. replace (column_used i 1) with (column_used i 0); [destruct (d =? 0), (d' =? 0); reflexivity|].
  unfold column_used. cbn. do 4 (destruct i as [|i]; [reflexivity|]). lia.
Qed.
Lemma negative_refuted : exists epoch c e, c < 0 /\ pca_energy epoch c 0 = Ok e.
Proof. exists (50100 # 1)%Q, (-1). eexists. split; [lia|]. vm_compute. reflexivity. Qed.
Lemma first_refuted : exists r, rxte_pha % "(C[0~4]{1},M[1]{1})" [0] = r /\ r = Err ValueError /\ split_C_string % "0~4" "~" = Ok [(0, 4)].
Proof. eexists. split; [reflexivity|]. split; vm_compute; reflexivity. Qed.
Lemma mixed_refuted : exists s, split_C_string s "~" = Err ValueError /\ s = join "," [% "0:3"; % "7"] /\ split_C_string % "0:3" "~" = Ok [(0, 0); (1, 1); (2, 2); (3, 3)] /\ split_C_string % "7" "~" = Ok [(7, 7)].
Proof. exists % "0:3,7". repeat split. Qed.
Lemma third_refuted : exists s, split_chan_spec s "~" = Ok (10, 13) /\ s = % "10~13~15".
Proof. eexists. split; [|reflexivity]. vm_compute. reflexivity. Qed.
Lemma twice_refuted : exists tevtb2 pha once twice, rxte_pha tevtb2 pha = Ok once /\ rxte_pha tevtb2 once = Ok twice /\ once <> twice.
Proof. exists % "(M[1]{1},C[0~3,4~5,6]{6})", [0]. eexists. eexists. split; [vm_compute; reflexivity|]. split; [vm_compute; reflexivity|]. discriminate. Qed.

(* ---- energies of the mean channels ---- *)
Lemma group_energy i a b epoch tevtb2 chans pha out j c d : (i < 5)%nat -> nth_error edge_epochs i = Some a -> nth_error edge_epochs (S i) = Some b -> (a < epoch)%Q -> (epoch <= b)%Q ->
  decode_energy_channels tevtb2 = Ok chans -> (forall lo hi, In (lo, hi) chans -> 0 <= lo <= hi /\ hi < 256) -> rxte_pha tevtb2 pha = Ok out -> nth_error pha j = Some (Z.of_nat c) ->
  exists lo hi m e elo ehi, nth_error chans c = Some (lo, hi) /\ nth_error out j = Some m /\ pca_energy epoch m d = Ok e /\ pca_energy epoch lo d = Ok elo /\ pca_energy epoch hi d = Ok ehi /\ (elo <= e <= ehi)%Q.
Proof.
  intros I A B LA LB D V H P. destruct (pha_ok tevtb2 pha out chans D H) as [_ K]. destruct (K j c P) as (lo & hi & C & O). destruct (V lo hi (nth_error_In _ _ C)) as [[V1 V2] V3].
  pose proof (mean_between lo hi V1 V2) as M. set (m := Z.quot (lo + hi) 2) in *.
  assert (G : forall z, 0 <= z < 256 -> exists e, pca_energy epoch z d = Ok e).
  { intros z Z. destruct (energy_at i a b epoch (Z.to_nat z) d) as (e & _ & _ & _ & _ & E & _); [assumption..|lia|]. rewrite Z2Nat.id in E by lia. now exists e. }
  destruct (G m ltac:(lia)) as [e E]. destruct (G lo ltac:(lia)) as [elo El]. destruct (G hi ltac:(lia)) as [ehi Eh].
  exists lo, hi, m, e, elo, ehi. repeat (split; [assumption|]).
  split.
  - apply (energy_mono i a b epoch (Z.to_nat lo) (Z.to_nat m) d); rewrite ?Z2Nat.id by lia; try assumption; lia.
  - apply (energy_mono i a b epoch (Z.to_nat m) (Z.to_nat hi) d); rewrite ?Z2Nat.id by lia; try assumption; lia.
Qed.
