(* P_lc_cache.v: proofs about the cached properties of Lightcurve. *)
From Verif Require Import Np Lib S_gti S_seg S_utils S_lc M_gti M_seg M_utils M_lc.
From Coq Require Import Lqa.
Open Scope Q_scope.

(* The user's view of a history: last assigned values and times.  Assignments of the wrong length are refused. *)
Record view := mkView { v_time : list Q; v_data : given; v_err : option given; v_mask : list bool }.
Definition fits (v : list Q) (w : view) : bool := Nat.eqb (length v) (length (v_time w)).
Definition see (o : op) (w : view) : view :=
  match o with
  | WrCounts v => if fits v w then mkView (v_time w) (Counts v) (v_err w) (v_mask w) else w
  | WrRate v => if fits v w then mkView (v_time w) (Rates v) (v_err w) (v_mask w) else w
  | WrCountsErr v => if fits v w then mkView (v_time w) (v_data w) (Some (Counts v)) (v_mask w) else w
  | WrRateErr v => if fits v w then mkView (v_time w) (v_data w) (Some (Rates v)) (v_mask w) else w
  | WrTime v => if fits v w then mkView v (v_data w) (v_err w) (v_mask w) else w
  | WrGti m => mkView (v_time w) (v_data w) (v_err w) m
  | _ => w
  end.
Definition see_all (h : list op) (w : view) : view := fold_left (fun w o => see o w) h w.
Definition first_view (time : list Q) (mask : list bool) (input_counts : bool) (values : list Q) (err : option (list Q)) : view :=
  mkView time (if input_counts then Counts values else Rates values)
    (option_map (fun e => if input_counts then Counts e else Rates e) err) mask.

Definition cached {A} (c : option A) (v : A) : Prop := c = None \/ c = Some v.
Definition data_ok (dt : Q) (d : given) (counts rate : option (list Q)) : Prop :=
  match d with
  | Counts c => counts = Some c /\ cached rate (map (fun v => v / dt) c)
  | Rates r => rate = Some r /\ cached counts (map (fun v => v * dt) r)
  end.
Definition inv (dt : Q) (w : view) (s : lcstate) : Prop :=
  st_time s = v_time w /\ st_dt s = dt /\ st_mask s = v_mask w /\ given_length (v_data w) = length (v_time w) /\
  data_ok dt (v_data w) (st_counts s) (st_rate s) /\
  cached (st_bin_lo s) (map (fun t => t - (1 # 2) * dt) (v_time w)) /\
  cached (st_bin_hi s) (map (fun t => t + (1 # 2) * dt) (v_time w)).
Definition inv_err (dt : Q) (w : view) (s : lcstate) : Prop :=
  match v_err w with Some e => data_ok dt e (st_counts_err s) (st_rate_err s) | None => True end.

Lemma get_counts_inv dt w s : inv dt w s ->
  snd (get_counts s) = Some (as_counts dt (v_data w)) /\ inv dt w (fst (get_counts s)) /\
  (forall (P : lcstate -> Prop), (forall c, P (set_counts_cache s c)) -> P s -> P (fst (get_counts s))).
Proof.
  intros (H1 & H2 & H3 & HL & H4 & H5 & H6). unfold get_counts. destruct (v_data w) as [c|r] eqn:D; cbn [data_ok] in H4.
  - destruct H4 as [H4 H4']. rewrite H4. cbn [fst snd as_counts]. split; [reflexivity|]. split; [|intros P _ K; exact K].
    unfold inv. rewrite D. cbn [data_ok]. repeat split; assumption.
  - destruct H4 as [H4 H4']. rewrite H4. destruct H4' as [H4'|H4']; rewrite H4'; cbn [fst snd as_counts]; rewrite ?H2.
    + split; [reflexivity|]. split.
      * destruct (negb (st_low_memory s) || st_input_counts s)%bool; unfold inv; rewrite D; cbn; repeat split; try assumption; [right; reflexivity|left; assumption].
      * intros P K1 K2. destruct (negb (st_low_memory s) || st_input_counts s)%bool; [apply K1|apply K2].
    + split; [reflexivity|]. split; [|intros P _ K; exact K]. unfold inv. rewrite D. cbn. repeat split; try assumption. right. assumption.
Qed.
Lemma get_rate_inv dt w s : inv dt w s ->
  snd (get_countrate s) = Some (as_rates dt (v_data w)) /\ inv dt w (fst (get_countrate s)) /\
  (forall (P : lcstate -> Prop), (forall c, P (set_rate_cache s c)) -> P s -> P (fst (get_countrate s))).
Proof.
  intros (H1 & H2 & H3 & HL & H4 & H5 & H6). unfold get_countrate. destruct (v_data w) as [c|r] eqn:D; cbn [data_ok] in H4.
  - destruct H4 as [H4 H4']. rewrite H4. destruct H4' as [H4'|H4']; rewrite H4'; cbn [fst snd as_rates]; rewrite ?H2.
    + split; [reflexivity|]. split.
      * destruct (negb (st_low_memory s) || negb (st_input_counts s))%bool; unfold inv; rewrite D; cbn; repeat split; try assumption; [right; reflexivity|left; assumption].
      * intros P K1 K2. destruct (negb (st_low_memory s) || negb (st_input_counts s))%bool; [apply K1|apply K2].
    + split; [reflexivity|]. split; [|intros P _ K; exact K]. unfold inv. rewrite D. cbn. repeat split; try assumption. right. assumption.
  - destruct H4 as [H4 H4']. rewrite H4. cbn [fst snd as_rates]. split; [reflexivity|]. split; [|intros P _ K; exact K].
    unfold inv. rewrite D. cbn [data_ok]. repeat split; assumption.
Qed.
Lemma as_counts_len dt d : length (as_counts dt d) = given_length d.
Proof. destruct d; simpl; rewrite ?map_length; reflexivity. Qed.
Lemma as_rates_len dt d : length (as_rates dt d) = given_length d.
Proof. destruct d; simpl; rewrite ?map_length; reflexivity. Qed.

Ltac inv_same H := destruct H as (?H1 & ?H2 & ?H3 & ?HL & ?H4 & ?H5 & ?H6); unfold inv; cbn; repeat split; assumption.

Lemma get_counts_err_same perr s : exists g, (g = s \/ g = fst (get_counts s)) /\
  (fst (get_counts_err perr s) = g \/ exists e, fst (get_counts_err perr s) = set_counts_err_cache g e).
Proof.
  unfold get_counts_err. destruct (st_counts_err s) as [e|]; [exists s; split; left; reflexivity|].
  destruct (st_rate_err s) as [e|]; cbn [fst snd].
  - exists s. split; [left; reflexivity|]. destruct (_ || _)%bool; [right; eexists; reflexivity|left; reflexivity].
  - exists (fst (get_counts s)). split; [right; reflexivity|]. destruct (snd (get_counts s)); cbn [fst snd]; [|left; reflexivity].
    destruct (_ || _)%bool; [right; eexists; reflexivity|left; reflexivity].
Qed.

Lemma step_inv perr dt o w s : inv dt w s -> inv dt (see o w) (step perr o s).
Proof.
  intros H. destruct (get_counts_inv dt w s H) as (C1 & C2 & C3). destruct (get_rate_inv dt w s H) as (R1 & R2 & R3).
  destruct o; cbn [see step].
  - exact C2.
  - exact R2.
  - destruct (get_counts_err_same perr s) as (g & Hg & E). assert (Hinv : inv dt w g) by (destruct Hg; subst; assumption).
    destruct E as [ -> |(e & ->)]; [assumption|inv_same Hinv].
  - unfold get_countrate_err. destruct (st_rate_err s); [exact H|]. cbn [fst]. destruct (_ || _)%bool; [inv_same H|exact H].
  - unfold get_meanrate. destruct (st_meanrate s); [exact H|]. destruct (snd (get_countrate s)); cbn [fst]; [inv_same R2|exact R2].
  - unfold get_meancounts. destruct (st_meancounts s); [exact H|]. destruct (snd (get_counts s)); cbn [fst]; [inv_same C2|exact C2].
  - unfold get_bin_lo. destruct (st_bin_lo s) eqn:E; [exact H|]. cbn [fst]. destruct H as (H1 & H2 & H3 & HL & H4 & H5 & H6).
    unfold inv; cbn; repeat split; try assumption. right. rewrite H1, H2. reflexivity.
  - unfold get_bin_hi. destruct (st_bin_hi s) eqn:E; [exact H|]. cbn [fst]. destruct H as (H1 & H2 & H3 & HL & H4 & H5 & H6).
    unfold inv; cbn; repeat split; try assumption. right. rewrite H1, H2. reflexivity.
  - destruct H as (H1 & H2 & H3 & HL & H4 & H5 & H6). unfold set_counts, fits, same_length. rewrite H1.
    destruct (length v =? length (v_time w))%nat eqn:E; cbn [fst]; [|unfold inv; repeat split; assumption].
    apply Nat.eqb_eq in E. unfold inv; cbn; repeat split; try assumption. left. reflexivity.
  - destruct H as (H1 & H2 & H3 & HL & H4 & H5 & H6). unfold set_countrate, fits, same_length. rewrite H1.
    destruct (length v =? length (v_time w))%nat eqn:E; cbn [fst]; [|unfold inv; repeat split; assumption].
    apply Nat.eqb_eq in E. unfold inv; cbn; repeat split; try assumption. left. reflexivity.
  - unfold set_counts_err. rewrite C1. unfold same_length, fits. rewrite as_counts_len.
    replace (given_length (v_data w)) with (length (v_time w)) by (destruct H as (_ & _ & _ & L & _); congruence).
    destruct (length v =? length (v_time w))%nat; [|exact C2]. cbn [fst]. inv_same C2.
  - unfold set_countrate_err. rewrite R1. unfold same_length, fits. rewrite as_rates_len.
    replace (given_length (v_data w)) with (length (v_time w)) by (destruct H as (_ & _ & _ & L & _); congruence).
    destruct (length v =? length (v_time w))%nat; [|exact R2]. cbn [fst]. inv_same R2.
  - destruct H as (H1 & H2 & H3 & HL & H4 & H5 & H6). unfold set_time, fits, same_length. rewrite H1.
    destruct (length v =? length (v_time w))%nat eqn:E; cbn [fst]; [|unfold inv; repeat split; assumption].
    apply Nat.eqb_eq in E. unfold inv; cbn; repeat split; try assumption; try congruence; try (left; reflexivity).
  - inv_same H.
Qed.
Lemma run_inv perr dt h : forall w s, inv dt w s -> inv dt (see_all h w) (run perr h s).
Proof. induction h as [|o h IH]; intros w s H; [exact H|]. apply IH. apply step_inv. exact H. Qed.
Lemma fresh_inv time dt mask lm po ic values err : length values = length time ->
  inv dt (first_view time mask ic values err) (fresh time dt mask lm po ic values err).
Proof.
  intros L. unfold first_view, fresh. destruct ic; unfold inv; cbn; repeat split; try assumption; left; reflexivity.
Qed.

(* Values and bin edges always follow the last assignment. *)
Lemma cache_values perr h time dt mask lm po ic values err : length values = length time ->
  let s := run perr h (fresh time dt mask lm po ic values err) in
  let w := see_all h (first_view time mask ic values err) in
  snd (get_counts s) = Some (as_counts dt (v_data w)) /\ snd (get_countrate s) = Some (as_rates dt (v_data w)) /\
  snd (get_bin_lo s) = map (fun t => t - (1 # 2) * dt) (v_time w) /\
  snd (get_bin_hi s) = map (fun t => t + (1 # 2) * dt) (v_time w) /\ st_time s = v_time w.
Proof.
  intros L s w. assert (H : inv dt w s) by (apply run_inv, fresh_inv; assumption).
  split; [apply get_counts_inv; assumption|]. split; [apply get_rate_inv; assumption|].
  destruct H as (H1 & H2 & H3 & HL & H4 & H5 & H6). repeat split; [| |assumption].
  - unfold get_bin_lo. destruct H5 as [H5|H5]; rewrite H5; cbn [snd]; [rewrite H1, H2|]; reflexivity.
  - unfold get_bin_hi. destruct H6 as [H6|H6]; rewrite H6; cbn [snd]; [rewrite H1, H2|]; reflexivity.
Qed.

(* meancounts, as long as times and GTIs stay. *)
Definition keeps_gti (o : op) : bool := match o with WrGti _ | WrTime _ => false | _ => true end.
Definition inv_mc (dt : Q) (w : view) (s : lcstate) : Prop := cached (st_meancounts s) (mean (select (as_counts dt (v_data w)) (v_mask w))).
Lemma get_counts_mc s : st_meancounts (fst (get_counts s)) = st_meancounts s /\ st_meanrate (fst (get_counts s)) = st_meanrate s.
Proof. unfold get_counts. destruct (st_counts s), (st_rate s); cbn [fst]; try (split; reflexivity). destruct (_ || _)%bool; split; reflexivity. Qed.
Lemma get_rate_mc s : st_meancounts (fst (get_countrate s)) = st_meancounts s /\ st_meanrate (fst (get_countrate s)) = st_meanrate s.
Proof. unfold get_countrate. destruct (st_counts s), (st_rate s); cbn [fst]; try (split; reflexivity). destruct (_ || _)%bool; split; reflexivity. Qed.
Lemma step_mc perr dt o w s : keeps_gti o = true -> inv dt w s -> inv_mc dt w s -> inv_mc dt (see o w) (step perr o s).
Proof.
  intros K H M. destruct (get_counts_inv dt w s H) as (C1 & C2 & C3). destruct (get_rate_inv dt w s H) as (R1 & R2 & R3).
  destruct (get_counts_mc s) as [GC GC']. destruct (get_rate_mc s) as [GR GR']. unfold inv_mc in *.
  destruct o; cbn [see step]; try discriminate.
  - rewrite GC. exact M.
  - rewrite GR. exact M.
  - destruct (get_counts_err_same perr s) as (g & Hg & E). assert (Hm : st_meancounts g = st_meancounts s) by (destruct Hg; subst; [reflexivity|exact GC]).
    destruct E as [ -> |(e & ->)]; cbn [set_counts_err_cache st_meancounts]; rewrite Hm; exact M.
  - unfold get_countrate_err. destruct (st_rate_err s); [exact M|]. cbn [fst]. destruct (_ || _)%bool; exact M.
  - unfold get_meanrate. destruct (st_meanrate s); [exact M|]. destruct (snd (get_countrate s)); cbn [fst set_means st_meancounts]; rewrite GR; exact M.
  - unfold get_meancounts. destruct (st_meancounts s) eqn:E; [cbn [fst]; rewrite E; exact M|]. rewrite C1. cbn [fst set_means st_meancounts].
    right. f_equal. f_equal. f_equal. destruct H as (_ & _ & H3 & _). assumption.
  - unfold get_bin_lo. destruct (st_bin_lo s); exact M.
  - unfold get_bin_hi. destruct (st_bin_hi s); exact M.
  - destruct H as (H1 & H2 & H3 & HL & H4 & H5 & H6). unfold set_counts, fits, same_length. rewrite H1.
    destruct (length v =? length (v_time w))%nat eqn:E; cbn [fst]; [left; reflexivity|exact M].
  - destruct H as (H1 & H2 & H3 & HL & H4 & H5 & H6). unfold set_countrate, fits, same_length. rewrite H1.
    destruct (length v =? length (v_time w))%nat eqn:E; cbn [fst]; [left; reflexivity|exact M].
  - unfold set_counts_err. rewrite C1. destruct (same_length _ _); destruct (fits _ _); cbn [fst set_rate_err_cache set_counts_err_cache st_meancounts v_data v_mask]; rewrite GC; exact M.
  - unfold set_countrate_err. rewrite R1. destruct (same_length _ _); destruct (fits _ _); cbn [fst set_rate_err_cache set_counts_err_cache st_meancounts v_data v_mask]; rewrite GR; exact M.
Qed.
Lemma run_mc perr dt h : forallb keeps_gti h = true -> forall w s, inv dt w s -> inv_mc dt w s ->
  inv dt (see_all h w) (run perr h s) /\ inv_mc dt (see_all h w) (run perr h s).
Proof.
  induction h as [|o h IH]; intros K w s H M; [split; assumption|]. simpl in K. apply andb_true_iff in K. destruct K as [K1 K2].
  apply (IH K2); [apply step_inv; assumption|apply step_mc; assumption].
Qed.
Lemma qsum_sum l : qsum l = sum_of l.
Proof. induction l as [|a l IH]; [reflexivity|]. simpl. rewrite <- IH. reflexivity. Qed.
Lemma mean_average l : average_is l (mean l).
Proof.
  unfold average_is, mean. rewrite qsum_sum. destruct l as [|a l]; [reflexivity|]. field.
  intros E. assert (K : inject_Z (Z.of_nat (length (a :: l))) == inject_Z 0) by exact E.
  rewrite inject_Z_injective in K. simpl length in K. lia.
Qed.
Lemma cache_meancounts perr h time dt mask lm po ic values err : length values = length time ->
  forallb keeps_gti h = true ->
  let s := run perr h (fresh time dt mask lm po ic values err) in
  let w := see_all h (first_view time mask ic values err) in
  exists m, snd (get_meancounts s) = Ok m /\ average_is (select (as_counts dt (v_data w)) mask) m.
Proof.
  intros L K s w. assert (Hm : v_mask w = mask).
  { unfold w. assert (G : forall h w, forallb keeps_gti h = true -> v_mask (see_all h w) = v_mask w).
    { clear. induction h as [|o h IH]; intros w K; [reflexivity|]. simpl in K. apply andb_true_iff in K. destruct K as [K1 K2].
      change (see_all (o :: h) w) with (see_all h (see o w)). rewrite IH by assumption. destruct o; try discriminate; cbn [see]; try reflexivity; destruct (fits _ _); reflexivity. }
    rewrite G by assumption. reflexivity. }
  assert (H : inv dt w s /\ inv_mc dt w s).
  { apply run_mc; [assumption|apply fresh_inv; assumption|]. left. unfold fresh. destruct ic; reflexivity. }
  destruct H as [H M]. destruct (get_counts_inv dt w s H) as (C1 & _). exists (mean (select (as_counts dt (v_data w)) mask)).
  split; [|apply mean_average]. unfold get_meancounts. unfold inv_mc in M. rewrite Hm in M.
  destruct M as [M|M]; rewrite M; [|reflexivity]. rewrite C1. cbn [snd].
  replace (st_mask s) with mask; [reflexivity|]. destruct H as (_ & _ & H3 & _). congruence.
Qed.

(* Errors given by the user. *)
Lemma get_counts_errs s : st_counts_err (fst (get_counts s)) = st_counts_err s /\ st_rate_err (fst (get_counts s)) = st_rate_err s.
Proof. unfold get_counts. destruct (st_counts s), (st_rate s); cbn [fst]; try (split; reflexivity). destruct (_ || _)%bool; split; reflexivity. Qed.
Lemma get_rate_errs s : st_counts_err (fst (get_countrate s)) = st_counts_err s /\ st_rate_err (fst (get_countrate s)) = st_rate_err s.
Proof. unfold get_countrate. destruct (st_counts s), (st_rate s); cbn [fst]; try (split; reflexivity). destruct (_ || _)%bool; split; reflexivity. Qed.
Lemma get_meanrate_errs s : st_counts_err (fst (get_meanrate s)) = st_counts_err s /\ st_rate_err (fst (get_meanrate s)) = st_rate_err s.
Proof. unfold get_meanrate. destruct (st_meanrate s); [split; reflexivity|]. destruct (get_rate_errs s). destruct (snd (get_countrate s)); split; assumption. Qed.
Lemma get_meancounts_errs s : st_counts_err (fst (get_meancounts s)) = st_counts_err s /\ st_rate_err (fst (get_meancounts s)) = st_rate_err s.
Proof. unfold get_meancounts. destruct (st_meancounts s); [split; reflexivity|]. destruct (get_counts_errs s). destruct (snd (get_counts s)); split; assumption. Qed.
Lemma get_counts_err_ok perr dt e s : st_dt s = dt -> data_ok dt e (st_counts_err s) (st_rate_err s) ->
  snd (get_counts_err perr s) = Ok (as_counts dt e) /\
  data_ok dt e (st_counts_err (fst (get_counts_err perr s))) (st_rate_err (fst (get_counts_err perr s))).
Proof.
  intros Hd H. unfold get_counts_err. destruct e as [c|r]; cbn [data_ok as_counts] in *.
  - destruct H as [H1 H2]. rewrite H1. cbn [fst snd]. repeat split; assumption.
  - destruct H as [H1 [H2|H2]]; rewrite H2; rewrite ?H1; cbn [fst snd]; rewrite ?Hd.
    + split; [reflexivity|]. destruct (_ || _)%bool; cbn; rewrite ?H1, ?H2; split; try reflexivity; [right|left]; reflexivity.
    + split; [reflexivity|]. rewrite H1, H2. split; [reflexivity|right; reflexivity].
Qed.
Lemma get_rate_err_ok dt e s : st_dt s = dt -> data_ok dt e (st_counts_err s) (st_rate_err s) ->
  snd (get_countrate_err s) = as_rates dt e /\
  data_ok dt e (st_counts_err (fst (get_countrate_err s))) (st_rate_err (fst (get_countrate_err s))).
Proof.
  intros Hd H. unfold get_countrate_err. destruct e as [c|r]; cbn [data_ok as_rates] in *.
  - destruct H as [H1 [H2|H2]]; rewrite H2; rewrite ?H1; cbn [fst snd]; rewrite ?Hd.
    + split; [reflexivity|]. destruct (_ || _)%bool; cbn; rewrite ?H1, ?H2; split; try reflexivity; [right|left]; reflexivity.
    + split; [reflexivity|]. rewrite H1, H2. split; [reflexivity|right; reflexivity].
  - destruct H as [H1 H2]. rewrite H1. cbn [fst snd]. repeat split; assumption.
Qed.
Lemma step_err perr dt o w s : inv dt w s -> inv_err dt w s -> inv_err dt (see o w) (step perr o s).
Proof.
  intros H M. destruct (get_counts_inv dt w s H) as (C1 & C2 & C3). destruct (get_rate_inv dt w s H) as (R1 & R2 & R3).
  assert (Hd : st_dt s = dt) by (destruct H as (_ & H2 & _); exact H2).
  assert (HL : given_length (v_data w) = length (v_time w)) by (destruct H as (_ & _ & _ & HL & _); exact HL).
  assert (Ht : st_time s = v_time w) by (destruct H as (H1 & _); exact H1).
  destruct (get_counts_errs s) as [GC GC']. destruct (get_rate_errs s) as [GR GR']. unfold inv_err in *.
  destruct o; cbn [see step].
  - rewrite GC, GC'. exact M.
  - rewrite GR, GR'. exact M.
  - destruct (v_err w); [|exact I]. apply (get_counts_err_ok perr dt g s Hd M).
  - destruct (v_err w); [|exact I]. apply (get_rate_err_ok dt g s Hd M).
  - destruct (get_meanrate_errs s) as [-> ->]. exact M.
  - destruct (get_meancounts_errs s) as [-> ->]. exact M.
  - unfold get_bin_lo. destruct (st_bin_lo s); exact M.
  - unfold get_bin_hi. destruct (st_bin_hi s); exact M.
  - unfold set_counts. destruct (same_length v (st_time s)), (fits v w); cbn; exact M.
  - unfold set_countrate. destruct (same_length v (st_time s)), (fits v w); cbn; exact M.
  - unfold set_counts_err. rewrite C1. unfold same_length, fits. rewrite as_counts_len, HL.
    destruct (length v =? length (v_time w))%nat; cbn [fst v_err]; [|rewrite GC, GC'; exact M].
    cbn. split; [reflexivity|left; reflexivity].
  - unfold set_countrate_err. rewrite R1. unfold same_length, fits. rewrite as_rates_len, HL.
    destruct (length v =? length (v_time w))%nat; cbn [fst v_err]; [|rewrite GR, GR'; exact M].
    cbn. split; [reflexivity|left; reflexivity].
  - unfold set_time. destruct (same_length v (st_time s)), (fits v w); cbn; exact M.
  - exact M.
Qed.
Lemma run_err perr dt h : forall w s, inv dt w s -> inv_err dt w s -> inv dt (see_all h w) (run perr h s) /\ inv_err dt (see_all h w) (run perr h s).
Proof. induction h as [|o h IH]; intros w s H M; [split; assumption|]. apply IH; [apply step_inv; exact H|apply step_err; assumption]. Qed.
Lemma cache_errors perr h time dt mask lm po ic values err e : length values = length time ->
  let s := run perr h (fresh time dt mask lm po ic values err) in
  let w := see_all h (first_view time mask ic values err) in
  v_err w = Some e -> snd (get_counts_err perr s) = Ok (as_counts dt e) /\ snd (get_countrate_err s) = as_rates dt e.
Proof.
  intros L s w He. assert (H : inv dt w s /\ inv_err dt w s).
  { apply run_err; [apply fresh_inv; assumption|]. unfold inv_err, first_view, fresh. destruct err as [er|]; [|exact I].
    destruct ic; cbn; split; try reflexivity; left; reflexivity. }
  destruct H as [H M]. unfold inv_err in M. rewrite He in M. assert (Hd : st_dt s = dt) by (destruct H as (_ & H2 & _); exact H2).
  split; [apply (get_counts_err_ok perr dt e s Hd M)|apply (get_rate_err_ok dt e s Hd M)].
Qed.

(* meanrate: only while values, times and GTIs stay. *)
Definition keeps_all (o : op) : bool := match o with WrGti _ | WrTime _ | WrCounts _ | WrRate _ => false | _ => true end.
Definition inv_mr (dt : Q) (w : view) (s : lcstate) : Prop := cached (st_meanrate s) (mean (select (as_rates dt (v_data w)) (v_mask w))).
Lemma step_mr perr dt o w s : keeps_all o = true -> inv dt w s -> inv_mr dt w s -> inv_mr dt (see o w) (step perr o s).
Proof.
  intros K H M. destruct (get_counts_inv dt w s H) as (C1 & C2 & C3). destruct (get_rate_inv dt w s H) as (R1 & R2 & R3).
  destruct (get_counts_mc s) as [GC GC']. destruct (get_rate_mc s) as [GR GR']. unfold inv_mr in *.
  destruct o; cbn [see step]; try discriminate.
  - rewrite GC'. exact M.
  - rewrite GR'. exact M.
  - destruct (get_counts_err_same perr s) as (g & Hg & E). assert (Hm : st_meanrate g = st_meanrate s) by (destruct Hg; subst; [reflexivity|exact GC']).
    destruct E as [ -> |(e & ->)]; cbn [set_counts_err_cache st_meanrate]; rewrite Hm; exact M.
  - unfold get_countrate_err. destruct (st_rate_err s); [exact M|]. cbn [fst]. destruct (_ || _)%bool; exact M.
  - unfold get_meanrate. destruct (st_meanrate s) eqn:E; [cbn [fst]; rewrite E; exact M|]. rewrite R1. cbn [fst set_means st_meanrate].
    right. f_equal. f_equal. f_equal. destruct H as (_ & _ & H3 & _). assumption.
  - unfold get_meancounts. destruct (st_meancounts s); [exact M|]. destruct (snd (get_counts s)); cbn [fst set_means st_meanrate]; rewrite GC'; exact M.
  - unfold get_bin_lo. destruct (st_bin_lo s); exact M.
  - unfold get_bin_hi. destruct (st_bin_hi s); exact M.
  - unfold set_counts_err. rewrite C1. destruct (same_length _ _); destruct (fits _ _); cbn [fst set_rate_err_cache set_counts_err_cache st_meanrate v_data v_mask]; rewrite GC'; exact M.
  - unfold set_countrate_err. rewrite R1. destruct (same_length _ _); destruct (fits _ _); cbn [fst set_rate_err_cache set_counts_err_cache st_meanrate v_data v_mask]; rewrite GR'; exact M.
Qed.
Lemma keeps_view h : forallb keeps_all h = true -> forall w, v_data (see_all h w) = v_data w /\ v_mask (see_all h w) = v_mask w.
Proof.
  induction h as [|o h IH]; intros K w; [split; reflexivity|]. simpl in K. apply andb_true_iff in K. destruct K as [K1 K2].
  change (see_all (o :: h) w) with (see_all h (see o w)). destruct (IH K2 (see o w)) as [-> ->].
  destruct o; try discriminate; cbn [see]; try (split; reflexivity); destruct (fits _ _); split; reflexivity.
Qed.
Lemma cache_meanrate perr h time dt mask lm po ic values err : length values = length time ->
  forallb keeps_all h = true ->
  let s := run perr h (fresh time dt mask lm po ic values err) in
  exists m, snd (get_meanrate s) = Ok m /\ average_is (select (as_rates dt (if ic then Counts values else Rates values)) mask) m.
Proof.
  intros L K s. set (w0 := first_view time mask ic values err).
  assert (H : inv dt (see_all h w0) s /\ inv_mr dt (see_all h w0) s).
  { unfold s. assert (G : forall h w s, forallb keeps_all h = true -> inv dt w s -> inv_mr dt w s -> inv dt (see_all h w) (run perr h s) /\ inv_mr dt (see_all h w) (run perr h s)).
    { clear. induction h as [|o h IH]; intros w s K H M; [split; assumption|]. simpl in K. apply andb_true_iff in K. destruct K as [K1 K2].
      apply IH; [assumption|apply step_inv; assumption|apply step_mr; assumption]. }
    apply G; [assumption|apply fresh_inv; assumption|]. left. unfold fresh. destruct ic; reflexivity. }
  destruct (keeps_view h K w0) as [E1 E2]. destruct H as [H M]. destruct (get_rate_inv dt (see_all h w0) s H) as (R1 & _).
  unfold inv_mr in M. rewrite E1, E2 in M. rewrite E1 in R1. cbn [w0 first_view v_data v_mask] in M, R1.
  eexists. split; [|apply mean_average]. unfold get_meanrate. destruct M as [M|M]; rewrite M; [|reflexivity]. rewrite R1. cbn [snd].
  replace (st_mask s) with mask; [reflexivity|]. destruct H as (_ & _ & H3 & _). rewrite H3, E2. reflexivity.
Qed.

(* Reading never changes what the other properties show, but: *)
(* ... assigning counts leaves the old mean rate *)
Lemma meanrate_stale : exists perr time values new m r,
  let s := run perr [RdMeanRate; WrCounts new] (fresh time 1 [true; true] false true true values None) in
  snd (get_meanrate s) = Ok m /\ snd (get_countrate s) = Some r /\ ~ average_is (select r [true; true]) m.
Proof.
  exists (fun l => l), [0; 1], [2; 2], [4; 4]. do 2 eexists. split; [vm_compute; reflexivity|]. split; [vm_compute; reflexivity|].
  vm_compute. discriminate.
Qed.
(* ... and so does changing the GTIs, for both means *)
Lemma means_stale_gti : exists perr time values m m',
  let s := run perr [RdMeanRate; RdMeanCounts; WrGti [true; false]] (fresh time 1 [true; true] false true true values None) in
  snd (get_meanrate s) = Ok m /\ snd (get_meancounts s) = Ok m' /\
  ~ average_is (select values [true; false]) m /\ ~ average_is (select values [true; false]) m'.
Proof.
  exists (fun l => l), [0; 1], [2; 4]. do 2 eexists. split; [vm_compute; reflexivity|]. split; [vm_compute; reflexivity|].
  split; vm_compute; discriminate.
Qed.
(* ... errors derived from old counts survive an assignment of new counts *)
Lemma counts_err_stale : exists perr time values new e,
  let s := run perr [RdCountsErr; WrCounts new] (fresh time 1 [true; true] false true true values None) in
  snd (get_counts_err perr s) = Ok e /\ e = perr values /\ perr values <> perr new /\
  snd (get_counts s) = Some new.
Proof.
  exists (fun l => l), [0; 1], [2; 2], [4; 4]. eexists. split; [vm_compute; reflexivity|]. split; [reflexivity|]. split; [discriminate|reflexivity].
Qed.
(* ... and the order of two reads changes their values: countrate_err first makes both errors zero. *)
Lemma rate_err_first : exists perr time values,
  let s0 := fresh time 1 [true; true] false true true values None in
  snd (get_counts_err perr s0) = Ok (perr values) /\
  snd (get_counts_err perr (run perr [RdRateErr] s0)) = Ok [0; 0] /\ perr values <> [0; 0] /\
  snd (get_countrate_err s0) = [0; 0] /\ snd (get_countrate_err (run perr [RdCountsErr] s0)) <> [0; 0].
Proof. exists (fun l => l), [0; 1], [2; 2]. repeat split; try (vm_compute; discriminate). Qed.
