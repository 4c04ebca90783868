(* P_covar5.v: spectra of event lists; bands from the energies; what goes wrong. *)
From Coq Require Import Reals Qreals.
From Verif Require Import Np Lib S_gti S_seg S_utils S_lc M_gti M_seg M_utils M_lc M_exvar M_covar Cplx S_covar P_exvar P_lc_make P_helpers P_segan P_covar P_covar2 P_covar3 P_covar4.
From Coq Require Import QArith List Bool Arith Lqa Lia Permutation Sorting.Sorted.
Import ListNotations.
Open Scope Q_scope.

Lemma count_perm {A} (p : A -> bool) l l' : Permutation l l' -> count p l = count p l'.
Proof. induction 1; cbn [count]; lia. Qed.
Lemma curve_perm rows rows' s dt n lc : Permutation rows rows' -> curve_of rows s dt n lc -> curve_of rows' s dt n lc.
Proof.
  intros P (B & D & T & C). split; [exact B|]. split; [exact D|]. split; [exact T|]. intros i Hi. rewrite (C i Hi). unfold hits. rewrite (count_perm _ _ _ (Permutation_map fst P)), (count_perm _ _ _ (Permutation_map snd P)). reflexivity.
Qed.
Lemma filter_perm {A} (p : A -> bool) l l' : Permutation l l' -> Permutation (filter p l) (filter p l').
Proof. induction 1; cbn [filter]; [constructor|destruct (p x); [now constructor|assumption]|destruct (p x), (p y); try apply perm_swap; apply Permutation_refl|eapply Permutation_trans; eassumption]. Qed.
Lemma smallest_perm l l' m : Permutation l l' -> smallest l m -> smallest l' m.
Proof. intros P [I H]. split; [now apply (Permutation_in m P)|]. intros e E. apply H. now apply (Permutation_in e (Permutation_sym P)). Qed.
Lemma largest_perm l l' m : Permutation l l' -> largest l m -> largest l' m.
Proof. intros P [I H]. split; [now apply (Permutation_in m P)|]. intros e E. apply H. now apply (Permutation_in e (Permutation_sym P)). Qed.
Lemma events_spectrum argsort data dt bands std n s e lo hi blo bhi : (forall l, Permutation (argsort l) l) -> 0 < dt -> (2 <= n)%nat ->
  smallest (map fst data) s -> largest (map fst data) e -> whole_bins n dt (e - s) ->
  smallest (map snd data) lo -> largest (map snd data) hi -> smallest (map fst bands) blo -> largest (map snd bands) bhi -> blo < hi -> lo < bhi ->
  exists sp lcs refs s', covariancespectrum argsort (Events data) (Some dt) (Some bands) RefNothing std = Ok sp /\ s' == s /\ length lcs = length bands /\ rows_ok std 1 n lcs refs sp /\
    forall i, (i < length bands)%nat -> curve_of (filter (in_band (nth i bands (0, 0))) data) s' dt n (nth i lcs nothing) /\ curve_of (outside_band (nth i bands (0, 0)) data) s' dt n (refs i).
Proof.
  intros HS Hdt Hn Sm La W Sl Lh Bl Bh D1 D2. unfold covariancespectrum, prepare.
  assert (NE : data <> []) by (intros ->; destruct Sm as [[] _]). assert (NB : bands <> []) by (intros ->; destruct Bl as [[] _]).
  destruct data as [|p data]; [contradiction|]. cbn [get nth_error bind]. set (D := p :: data) in *. destruct bands as [|b bands]; [contradiction|]. cbn [bind]. set (B := b :: bands) in *.
  assert (Z : qeq dt 0 = false). { destruct (qeq dt 0) eqn:E; [|reflexivity]. apply qeq_t in E. lra. }
  rewrite Z. cbn [bind]. set (D' := if sorted_rows D then D else argsort D). assert (P : Permutation D D') by (unfold D'; destruct (sorted_rows D); [apply Permutation_refl|apply Permutation_sym, HS]).
  destruct (make_lightcurves_ok D' B dt n s e Hdt) as (lcs & s' & len & M & Es & El & Ll & C).
  { intros E. rewrite E in P. apply Permutation_sym, Permutation_nil in P. discriminate P. }
  { apply (smallest_perm _ _ _ (Permutation_map fst P)), Sm. }
  { apply (largest_perm _ _ _ (Permutation_map fst P)), La. }
  { exact W. }
  rewrite M. cbn [bind fst snd]. assert (W' : whole_bins n dt len) by (unfold whole_bins in *; rewrite El; exact W).
  destruct (reference_events_ok D' B dt s' len n lo hi blo bhi Hdt W') as [_ R]; [apply (smallest_perm _ _ _ (Permutation_map snd P)), Sl|apply (largest_perm _ _ _ (Permutation_map snd P)), Lh|exact Bl|exact Bh|].
  destruct (R D1 D2) as (l & E & L & K). rewrite E. cbn [bind fst snd].
  assert (F : Forall (S_covar.bins n) lcs) by (apply Forall_forall; intros lc I; destruct (In_nth lcs lc nothing I) as (i & Hi & X); rewrite <- X; apply C; lia).
  assert (Fl : Forall (S_covar.bins n) l) by (apply Forall_forall; intros lc I; destruct (In_nth l lc nothing I) as (i & Hi & X); rewrite <- X; apply K; lia).
  destruct (construct_ok std lcs (RefList l) n Hn F) as (sp & Y & RO); [split; [congruence|exact Fl]|]. exists sp, lcs, (fun i => nth i l nothing), s'. split; [exact Y|]. split; [exact Es|]. split; [exact Ll|]. split; [exact RO|].
  intros i Hi. split.
  - apply (curve_perm (filter (in_band (nth i B (0, 0))) D')); [apply filter_perm, Permutation_sym, P|now apply C].
  - apply (curve_perm (outside_band (nth i B (0, 0)) D')); [|now apply K]. unfold outside_band. apply Permutation_app; apply filter_perm, Permutation_sym, P.
Qed.

(* ---- bands from the energies ---- *)
Lemma dedup_spec l : StronglySorted Qle l -> StronglySorted Qlt (dedup l) /\ (forall u, In u (dedup l) -> In u l) /\ (forall e, In e l -> exists u, In u (dedup l) /\ u == e).
Proof.
  induction 1 as [|a l S IH F]; [split; [constructor|]; split; [intros u []|intros e []]|]. destruct IH as (I1 & I2 & I3). destruct l as [|b l].
  - cbn [dedup]. split; [repeat constructor|]. split; [auto|]. intros e [<-|[]]. exists a. split; [now left|reflexivity].
  - change (dedup (a :: b :: l)) with (if qeq a b then dedup (b :: l) else a :: dedup (b :: l)). destruct (qeq a b) eqn:E.
    + apply qeq_t in E. split; [exact I1|]. split; [intros u U; right; now apply I2|]. intros e [<-|X]; [|now apply I3]. destruct (I3 b (or_introl eq_refl)) as (u & U & V). exists u. split; [exact U|]. rewrite V. symmetry. exact E.
    + assert (N : ~ a == b) by (intros X; apply qeq_t in X; congruence). assert (AB : a < b). { rewrite Forall_forall in F. specialize (F b (or_introl eq_refl)). destruct (Qlt_le_dec a b) as [X|X]; [exact X|exfalso; apply N; apply Qle_antisym; assumption]. }
      split; [|split].
      * constructor; [exact I1|]. apply Forall_forall. intros u U. apply I2 in U. apply (Qlt_le_trans _ b); [exact AB|]. destruct U as [<-|U]; [apply Qle_refl|]. inversion S as [|? ? ? G]; subst. rewrite Forall_forall in G. now apply G.
      * intros u [<-|U]; [now left|right; now apply I2].
      * intros e [<-|X]; [exists a; split; [now left|reflexivity]|]. destruct (I3 e X) as (u & U & V). exists u. split; [now right|exact V].
Qed.
Lemma unique_ok energies : levels energies (np_unique energies).
Proof.
  unfold np_unique, levels. assert (S : StronglySorted Qle (np_sort energies)) by (apply (isort_by_sorted (fun x => x))). destruct (dedup_spec _ S) as (A & B & C). assert (P : Permutation (np_sort energies) energies) by apply isort_by_perm.
  split; [exact A|]. split; [intros u U; apply (Permutation_in u P); now apply B|]. intros e E. apply C. now apply (Permutation_in e (Permutation_sym P)).
Qed.
Lemma get_last_nth {A} (l : list A) d : l <> [] -> get_last l = Ok (nth (length l - 1) l d).
Proof.
  intros N. destruct (exists_last N) as (l' & a & ->). unfold get_last. rewrite rev_app_distr. cbn [rev app]. rewrite app_length. cbn [length]. replace (length l' + 1 - 1)%nat with (length l') by lia. now rewrite app_nth2, Nat.sub_diag by lia.
Qed.
Lemma diffs_nth us i : (S i < length us)%nat -> nth i (map (fun p => snd p - fst p) (combine us (tl us))) 0 = nth (S i) us 0 - nth i us 0.
Proof.
  intros H. rewrite (nth_map_lt _ _ (0, 0)) by (rewrite combine_length; destruct us as [|u us]; cbn [length tl] in *; lia).
  destruct us as [|u us]; [cbn in H; lia|]. cbn [tl]. cbn [length] in H. revert u i H. induction us as [|v us IH]; intros u i H; [cbn in H; lia|]. destruct i as [|i]; [reflexivity|]. change (combine (u :: v :: us) (v :: us)) with ((u, v) :: combine (v :: us) us). cbn [nth]. rewrite (IH v i) by (cbn in H; lia). reflexivity.
Qed.
Lemma combine_nth_short (us ds : list Q) i : (i < length us)%nat -> (i < length ds)%nat -> nth i (combine us ds) (0, 0) = (nth i us 0, nth i ds 0).
Proof. revert ds i. induction us as [|u us IH]; intros [|d ds] i A B; cbn [length] in *; try lia. destruct i; [reflexivity|]. cbn [combine nth]. apply IH; lia. Qed.
Lemma bands_ok energies : exists us, levels energies us /\
  ((length us <= 1)%nat -> create_band_interest energies = Err IndexError) /\
  ((2 <= length us)%nat -> exists bands, create_band_interest energies = Ok bands /\ length bands = length us /\
     forall i, (i < length us)%nat -> fst (nth i bands (0, 0)) == nth i us 0 - half_gap us i /\ snd (nth i bands (0, 0)) == nth i us 0 + half_gap us i).
Proof.
  exists (np_unique energies). split; [apply unique_ok|]. unfold create_band_interest. set (us := np_unique energies). set (ds := map (fun p => snd p - fst p) (combine us (tl us))).
  assert (Ld : length ds = (length us - 1)%nat) by (unfold ds; rewrite map_length, combine_length; destruct us as [|u0 us0]; cbn [length tl]; lia). split.
  - intros H. destruct us as [|u [|v us']] eqn:E; [reflexivity|reflexivity|cbn in H; lia].
  - intros H. rewrite (get_last_nth us 0) by (intros X; rewrite X in H; cbn in H; lia). cbn [bind]. rewrite (get_last_nth ds 0) by (intros X; rewrite X in Ld; cbn in Ld; lia). cbn [bind].
    eexists. split; [reflexivity|]. rewrite app_length, map_length, combine_length, Ld. cbn [length]. split; [lia|]. intros i Hi. unfold half_gap. destruct (Nat.ltb (S i) (length us)) eqn:L.
    + apply Nat.ltb_lt in L. rewrite app_nth1 by (rewrite map_length, combine_length, Ld; lia).
      assert (X : nth i (combine us ds) (0, 0) = (nth i us 0, nth i ds 0)) by (apply combine_nth_short; lia).
      rewrite (nth_map_lt _ _ (0, 0)) by (rewrite combine_length, Ld; lia). rewrite X. cbn [fst snd]. unfold ds. rewrite diffs_nth by exact L. split; field.
    + apply Nat.ltb_ge in L. rewrite app_nth2 by (rewrite map_length, combine_length, Ld; lia). rewrite map_length, combine_length, Ld. replace (i - Nat.min (length us) (length us - 1))%nat with 0%nat by lia. cbn [nth fst snd]. try rewrite Ld. replace (length us - 1)%nat with i by lia. replace (length us - 1 - 1)%nat with (i - 1)%nat by lia. 
      unfold ds. rewrite diffs_nth by lia. replace (S (i - 1)) with i by lia. split; field.
Qed.
Lemma sorted_nth_lt us i j : StronglySorted Qlt us -> (i < j)%nat -> (j < length us)%nat -> nth i us 0 < nth j us 0.
Proof.
  intros S. revert i j. induction S as [|a us S IH F]; intros i j Hij Hj; [cbn in Hj; lia|]. destruct j as [|j]; [lia|]. destruct i as [|i]; cbn [nth].
  - rewrite Forall_forall in F. apply F, nth_In. cbn in Hj. lia.
  - apply IH; [lia|cbn in Hj; lia].
Qed.
(* every band holds its own energy; with equal steps it holds no other *)
Lemma half_gap_pos us i : StronglySorted Qlt us -> (2 <= length us)%nat -> (i < length us)%nat -> 0 < half_gap us i.
Proof.
  intros S H Hi. unfold half_gap. destruct (Nat.ltb (Datatypes.S i) (length us)) eqn:L; [apply Nat.ltb_lt in L|apply Nat.ltb_ge in L].
  - pose proof (sorted_nth_lt us i (Datatypes.S i) S ltac:(lia) L). apply Qlt_shift_div_l; lra.
  - pose proof (sorted_nth_lt us (i - 1) i S ltac:(lia) Hi). apply Qlt_shift_div_l; lra.
Qed.
Lemma equal_steps us a d : StronglySorted Qlt us -> (2 <= length us)%nat -> (forall i, (i < length us)%nat -> nth i us 0 == a + inject_Z (Z.of_nat i) * d) ->
  forall i j, (i < length us)%nat -> (j < length us)%nat -> (nth i us 0 - half_gap us i <= nth j us 0 <= nth i us 0 + half_gap us i <-> i = j).
Proof.
  intros S H E i j Hi Hj. assert (Hd : 0 < d). { pose proof (sorted_nth_lt us 0 1 S ltac:(lia) ltac:(lia)) as X. rewrite (E 0%nat), (E 1%nat) in X by lia. change (inject_Z (Z.of_nat 0)) with 0 in X. change (inject_Z (Z.of_nat 1)) with 1 in X. lra. }
  assert (G : half_gap us i == d / 2).
  { unfold half_gap. destruct (Nat.ltb (Datatypes.S i) (length us)) eqn:L; [apply Nat.ltb_lt in L|apply Nat.ltb_ge in L].
    - rewrite (E (Datatypes.S i)), (E i) by lia. rewrite Nat2Z.inj_succ. unfold Z.succ. rewrite inject_Z_plus. field.
    - rewrite (E i), (E (i - 1)%nat) by lia. rewrite Nat2Z.inj_sub by lia. unfold Z.sub. rewrite inject_Z_plus. change (inject_Z (- Z.of_nat 1)) with (-1). field. }
  split.
  - intros [A B]. rewrite (E i), (E j), G in A, B by assumption. assert (HA : d / 2 == d * (1 # 2)) by field. rewrite HA in A, B.
    destruct (Nat.lt_trichotomy i j) as [L|[L|L]]; [exfalso|exact L|exfalso].
    + assert (X : inject_Z (Z.of_nat i) + 1 <= inject_Z (Z.of_nat j)) by (change 1 with (inject_Z 1); rewrite <- inject_Z_plus, <- Zle_Qle; lia). nra.
    + assert (X : inject_Z (Z.of_nat j) + 1 <= inject_Z (Z.of_nat i)) by (change 1 with (inject_Z 1); rewrite <- inject_Z_plus, <- Zle_Qle; lia). nra.
  - intros <-. pose proof (half_gap_pos us i S H Hi). split; lra.
Qed.
