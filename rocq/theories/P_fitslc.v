(* P_fitslc.v: proofs about reading light curves and good time intervals from FITS files. *)
From Verif Require Import Np Lib S_gti S_seg M_gti M_seg M_reader M_fitslc S_fitslc P_gti_final P_seg_regions.
From Coq Require Import QArith List Arith ZArith Bool String Permutation Lia Lqa.
Import ListNotations.
Open Scope Q_scope.

(* ---- counts ---- *)
Lemma nth_error_map_some {A B} (f : A -> B) l i a : nth_error l i = Some a -> nth_error (map f l) i = Some (f a).
Proof. intros H. now rewrite nth_error_map, H. Qed.
Lemma nth_error_combine {A B} (l : list A) : forall (m : list B) i a b, nth_error l i = Some a -> nth_error m i = Some b -> nth_error (combine l m) i = Some (a, b).
Proof. induction l as [|x l IH]; intros [|y m] [|i] a b HA HB; cbn in *; try discriminate; [congruence|now apply IH]. Qed.
Definition scaled (b : bool) (d : Q) (x : Q) : Q := if b then x * d else x.
Definition product (b : bool) (d : Q) (l : list (option Q)) : list (option Q) := if b then map (option_map (fun x => x * d)) l else l.
Lemma product_nth b d l i o : nth_error l i = Some o -> nth_error (product b d l) i = Some (option_map (scaled b d) o).
Proof. intros H. unfold product, scaled. destruct b; [now apply nth_error_map_some|]. rewrite H. now destruct o. Qed.
Lemma counts_ok given limit d t col rate err frac : rate_column given t = Ok col -> field t col = Ok rate ->
  or_else (field t (if String.eqb col "RATE1" then "ERROR1" else "ERROR")%string) (map (fun _ => Some 0) rate) = err ->
  or_else (field t "FRACEXP") (map (fun _ => Some 1) rate) = frac -> List.length err = List.length rate -> List.length frac = List.length rate ->
  exists c e g, counts_of given limit (Width d) t = Ok (c, e, g) /\
    (forall i r f, good_bin limit rate frac i r f -> ~ f == 0 ->
       nth_error g i = Some true /\ (exists x, nth_error c i = Some (Some x) /\ x == (if contains "RATE" col then r * d else r) / f) /\
       forall v, nth_error err i = Some (Some v) -> exists x, nth_error e i = Some (Some x) /\ x == (if contains "RATE" col then v * d else v) / f) /\
    (forall i, bad_bin limit rate frac i ->
       nth_error g i = Some false /\ nth_error c i = Some (Some 0) /\
       forall v, nth_error err i = Some (Some v) -> exists x, nth_error e i = Some (Some x) /\ x == (if contains "RATE" col then v * d else v)).
Proof.
  intros HC HR HE HF LE LF. unfold counts_of. rewrite HC. cbn [bind]. rewrite HR. cbn [bind]. rewrite HE.
  set (b := contains "RATE" col).
  assert (P : forall l, (if b then times_width (Width d) l else Ok l) = Ok (product b d l)) by (intros l; unfold product, times_width; now destruct b).
  rewrite !P. cbn [bind].
  assert (LP : forall l, List.length (product b d l) = List.length l) by (intros l; unfold product; destruct b; [apply map_length|reflexivity]).
  assert (HF' : or_else (field t "FRACEXP") (map (fun _ => Some 1) (product b d rate)) = frac).
  { rewrite <- HF. unfold or_else. destruct (field t "FRACEXP"); [reflexivity|]. unfold product. destruct b; [now rewrite map_map|reflexivity]. }
  rewrite HF'. do 3 eexists. split; [reflexivity|]. split.
  - intros i r f (A & B & L) NZ. assert (A' := product_nth b d _ _ _ A). cbn [option_map] in A'.
    assert (G : nth_error (map (fun p => is_good limit (fst p) (snd p)) (combine (product b d rate) frac)) i = Some true).
    { rewrite (nth_error_map_some _ _ _ _ (nth_error_combine _ _ _ _ _ A' B)). f_equal. cbn. now apply qle_t. }
    split; [exact G|]. assert (Z : qeq f 0 = false) by now apply qeq_f. split.
    + exists (scaled b d r / f). split; [|unfold scaled; now destruct b; reflexivity]. rewrite (nth_error_map_some _ _ _ _ (nth_error_combine _ _ _ _ _ (nth_error_combine _ _ _ _ _ G B) A')). cbn. now rewrite Z.
    + intros v V. assert (V' := product_nth b d _ _ _ V). exists (scaled b d v / f). split; [|unfold scaled; now destruct b; reflexivity].
      rewrite (nth_error_map_some _ _ _ _ (nth_error_combine _ _ _ _ _ (nth_error_combine _ _ _ _ _ G B) V')). cbn. now rewrite Z.
  - intros i (Hi & N). destruct (nth_error rate i) as [ri|] eqn:A; [|apply nth_error_None in A; lia]. destruct (nth_error frac i) as [fi|] eqn:B; [|apply nth_error_None in B; lia].
    assert (A' := product_nth b d _ _ _ A).
    assert (G : nth_error (map (fun p => is_good limit (fst p) (snd p)) (combine (product b d rate) frac)) i = Some false).
    { rewrite (nth_error_map_some _ _ _ _ (nth_error_combine _ _ _ _ _ A' B)). f_equal. cbn. destruct ri as [r|]; [|reflexivity]. destruct fi as [f|]; [|reflexivity]. cbn. apply qle_f. destruct (Qlt_le_dec f limit) as [Q|Q]; [exact Q|]. destruct (N r f). now split. }
    split; [exact G|]. split.
    + now rewrite (nth_error_map_some _ _ _ _ (nth_error_combine _ _ _ _ _ (nth_error_combine _ _ _ _ _ G B) A')).
    + intros v V. assert (V' := product_nth b d _ _ _ V). exists (scaled b d v). split; [|unfold scaled; now destruct b; reflexivity].
      now rewrite (nth_error_map_some _ _ _ _ (nth_error_combine _ _ _ _ _ (nth_error_combine _ _ _ _ _ G B) V')).
Qed.
Lemma column_choice t : rate_column None t =
  if has_name t "RATE" then Ok "RATE"%string else if has_name t "RATE1" then Ok "RATE1"%string else if has_name t "COUNTS" then Ok "COUNTS"%string else Err ValueError.
Proof. unfold rate_column. cbn [filter]. now destruct (has_name t "RATE"), (has_name t "RATE1"), (has_name t "COUNTS"). Qed.
Lemma column_given c t : rate_column (Some c) t = Ok c.
Proof. reflexivity. Qed.
Lemma rates_without_width given limit t col rate : rate_column given t = Ok col -> field t col = Ok rate -> contains "RATE" col = true -> counts_of given limit PyNone t = Err TypeError.
Proof. intros A B C. unfold counts_of. rewrite A. cbn [bind]. rewrite B. cbn [bind]. now rewrite C. Qed.

(* ---- times ---- *)
Lemma map_moved s l f : (forall x, f x == x + s) -> moved s l (map f l).
Proof. intros H. unfold moved. induction l; cbn; constructor; [apply H|assumption]. Qed.
Lemma shifted_some z s l r : shifted_times z s l = Ok r -> exists c, moved c l r.
Proof. unfold shifted_times. destruct l as [|t l]; [discriminate|]. intros E. injection E as <-. eexists. constructor; [reflexivity|]. apply map_moved. reflexivity. Qed.
Lemma shifted_cases z s l t0 : l <> [] ->
  exists r, shifted_times z s l = Ok r /\
    (last l t0 < s -> s < z -> moved z l r) /\ (last l t0 < s -> z <= s -> moved (z + s) l r) /\
    (s <= last l t0 -> s < z -> moved (z - s) l r) /\ (s <= last l t0 -> z <= s -> moved z l r).
Proof.
  intros N. destruct l as [|t l]; [now destruct N|]. unfold shifted_times. eexists. split; [reflexivity|].
  assert (E : last (t :: l) t = last (t :: l) t0). { clear. generalize t at 2 as d. intros d. revert t d t0. induction l as [|a l IH]; intros t d t0; [reflexivity|]. change (last (a :: l) d = last (a :: l) t0). apply IH. }
  rewrite E. split; [|split; [|split]]; intros A B; apply map_moved; intros x.
  - rewrite (proj2 (qlt_t _ _) A), (proj2 (qlt_t _ _) B). ring.
  - rewrite (proj2 (qlt_t _ _) A), (proj2 (qlt_f _ _) B). reflexivity.
  - rewrite (proj2 (qlt_f _ _) A), (proj2 (qlt_t _ _) B). reflexivity.
  - rewrite (proj2 (qlt_f _ _) A), (proj2 (qlt_f _ _) B). reflexivity.
Qed.

(* ---- the whole file ---- *)
Lemma lcurve_seconds tc rc limit f unit m s d l c e good : lf_unit f = Some unit -> unit <> "d"%string -> keyword_read (lf_hdr f) "MJDREF" = Some m -> keyword_read (lf_hdr f) "TSTART" = Some s ->
  keyword_read (lf_hdr f) "TIMEDEL" = Some d -> field (lf_times f) tc = Ok l -> l <> [] -> counts_of rc limit (Width d) (lf_data f) = Ok (c, e, good) ->
  exists time, shifted_times (match keyword_read (lf_hdr f) "TIMEZERO" with Some z => z | None => 0 end) s l = Ok time /\
    lcurve_from_fits tc rc limit f = (let! g := lc_gti (lf_gti f) time good in Ok (mkData time c e g m (Width d))).
Proof.
  intros U NU M S D F N C. unfold lcurve_from_fits. rewrite U. unfold header_times, bin_width, is_days. apply String.eqb_neq in NU. rewrite NU, M, S, D. cbn [or_type_error bind]. rewrite F. cbn [bind].
  set (z := match keyword_read (lf_hdr f) "TIMEZERO" with Some z => z | None => 0 end). destruct (shifted_cases z s l 0 N) as (time & T & _). exists time. split; [exact T|]. rewrite T. cbn [bind]. rewrite C. cbn [bind]. destruct (lc_gti (lf_gti f) time good); reflexivity.
Qed.
Lemma from_days_value m x : from_days m x == (x + 40000 - m) * 86400.
Proof. unfold from_days. ring. Qed.
Lemma lcurve_days tc rc limit f m s e0 l : lf_unit f = Some "d"%string -> match keyword_read (lf_hdr f) "MJDREF" with Some m => m | None => nustar_mjdref end = m -> keyword_read (lf_hdr f) "TSTART" = Some s ->
  keyword_read (lf_hdr f) "TSTOP" = Some e0 -> field (lf_times f) tc = Ok l -> l <> [] ->
  exists z' s' time w, z' == ((match keyword_read (lf_hdr f) "TIMEZERO" with Some z => z | None => 0 end) + 40000 - m) * 86400 /\ s' == (s + 40000 - m) * 86400 /\ shifted_times z' s' l = Ok time /\
    w = match keyword_read (lf_hdr f) "TIMEDEL" with Some d => Width (d * 86400) | None => match median (diffs time) with Some d => Width d | None => Nan end end /\
    lcurve_from_fits tc rc limit f = (let! c := counts_of rc limit w (lf_data f) in let! g := lc_gti (lf_gti f) time (snd c) in Ok (mkData time (fst (fst c)) (snd (fst c)) g m w)).
Proof.
  intros U M S E F N. unfold lcurve_from_fits. rewrite U. unfold header_times, bin_width. change (is_days "d") with true. cbv iota. rewrite S, E, F. cbn [or_type_error bind]. rewrite M.
  set (z := match keyword_read (lf_hdr f) "TIMEZERO" with Some z => z | None => 0 end). destruct (shifted_cases (from_days m z) (from_days m s) l 0 N) as (time & T & _).
  exists (from_days m z), (from_days m s), time. eexists. split; [apply from_days_value|]. split; [apply from_days_value|]. split; [exact T|]. split; [reflexivity|]. rewrite T. cbn [bind].
  match goal with |- context [counts_of rc limit ?w _] => destruct (counts_of rc limit w (lf_data f)) as [[[c e] g]|]; [|reflexivity] end. cbn [bind fst snd]. destruct (lc_gti (lf_gti f) time g); reflexivity.
Qed.
Lemma lcurve_no_mjdref tc rc limit f unit r : lf_unit f = Some unit -> unit <> "d"%string -> keyword_read (lf_hdr f) "MJDREF" = None -> lcurve_from_fits tc rc limit f <> Ok r.
Proof.
  intros U NU M. unfold lcurve_from_fits. rewrite U. unfold header_times, is_days. apply String.eqb_neq in NU. rewrite NU, M. destruct (keyword_read (lf_hdr f) "TSTART"); cbn [or_type_error bind]; [|discriminate].
  destruct (field (lf_times f) tc); cbn [bind]; [|discriminate]. match goal with |- context [shifted_times ?a ?b ?c] => destruct (shifted_times a b c); cbn [bind]; [|discriminate] end.
  match goal with |- context [counts_of ?a ?b ?c ?d] => destruct (counts_of a b c d) as [[[x y] g]|]; cbn [bind]; [|discriminate] end. match goal with |- context [lc_gti ?a ?b ?c] => destruct (lc_gti a b c); cbn [bind]; discriminate end.
Qed.
Lemma lcurve_no_timedel tc rc limit f unit col rate s l : lf_unit f = Some unit -> unit <> "d"%string -> keyword_read (lf_hdr f) "TIMEDEL" = None -> keyword_read (lf_hdr f) "TSTART" = Some s ->
  field (lf_times f) tc = Ok l -> l <> [] -> rate_column rc (lf_data f) = Ok col -> field (lf_data f) col = Ok rate -> contains "RATE" col = true -> lcurve_from_fits tc rc limit f = Err TypeError.
Proof.
  intros U NU D S F N A B C. unfold lcurve_from_fits. rewrite U. unfold header_times, bin_width, is_days. apply String.eqb_neq in NU. rewrite NU, S, D. cbn [or_type_error bind]. rewrite F. cbn [bind].
  match goal with |- context [shifted_times ?a ?b ?c] => destruct (shifted_cases a b c 0 N) as (time & T & _); rewrite T end. cbn [bind]. now rewrite (rates_without_width rc limit (lf_data f) col rate A B C).
Qed.
Lemma lcurve_no_tstart tc rc limit f unit : lf_unit f = Some unit -> keyword_read (lf_hdr f) "TSTART" = None -> lcurve_from_fits tc rc limit f = Err TypeError.
Proof. intros U S. unfold lcurve_from_fits. rewrite U. unfold header_times. rewrite S. now destruct (is_days unit). Qed.
Lemma lc_gti_table t a b time good : field t "START" = Ok a -> field t "STOP" = Ok b -> lc_gti (Some t) time good = Ok (combine a b).
Proof. intros A B. unfold lc_gti. now rewrite A, B. Qed.
Lemma lc_gti_condition n t0 step good : (2 <= n)%nat -> 0 < step -> List.length good = n ->
  let time := map (fun i => t0 + inject_Z (Z.of_nat i) * step) (seq 0 n) in
  exists g, lc_gti None time good = Ok g /\ well_formed g /\ (forall i t, nth_error time i = Some t -> (covered_closed g t <-> nth_error good i = Some true)).
Proof. intros N P L time. destruct (from_condition_even n t0 step good N P L) as (g & E & W & _ & C). exists g. split; [exact E|]. split; [exact W|exact C]. Qed.

(* ---- extensions ---- *)
Lemma combine_seq {A} (l : list A) : forall a i h, In (i, h) (combine (seq a (List.length l)) l) <-> ((a <= i)%nat /\ nth_error l (i - a) = Some h).
Proof.
  induction l as [|x l IH]; intros a i h; cbn [List.length seq combine].
  - split; [intros []|]. intros [_ H]. destruct (i - a)%nat; discriminate.
  - cbn [In]. rewrite IH. split.
    + intros [E|[L E]]; [injection E as <- <-; split; [lia|]; now rewrite Nat.sub_diag|]. split; [lia|]. replace (i - a)%nat with (S (i - S a)) by lia. exact E.
    + intros [L E]. destruct (Nat.eq_dec a i) as [->|D]; [left; rewrite Nat.sub_diag in E; cbn in E; congruence|]. right. split; [lia|]. replace (i - a)%nat with (S (i - S a)) in E by lia. exact E.
Qed.
Lemma extensions_in rx l p i : In i (extensions_from_pattern rx l p) <-> exists h, nth_error l i = Some h /\ rx ("^" ++ p ++ "$")%string (fst h) = true.
Proof.
  unfold extensions_from_pattern. rewrite in_map_iff. split.
  - intros ([j h] & <- & I). apply filter_In in I. destruct I as [I R]. apply combine_seq in I. rewrite Nat.sub_0_r in I. exists h. now split.
  - intros (h & E & R). exists (i, h). split; [reflexivity|]. apply filter_In. split; [|exact R]. apply combine_seq. rewrite Nat.sub_0_r. split; [lia|exact E].
Qed.
Lemma patterns_in accepted dets p : In p (gti_patterns accepted dets) <-> (In p accepted \/ exists d i x, dets = Some d /\ In i d /\ In x accepted /\ (p = x ++ two_digits i \/ p = x ++ two_digits i ++ ".*")%string).
Proof.
  unfold gti_patterns. destruct dets as [d|]; [|split; [tauto|intros [H|(d & i & x & E & _)]; [exact H|discriminate]]]. rewrite in_app_iff, in_flat_map. split.
  - intros [H|(i & I & H)]; [now left|]. right. apply in_app_iff in H. destruct H as [H|H]; apply in_map_iff in H; destruct H as (x & <- & X); exists d, i, x; tauto.
  - intros [H|(d' & i & x & E & I & X & H)]; [now left|]. injection E as <-. right. exists i. split; [exact I|]. apply in_app_iff. destruct H as [->| ->]; [left|right]; apply in_map_iff; now exists x.
Qed.
Lemma fetch_ok l ext : (forall i, In i ext -> exists g, has_gti l i g) -> exists gs, fetch l ext = Ok gs /\ Forall2 (has_gti l) ext gs.
Proof.
  induction ext as [|i ext IH]; intros H; [now exists []|]. destruct (H i (or_introl eq_refl)) as (g & h & A & B). destruct IH as (gs & E & F); [intros; apply H; now right|]. cbn [fetch]. rewrite A, B. cbn [bind]. rewrite E. cbn [bind]. exists (g :: gs). split; [reflexivity|]. constructor; [now exists h|exact F].
Qed.
Lemma has_gti_fun l i g g' : has_gti l i g -> has_gti l i g' -> g = g'.
Proof. intros (h & A & B) (h' & A' & B'). congruence. Qed.
Lemma Forall2_nth_error {A B} (P : A -> B -> Prop) l m : Forall2 P l m -> forall i b, nth_error m i = Some b -> exists a, nth_error l i = Some a /\ P a b.
Proof. induction 1; intros [|i] b' E; cbn in *; try discriminate; [injection E as <-; eauto|now apply IHForall2]. Qed.
Lemma Forall2_in_r {A B} (P : A -> B -> Prop) l m : Forall2 P l m -> forall b, In b m -> exists a, In a l /\ P a b.
Proof. induction 1; intros b' I; [destruct I|]. destruct I as [<-|I]; [exists x; split; [now left|assumption]|]. destruct (IHForall2 _ I) as (a & A1 & A2). exists a. split; [now right|assumption]. Qed.
Lemma Forall2_in_l {A B} (P : A -> B -> Prop) l m : Forall2 P l m -> forall a, In a l -> exists b, In b m /\ P a b.
Proof. induction 1; intros b' I; [destruct I|]. destruct I as [<-|I]; [exists y; split; [now left|assumption]|]. destruct (IHForall2 _ I) as (a & A1 & A2). exists a. split; [now right|assumption]. Qed.
Section Extensions.
Variables (srt : list tagged -> list tagged) (uniq : list nat -> list nat) (rx : string -> string -> bool) (l : hdulist) (accepted : list string) (dets : option (list nat)).
Hypothesis sorts : sorts_by t_end srt.
Hypothesis unique : removes_duplicates uniq.
Hypothesis some : exists i, matching rx l accepted dets i.
Hypothesis readable : forall i, matching rx l accepted dets i -> exists g, has_gti l i g /\ good g.
Lemma matching_in i : In i (uniq (flat_map (extensions_from_pattern rx l) (gti_patterns accepted dets))) <-> matching rx l accepted dets i.
Proof.
  rewrite (proj2 (unique _)), in_flat_map. split.
  - intros (p & P & I). apply extensions_in in I. destruct I as (h & A & B). now exists p, h.
  - intros (p & h & P & A & B). exists p. split; [exact P|]. apply extensions_in. now exists h.
Qed.
Lemma fetched : exists gs, fetch l (uniq (flat_map (extensions_from_pattern rx l) (gti_patterns accepted dets))) = Ok gs /\ gs <> [] /\ (forall g, In g gs -> good g) /\ (forall g, In g gs <-> exists i, matching rx l accepted dets i /\ has_gti l i g) /\
  Forall2 (has_gti l) (uniq (flat_map (extensions_from_pattern rx l) (gti_patterns accepted dets))) gs.
Proof.
  destruct (fetch_ok l (uniq (flat_map (extensions_from_pattern rx l) (gti_patterns accepted dets)))) as (gs & E & F).
  { intros i I. apply matching_in in I. destruct (readable i I) as (g & G & _). now exists g. }
  exists gs. split; [exact E|]. split; [|split; [|split; [|exact F]]].
  - intros ->. destruct some as [i M]. apply matching_in in M. inversion F as [Z|]. rewrite <- Z in M. destruct M.
  - intros g I. destruct (Forall2_in_r _ _ _ F g I) as (i & J & G). apply matching_in in J. destruct (readable i J) as (g' & G' & H). now rewrite (has_gti_fun l i g g' G G').
  - intros g. split.
    + intros I. destruct (Forall2_in_r _ _ _ F g I) as (i & J & G). apply matching_in in J. now exists i.
    + intros (i & M & G). apply matching_in in M. destruct (Forall2_in_l _ _ _ F i M) as (g' & I & G'). now rewrite (has_gti_fun l i g g' G G').
Qed.
Lemma extensions_complete : exists r, gti_from_all_extensions srt uniq rx l accepted dets = Ok r /\ well_formed r /\ positive_lengths r /\
  forall t, (forall i g, matching rx l accepted dets i -> has_gti l i g -> covered g t) -> covered r t.
Proof.
  destruct fetched as (gs & E & N & G & I & _). unfold gti_from_all_extensions. rewrite E. cbn [bind]. destruct (cross_gtis_complete srt gs sorts N G) as (r & R & W & P & C). exists r. split; [exact R|]. split; [exact W|]. split; [exact P|].
  intros t H. apply C. intros g J. apply I in J. destruct J as (i & M & K). now apply (H i).
Qed.
Lemma extensions_exact : (forall i j g g', i <> j -> matching rx l accepted dets i -> matching rx l accepted dets j -> has_gti l i g -> has_gti l j g' -> no_touching g g') ->
  exists r, gti_from_all_extensions srt uniq rx l accepted dets = Ok r /\ well_formed r /\ positive_lengths r /\
  forall t, covered r t <-> (forall i g, matching rx l accepted dets i -> has_gti l i g -> covered g t).
Proof.
  intros NT. destruct fetched as (gs & E & N & G & I & F). unfold gti_from_all_extensions. rewrite E. cbn [bind].
  destruct (cross_gtis_exact srt gs sorts N G) as (r & R & W & P & C).
  { intros i j g g' D A B. destruct (Forall2_nth_error _ _ _ F i g A) as (a & A1 & A2). destruct (Forall2_nth_error _ _ _ F j g' B) as (b & B1 & B2).
    apply (NT a b); [|apply matching_in; eapply nth_error_In; eassumption|apply matching_in; eapply nth_error_In; eassumption|exact A2|exact B2].
    intros ->. apply D. pose proof (proj1 (unique (flat_map (extensions_from_pattern rx l) (gti_patterns accepted dets)))) as ND. rewrite NoDup_nth_error in ND. apply ND; [|congruence]. apply nth_error_Some. congruence. }
  exists r. split; [exact R|]. split; [exact W|]. split; [exact P|]. intros t. rewrite C. split.
  - intros H i g M K. apply H. apply I. now exists i.
  - intros H g J. apply I in J. destruct J as (i & M & K). now apply (H i).
Qed.
End Extensions.
Lemma no_extension srt uniq rx l accepted dets : removes_duplicates uniq -> (forall i, ~ matching rx l accepted dets i) -> gti_from_all_extensions srt uniq rx l accepted dets = Err IndexError.
Proof.
  intros U N. unfold gti_from_all_extensions. assert (E : uniq (flat_map (extensions_from_pattern rx l) (gti_patterns accepted dets)) = []).
  { destruct (uniq _) as [|i u] eqn:E; [reflexivity|]. destruct (N i). apply (matching_in uniq rx l accepted dets U). rewrite E. now left. }
  rewrite E. reflexivity.
Qed.
Lemma read_own srt uniq rx l s dets : read_gtis srt uniq rx l None s dets = Ok (match gti_from_all_extensions srt uniq rx l (split_comma s) dets with Ok g => Some g | Err _ => None end).
Proof. unfold read_gtis. now destruct (gti_from_all_extensions srt uniq rx l (split_comma s) dets). Qed.
Lemma read_file srt uniq rx l g s dets : read_gtis srt uniq rx l (Some g) s dets = (let! t := extension g s in let! a := field t "START" in let! b := field t "STOP" in Ok (Some (combine a b))).
Proof. unfold read_gtis, load_gtis. destruct (extension g s) as [t|]; [|reflexivity]. cbn [bind]. destruct (field t "START"); [|reflexivity]. cbn [bind]. now destruct (field t "STOP"). Qed.
Lemma field_exact {A} (t : table A) n c : (forall p, In p t -> fst p = n -> snd p = c) -> In n (map fst t) -> field t n = Ok c.
Proof.
  intros U I. unfold field. destruct (filter (fun p => String.eqb (fst p) n) t) as [|p l] eqn:E.
  - exfalso. apply in_map_iff in I. destruct I as (p & P & I). assert (J : In p (filter (fun p => String.eqb (fst p) n) t)) by (apply filter_In; split; [exact I|]; rewrite P; apply String.eqb_refl). rewrite E in J. destruct J.
  - assert (J : In p (filter (fun p => String.eqb (fst p) n) t)) by (rewrite E; now left). apply filter_In in J. destruct J as [J K]. apply String.eqb_eq in K. now rewrite (U p J K).
Qed.
Lemma hdu_upper t a b : (forall p, In p t -> fst p = "START"%string -> snd p = a) -> (forall p, In p t -> fst p = "STOP"%string -> snd p = b) -> In "START"%string (map fst t) -> In "STOP"%string (map fst t) -> get_gti_from_hdu t = Ok (combine a b).
Proof.
  intros U V A B. unfold get_gti_from_hdu. replace (has_name t "START") with true; [|symmetry; apply existsb_exists; apply in_map_iff in A; destruct A as (p & P & I); exists p; split; [exact I|]; rewrite P; apply String.eqb_refl].
  cbn [fst snd]. rewrite (field_exact t "START"%string a U A). cbn [bind]. now rewrite (field_exact t "STOP"%string b V B).
Qed.
