(* P_evload.v: proofs about reading event files. *)
From Coq Require Import String.
From Verif Require Import Np Lib S_gti S_seg S_base M_gti M_seg M_utils M_reader M_fitslc M_evload S_evload P_seg_cut P_fitslc P_fitslc2.
From Coq Require Import QArith List Arith ZArith Bool Ascii Permutation Lia Lqa.
Import ListNotations.
Open Scope Q_scope.

Ltac step_ok H := match type of H with bind ?e _ = Ok _ => let v := fresh "v" in let E := fresh "E" in destruct e as [v|] eqn:E; [|discriminate H]; cbn [bind] in H end.

(* ---- extensions ---- *)
Lemma find_hdu_none f n : find_hdu f n = None -> forall h, In h f -> ~ same_name (hd_name h) n.
Proof.
  induction f as [|h f IH]; simpl; [tauto|]. destruct (String.eqb_spec (lower (hd_name h)) (lower n)) as [E|E]; [discriminate|].
  intros H h' [<-|I]; [exact E|exact (IH H h' I)].
Qed.
Lemma find_hdu_some f n h : find_hdu f n = Some h -> exists f1 f2, f = f1 ++ h :: f2 /\ same_name (hd_name h) n /\ forall h', In h' f1 -> ~ same_name (hd_name h') n.
Proof.
  induction f as [|h0 f IH]; simpl; [discriminate|]. destruct (String.eqb_spec (lower (hd_name h0)) (lower n)) as [E|E].
  - intros H. injection H as ->. exists [], f. split; [reflexivity|]. split; [exact E|]. intros h' [].
  - intros H. destruct (IH H) as (f1 & f2 & -> & S1 & S2). exists (h0 :: f1), f2. split; [reflexivity|]. split; [exact S1|]. intros h' [<-|I]; [exact E|exact (S2 h' I)].
Qed.
Lemma events_chosen f n h : events_hdu f n = Ok h -> chosen f n h.
Proof.
  unfold events_hdu. destruct (find_hdu f n) as [h'|] eqn:E.
  - intros H. injection H as ->. left. apply find_hdu_some, E.
  - unfold nth_hdu. destruct (nth_error f 1) as [h'|] eqn:N; [|discriminate]. intros H. injection H as ->. right. split; [apply find_hdu_none, E|exact N].
Qed.
Lemma chosen_unique f n h h' : chosen f n h -> chosen f n h' -> h = h'.
Proof.
  assert (K : forall f1 (a : hdu) f2 g1 b g2, f1 ++ a :: f2 = g1 ++ b :: g2 -> same_name (hd_name a) n -> (forall x, In x f1 -> ~ same_name (hd_name x) n) ->
    same_name (hd_name b) n -> (forall x, In x g1 -> ~ same_name (hd_name x) n) -> a = b).
  { induction f1 as [|x f1 IH]; intros a f2 [|y g1] b g2 E A F B G; simpl in E; injection E as E1 E2.
    - exact E1.
    - subst y. exfalso. exact (G a (or_introl eq_refl) A).
    - subst x. exfalso. exact (F b (or_introl eq_refl) B).
    - apply (IH a f2 g1 b g2 E2 A); [|exact B|]; intros z Z; [apply F|apply G]; right; exact Z. }
  intros [(f1 & f2 & E & A & F)|[N A]] [(g1 & g2 & E' & B & G)|[N' B]].
  - rewrite E in E'. exact (K _ _ _ _ _ _ E' A F B G).
  - exfalso. apply (N' h); [rewrite E; apply in_elt|exact A].
  - exfalso. apply (N h'); [rewrite E'; apply in_elt|exact B].
  - congruence.
Qed.
(* ---- columns ---- *)
Lemma search_name_none s l : search_name s l = None -> forall a, In a l -> ~ same_name a s.
Proof.
  induction l as [|b l IH]; simpl; [tauto|]. destruct (String.eqb_spec (lower s) (lower b)) as [E|E]; [discriminate|].
  intros H a [<-|I]; [intros K; apply E; symmetry; exact K|exact (IH H a I)].
Qed.
Lemma search_name_first t1 k (v : list Q) t2 a : same_name k a -> (forall k' v', In (k', v') t1 -> ~ same_name k' a) -> search_name a (map fst (t1 ++ (k, v) :: t2)) = Some k.
Proof.
  intros S1. induction t1 as [|[k' v'] t1 IH]; intros N; simpl.
  - rewrite (proj2 (String.eqb_eq _ _) (eq_sym S1)). reflexivity.
  - destruct (String.eqb_spec (lower a) (lower k')) as [E|E]; [exfalso; exact (N k' v' (or_introl eq_refl) (eq_sym E))|]. apply IH. intros x y H. apply (N x y). right. exact H.
Qed.
Lemma field_first t1 k (v : list Q) t2 : (forall k' v', In (k', v') t1 -> k' <> k) -> field (t1 ++ (k, v) :: t2) k = Ok v.
Proof.
  intros N. unfold field. rewrite filter_app, filter_none; [simpl; rewrite String.eqb_refl; reflexivity|].
  intros [k' v'] H. apply String.eqb_neq. exact (N k' v' H).
Qed.
Lemma additional_found h a k v : column_named h a k v -> additional_column h a = Ok (if String.eqb (lower k) "energy" then map (fun x => x * hd_kev h) v else v).
Proof.
  intros (t1 & t2 & E & S1 & N). unfold additional_column. rewrite E, (search_name_first t1 k v t2 a S1 N), field_first; [reflexivity|].
  intros k' v' H ->. exact (N k v' H S1).
Qed.
Lemma additional_missing h a : (forall k v, In (k, v) (hd_cols h) -> ~ same_name k a) -> additional_column h a = Ok (repeat 0 (rows (hd_cols h))).
Proof.
  intros N. unfold additional_column. destruct (search_name a (map fst (hd_cols h))) as [k|] eqn:E; [|reflexivity].
  exfalso. assert (K : In k (map fst (hd_cols h)) /\ same_name k a).
  { clear N. revert E. generalize (map fst (hd_cols h)). intros l. induction l as [|b l IH]; simpl; [discriminate|].
    destruct (String.eqb_spec (lower a) (lower b)) as [Q|Q]; [intros H; injection H as ->; split; [left; reflexivity|symmetry; exact Q]|]. intros H. destruct (IH H). split; [right|]; assumption. }
  destruct K as (K1 & K2). apply in_map_iff in K1. destruct K1 as ([k' v'] & <- & K1). exact (N k' v' K1 K2).
Qed.
Lemma field_in {A} (t : table A) n v : field t n = Ok v -> exists k, In (k, v) t.
Proof.
  unfold field. destruct (filter _ t) as [|p l] eqn:E.
  - destruct (filter (fun p => String.eqb (lower (fst p)) (lower n)) t) as [|p [|q l]] eqn:F; [discriminate| |discriminate].
    intros H. injection H as <-. exists (fst p). rewrite <- surjective_pairing. apply (filter_In (fun p => String.eqb (lower (fst p)) (lower n)) p t). rewrite F. left. reflexivity.
  - intros H. injection H as <-. exists (fst p). rewrite <- surjective_pairing. apply (filter_In (fun p => String.eqb (fst p) n) p t). rewrite E. left. reflexivity.
Qed.
Lemma rows_of h n : rectangular h n -> hd_cols h <> [] -> rows (hd_cols h) = n.
Proof. intros H N. unfold rows. destruct (hd_cols h) as [|[k v] t] eqn:E; [congruence|]. apply (H k v). rewrite E. left. reflexivity. Qed.
Lemma additional_length h a v n : rectangular h n -> hd_cols h <> [] -> additional_column h a = Ok v -> length v = n.
Proof.
  intros H N. unfold additional_column. destruct (search_name _ _) as [k|].
  - destruct (field (hd_cols h) k) as [w|] eqn:E; [|discriminate]. cbn [bind]. intros X. injection X as <-. destruct (field_in _ _ _ E) as (k' & K). pose proof (H k' w K).
    destruct (String.eqb _ _); [rewrite map_length|]; assumption.
  - intros X. injection X as <-. rewrite repeat_length. apply rows_of; assumption.
Qed.
(* ---- dictionaries ---- *)
Lemma get_put_same {A} (d : list (string * A)) k v : get_key (put_key d k v) k = Ok v.
Proof. induction d as [|[k' v'] d IH]; simpl; [rewrite String.eqb_refl; reflexivity|]. destruct (String.eqb_spec k' k) as [->|N]; simpl; [rewrite String.eqb_refl; reflexivity|]. rewrite (proj2 (String.eqb_neq _ _) N). exact IH. Qed.
Lemma get_put_other {A} (d : list (string * A)) k v k' : k' <> k -> get_key (put_key d k v) k' = get_key d k'.
Proof.
  intros N. induction d as [|[k0 v'] d IH]; simpl; [rewrite (proj2 (String.eqb_neq k k')); congruence|].
  destruct (String.eqb_spec k0 k) as [->|M]; simpl; [rewrite (proj2 (String.eqb_neq k k')); congruence|]. destruct (String.eqb k0 k'); [reflexivity|exact IH].
Qed.
Lemma additional_get h l : forall d d', additional_from h d l = Ok d' ->
  (forall a, In a l -> exists v, additional_column h a = Ok v /\ get_key d' a = Ok v) /\ (forall a, ~ In a l -> get_key d' a = get_key d a).
Proof.
  induction l as [|b l IH]; intros d d' H; simpl in H; [injection H as ->; split; [intros a []|reflexivity]|].
  destruct (additional_column h b) as [v|] eqn:E; [|discriminate H]. cbn [bind] in H. destruct (IH _ _ H) as (I1 & I2). split.
  - intros a Ha. destruct (in_dec string_dec a l) as [I|N]; [exact (I1 a I)|]. destruct Ha as [->|Ha]; [|contradiction].
    exists v. split; [exact E|]. rewrite (I2 a N). apply get_put_same.
  - intros a N. rewrite I2; [|intros I; apply N; right; exact I]. apply get_put_other. intros ->. apply N. left. reflexivity.
Qed.
Lemma get_key_map (g : list Q -> list Q) d k : get_key (map (fun p => (fst p, g (snd p))) d) k = let! v := get_key d k in Ok (g v).
Proof. induction d as [|[k' v'] d IH]; simpl; [reflexivity|]. destruct (String.eqb k' k); [reflexivity|exact IH]. Qed.
(* ---- order ---- *)
Lemma reorder_seq l : reorder (seq 0 (length l)) l = l.
Proof.
  unfold reorder. induction l as [|a l IH]; [reflexivity|]. cbn [length seq map nth]. f_equal. rewrite <- seq_shift, map_map. exact IH.
Qed.
Lemma reorder_picked order l : picked order l (reorder order l).
Proof.
  unfold picked, reorder. rewrite map_length. split; [reflexivity|]. intros i L. rewrite (nth_indep _ 0 (nth 0%nat l 0)) by (rewrite map_length; exact L).
  exact (map_nth (fun k => nth k l 0) order 0%nat i).
Qed.
Lemma reorder_shift order z l : (forall i, In i order -> (i < length l)%nat) -> reorder order (map (fun t => t + z) l) = map (fun t => t + z) (reorder order l).
Proof.
  intros H. unfold reorder. rewrite map_map. apply map_ext_in. intros i Hi. rewrite (nth_indep _ 0 (0 + z)) by (rewrite map_length; apply H, Hi).
  exact (map_nth (fun t => t + z) l 0 i).
Qed.

(* ---- numbers of the header ---- *)
Lemma num_or_ok h k d q : num_or h k (fun x => x) d = Ok q -> header_number h k d q.
Proof. unfold num_or, header_number. destruct (head_get h k) as [[s|x]|]; cbn [number_of bind]; [discriminate| |]; intros H; injection H as ->; auto. Qed.
Lemma num_or_some h k q : num_or h k Some None = Ok q -> match q with Some x => head_get h k = Some (Num x) | None => head_get h k = None end.
Proof. unfold num_or. destruct (head_get h k) as [[s|x]|]; cbn [number_of bind]; [discriminate| |]; intros H; injection H as <-; reflexivity. Qed.

Section Load.
Variables (show : Q -> string) (argsort : list Q -> list nat) (srt : list tagged -> list tagged) (uniq : list nat -> list nat) (setnum : list Q -> list nat)
  (rx : string -> string -> bool) (info : string -> string -> option string -> option string -> option string)
  (rough : string -> option string -> option Q -> list Q -> option (list Q) -> result (option (list Q))).
Local Notation load := (load_events show argsort srt uniq setnum rx info rough).
Local Notation key := (key info).

(* Everything that is read. *)
Lemma load_inv f additional gtistring gti_file hduname column r : load f additional gtistring gti_file hduname column = Ok r ->
  exists probe m instr mode h raw z det0 data pi en,
    mission_of (hd_head probe) = Ok m /\ instrument_mode info m (hd_head probe) = Ok (Some instr, mode) /\
    chosen f (match hduname with Some n => n | None => key m "events" "EVENTS" (Some instr) mode end) h /\
    field (hd_cols h) (match column with Some c => c | None => key m "time" "TIME" (Some instr) mode end) = Ok raw /\
    header_number (hd_head h) "TIMEZERO" 0 z /\ raw <> [] /\
    header_number (hd_head h) "TSTART" (hd 0 raw + z) (er_start r) /\ header_number (hd_head h) "TSTOP" (List.last raw 0 + z) (er_stop r) /\
    er_mjdref r = keyword_read (numbers_of (hd_head h)) "MJDREF" /\ er_mission r = lower m /\ er_instr r = lower instr /\
    er_ephem r = ephemeris show (hd_head h) /\
    (let ckey := key m "ccol" "NONE" (Some instr) mode in
     (if (negb (String.eqb ckey "NONE") && has_name (hd_cols h) ckey)%bool then let! d := field (hd_cols h) ckey in Ok (Some d) else Ok None) = Ok det0) /\
    (let gtistr := match gtistring with Some s => s | None => key m "gti" "GTI,STDGTI" (Some instr) mode end in
     match gti_file with
     | None => match gti_from_all_extensions srt uniq rx (as_hdulist f) (split_comma gtistr) (option_map setnum det0) with
               | Ok g => er_gti r = g | Err _ => er_gti r = [(er_start r, er_stop r)] end
     | Some gf => load_gtis gf (Some gtistr) = Ok (er_gti r) end) /\
    (let pi_col := key m "ecol" "PI" (Some instr) mode in
     let cols := match additional with None => [pi_col] | Some l => if existsb (String.eqb pi_col) l then l else l ++ [pi_col] end in
     (exists d1, additional_from h [] cols = Ok d1 /\ (if existsb (String.eqb "energy") cols then Ok d1 else additional_from h d1 ["energy"%string]) = Ok data) /\
     er_columns r = (match additional with None => None | Some _ => Some cols end) /\
     (let ev := map (fun t => t + z) raw in
      let sorted := is_sorted ev in let order := argsort ev in
      er_ev r = (if sorted then ev else reorder order ev) /\ er_det r = (if sorted then det0 else option_map (reorder order) det0) /\
      er_data r = (if sorted then data else map (fun p => (fst p, reorder order (snd p))) data)) /\
     get_key (er_data r) pi_col = Ok pi /\ er_pi r = pi) /\
    get_key (er_data r) "energy" = Ok en /\
    (if existsb (fun x => qlt 0 x) en then Ok (Some en) else rough m (Some instr) (option_map (fun q => er_start r / 86400 + q) (er_mjdref r)) pi (er_det r)) = Ok (er_energy r).
Proof.
  unfold load_events. intros H. step_ok H. step_ok H. rename v0 into probe. step_ok H. rename v0 into m. step_ok H. destruct v0 as [instr mode].
  step_ok H. rename v0 into h. step_ok H. step_ok H. step_ok H. rename v2 into raw. step_ok H. rename v2 into det0. step_ok H. rename v2 into z.
  step_ok H. rename v2 into first. step_ok H. rename v2 into last. step_ok H. rename v2 into t_start. step_ok H. rename v2 into t_stop. step_ok H. rename v2 into g.
  step_ok H. rename v2 into d1. step_ok H. rename v2 into data. step_ok H. rename v2 into pi. step_ok H. rename v2 into en. step_ok H. rename v2 into energy.
  destruct instr as [instr|]; [|discriminate H]. injection H as <-. cbn [er_ev er_gti er_pi er_energy er_instr er_mission er_mjdref er_data er_start er_stop er_det er_ephem er_columns].
  exists probe, m, instr, mode, h, raw, z, det0, data, pi, en.
  assert (Nr : raw <> []). { intros ->. discriminate. }
  split; [assumption|]. split; [assumption|]. split; [apply events_chosen; assumption|]. split; [assumption|]. split; [apply num_or_ok; assumption|]. split; [exact Nr|].
  split. { destruct raw as [|a raw]; [congruence|]. match goal with X : get _ 0 = Ok first |- _ => injection X as <- end. apply num_or_ok; assumption. }
  split. { destruct (exists_last Nr) as (l' & b & ->). match goal with X : get_last _ = Ok last |- _ => unfold get_last in X; rewrite map_app, rev_app_distr in X; injection X as <- end.
    rewrite last_last. apply num_or_ok; assumption. }
  split; [reflexivity|]. split; [reflexivity|]. split; [reflexivity|]. split; [reflexivity|]. split; [assumption|]. split.
  { cbv zeta. destruct gti_file; [assumption|]. destruct (gti_from_all_extensions _ _ _ _ _ _); match goal with X : Ok _ = Ok g |- _ => injection X as <- end; reflexivity. }
  split; [|split; assumption]. cbv zeta. split; [exists d1; split; assumption|]. split; [reflexivity|]. split; [split; [reflexivity|split; reflexivity]|]. split; [assumption|reflexivity].
Qed.

(* The order of the rows: as they are if the times are in order. *)
Lemma load_rows f additional gtistring gti_file hduname column r : is_argsort argsort -> load f additional gtistring gti_file hduname column = Ok r ->
  exists h name tc ecol raw z order, chosen f name h /\ (forall n, hduname = Some n -> name = n) /\ (forall c, column = Some c -> tc = c) /\
    field (hd_cols h) tc = Ok raw /\ header_number (hd_head h) "TIMEZERO" 0 z /\ Permutation order (seq 0 (length raw)) /\
    er_ev r = map (fun t => t + z) (reorder order raw) /\ nondecreasing (er_ev r) /\ (nondecreasing raw -> order = seq 0 (length raw)) /\
    (rectangular h (length raw) ->
      (forall a, a = ecol \/ a = "energy"%string \/ (exists l, additional = Some l /\ In a l) ->
         exists v w, additional_column h a = Ok v /\ get_key (er_data r) a = Ok w /\ picked order v w) /\
      get_key (er_data r) ecol = Ok (er_pi r) /\
      (forall d, er_det r = Some d -> exists ckey v, In (ckey, v) (hd_cols h) /\ picked order v d)).
Proof.
  intros A H. destruct (load_inv _ _ _ _ _ _ _ H) as (probe & m & instr & mode & h & raw & z & det0 & data & pi & en & _ & _ & C & F & Z & N & _ & _ & _ & _ & _ & _ & D & _ & I & _).
  cbv zeta in D, I. destruct I as ((d1 & I1 & I2) & _ & (Ev & De & Da) & P1 & P2).
  set (ev := map (fun t => t + z) raw) in *. set (ecol := key m "ecol" "PI" (Some instr) mode) in *.
  set (cols := match additional with Some l => if existsb (String.eqb ecol) l then l else (l ++ [ecol])%list | None => [ecol] end) in *.
  assert (Le : length ev = length raw) by apply map_length.
  exists h, (match hduname with Some n => n | None => key m "events" "EVENTS" (Some instr) mode end), (match column with Some c => c | None => key m "time" "TIME" (Some instr) mode end), ecol, raw, z. exists (if is_sorted ev then seq 0 (length raw) else argsort ev).
  split; [exact C|]. split; [intros n ->; reflexivity|]. split; [intros c ->; reflexivity|]. split; [exact F|]. split; [exact Z|].
  destruct (A ev) as (A1 & A2). rewrite Le in A1.
  split; [destruct (is_sorted ev); [apply Permutation_refl|exact A1]|].
  assert (Sh : er_ev r = map (fun t => t + z) (reorder (if is_sorted ev then seq 0 (length raw) else argsort ev) raw)).
  { rewrite Ev. destruct (is_sorted ev); [rewrite reorder_seq; reflexivity|]. unfold ev at 2. apply reorder_shift. intros i Hi.
    apply (Permutation_in _ A1) in Hi. apply in_seq in Hi. lia. }
  split; [exact Sh|]. split.
  { rewrite Ev. destruct (is_sorted ev) eqn:S1; [apply is_sorted_iff, S1|exact A2]. }
  split.
  { intros Nd. replace (is_sorted ev) with true; [reflexivity|]. symmetry. apply is_sorted_iff. intros i j x y L X Y. unfold ev in X, Y. rewrite nth_error_map in X, Y.
    destruct (nth_error raw i) as [x0|] eqn:X0; [|discriminate]. destruct (nth_error raw j) as [y0|] eqn:Y0; [|discriminate]. injection X as <-. injection Y as <-.
    pose proof (Nd i j x0 y0 L X0 Y0). lra. }
  intros Rh. assert (Nc : hd_cols h <> []). { destruct (field_in _ _ _ F) as (k & K). intros E. rewrite E in K. destruct K. }
  assert (Get : forall a v w, additional_column h a = Ok v -> get_key data a = Ok w -> v = w -> get_key (er_data r) a = Ok (reorder (if is_sorted ev then seq 0 (length raw) else argsort ev) v)).
  { intros a v w E1 E2 <-. pose proof (additional_length h a v _ Rh Nc E1) as Lv. rewrite Da. destruct (is_sorted ev); [rewrite <- Lv, reorder_seq; exact E2|].
    rewrite get_key_map, E2. reflexivity. }
  destruct (additional_get h cols [] d1 I1) as (G1 & _).
  assert (All : forall a, In a cols \/ a = "energy"%string -> exists v, additional_column h a = Ok v /\ get_key data a = Ok v).
  { intros a Ha. destruct (existsb (String.eqb "energy") cols) eqn:X.
    - injection I2 as <-. apply G1. destruct Ha as [Ha|Ha]; [exact Ha|]. apply existsb_exists in X. destruct X as (b & B1 & B2). apply String.eqb_eq in B2. congruence.
    - destruct (additional_get h _ _ _ I2) as (H1 & H2). destruct (string_dec a "energy") as [->|Na]; [apply H1; left; reflexivity|].
      destruct Ha as [Ha|Ha]; [|contradiction]. rewrite H2; [apply G1, Ha|]. intros [E|[]]. congruence. }
  split; [|split].
  - intros a Ha. assert (Ha' : In a cols \/ a = "energy"%string).
    { destruct Ha as [->|[->|(l & -> & Hl)]]; [left|right; reflexivity|left].
      - unfold cols. destruct additional as [l|]; [|left; reflexivity]. destruct (existsb (String.eqb ecol) l) eqn:X; [|apply in_or_app; right; left; reflexivity].
        apply existsb_exists in X. destruct X as (b & B1 & B2). apply String.eqb_eq in B2. congruence.
      - unfold cols. destruct (existsb _ l); [exact Hl|apply in_or_app; left; exact Hl]. }
    destruct (All a Ha') as (v & V1 & V2). exists v. eexists. split; [exact V1|]. split; [apply (Get a v v V1 V2 eq_refl)|]. apply reorder_picked.
  - rewrite P1, P2. reflexivity.
  - intros d Ed. rewrite De in Ed. destruct (negb _ && has_name _ _)%bool; [|injection D as <-; destruct (is_sorted ev); discriminate].
    destruct (field (hd_cols h) (key m "ccol" "NONE" (Some instr) mode)) as [v|] eqn:Ef; [|discriminate]. cbn [bind] in D; injection D as <-. destruct (field_in _ _ _ Ef) as (k & K). exists k, v. split; [exact K|].
    pose proof (Rh k v K) as Lv. destruct (is_sorted ev); injection Ed as <-; [|apply reorder_picked]. rewrite <- Lv. rewrite <- (reorder_seq v) at 3. apply reorder_picked.
Qed.
(* Times of start and stop as in the header, or of the first and the last row: TIMEZERO is added to the latter only. *)
Lemma load_limits f additional gtistring gti_file hduname column r : load f additional gtistring gti_file hduname column = Ok r ->
  exists h name tc raw z, chosen f name h /\ (forall n, hduname = Some n -> name = n) /\ (forall c, column = Some c -> tc = c) /\ field (hd_cols h) tc = Ok raw /\ header_number (hd_head h) "TIMEZERO" 0 z /\
    header_number (hd_head h) "TSTART" (hd 0 raw + z) (er_start r) /\ header_number (hd_head h) "TSTOP" (List.last raw 0 + z) (er_stop r) /\
    er_mjdref r = keyword_read (numbers_of (hd_head h)) "MJDREF" /\ er_ephem r = ephemeris show (hd_head h).
Proof.
  intros H. destruct (load_inv _ _ _ _ _ _ _ H) as (probe & m & instr & mode & h & raw & z & det0 & data & pi & en & _ & _ & C & F & Z & N & S1 & S2 & M & _ & _ & E & _).
  exists h, (match hduname with Some n => n | None => key m "events" "EVENTS" (Some instr) mode end), (match column with Some c => c | None => key m "time" "TIME" (Some instr) mode end), raw, z. split; [exact C|]. split; [intros n ->; reflexivity|]. split; [intros c ->; reflexivity|]. auto 10.
Qed.
(* The intervals are those of the file, whatever TIMEZERO is. *)
Lemma load_gti f additional s gti_file hduname column r : load f additional (Some s) gti_file hduname column = Ok r ->
  match gti_file with
  | Some g => load_gtis g (Some s) = Ok (er_gti r)
  | None => exists det order, (er_det r = det \/ er_det r = option_map (reorder order) det) /\
      match gti_from_all_extensions srt uniq rx (as_hdulist f) (split_comma s) (option_map setnum det) with Ok g => er_gti r = g | Err _ => er_gti r = [(er_start r, er_stop r)] end
  end.
Proof.
  intros H. destruct (load_inv _ _ _ _ _ _ _ H) as (probe & m & instr & mode & h & raw & z & det0 & data & pi & en & _ & _ & _ & _ & _ & _ & _ & _ & _ & _ & _ & _ & _ & G & D & _).
  cbv zeta in G, D. destruct gti_file; [exact G|]. exists det0, (argsort (map (fun t => t + z) raw)). split; [|exact G].
  destruct D as (_ & _ & (_ & D & _) & _). rewrite D. destruct (is_sorted _); [now left|now right].
Qed.
(* The list of the caller holds the column of the channels afterwards, and the data those of the energies. *)
Lemma load_columns f l gtistring gti_file hduname column r : load f (Some l) gtistring gti_file hduname column = Ok r ->
  (exists en, get_key (er_data r) "energy" = Ok en) /\ exists ecol, (In ecol l /\ er_columns r = Some l) \/ (~ In ecol l /\ er_columns r = Some (l ++ [ecol])).
Proof.
  intros H. destruct (load_inv _ _ _ _ _ _ _ H) as (probe & m & instr & mode & h & raw & z & det0 & data & pi & en & _ & _ & _ & _ & _ & _ & _ & _ & _ & _ & _ & _ & _ & _ & I & E & _).
  split; [exists en; exact E|]. cbv zeta in I. destruct I as (_ & K & _). set (ecol := key m "ecol" "PI" (Some instr) mode) in *. exists ecol.
  destruct (existsb (String.eqb ecol) l) eqn:X; [left|right]; (split; [|exact K]).
  - apply existsb_exists in X. destruct X as (b & B1 & B2). apply String.eqb_eq in B2. congruence.
  - intros I. assert (existsb (String.eqb ecol) l = true) by (apply existsb_exists; exists ecol; split; [exact I|apply String.eqb_refl]). congruence.
Qed.
(* Energies: those of the file if one of them is positive, else those of the rough conversion. *)
Lemma load_energy f additional gtistring gti_file hduname column r en : load f additional gtistring gti_file hduname column = Ok r -> get_key (er_data r) "energy" = Ok en ->
  ((exists x, In x en /\ 0 < x) -> er_energy r = Some en) /\
  ((forall x, In x en -> x <= 0) -> exists m instr epoch, rough m instr epoch (er_pi r) (er_det r) = Ok (er_energy r) /\ (forall q, er_mjdref r = Some q -> epoch = Some (er_start r / 86400 + q))).
Proof.
  intros H G. destruct (load_inv _ _ _ _ _ _ _ H) as (probe & m & instr & mode & h & raw & z & det0 & data & pi & en' & _ & _ & _ & _ & _ & _ & _ & _ & _ & _ & _ & _ & _ & _ & I & E & R).
  rewrite G in E. injection E as <-. cbv zeta in I. destruct I as (_ & _ & _ & _ & <-). split.
  - intros (x & X1 & X2). replace (existsb (fun x => qlt 0 x) en) with true in R; [injection R as <-; reflexivity|]. symmetry. apply existsb_exists. exists x. split; [exact X1|]. apply qlt_t, X2.
  - intros X. replace (existsb (fun x => qlt 0 x) en) with false in R.
    + do 3 eexists. split; [exact R|]. intros q Eq. rewrite Eq. reflexivity.
    + symmetry. destruct (existsb _ en) eqn:B; [|reflexivity]. apply existsb_exists in B. destruct B as (x & B1 & B2). apply qlt_t in B2. pose proof (X x B1). lra.
Qed.
(* Without an instrument nothing is read. *)
Lemma load_instrument f additional gtistring gti_file hduname column r : load f additional gtistring gti_file hduname column = Ok r ->
  exists probe m k s, In probe f /\ mission_of (hd_head probe) = Ok m /\ k = key m "instkey" "INSTRUME" None None /\ head_get (hd_head probe) k = Some (Txt s) /\ er_instr r = lower (strip s) /\ er_mission r = lower m.
Proof.
  intros H0. assert (H := H0). unfold load_events in H. step_ok H. step_ok H. rename v0 into probe. step_ok H. rename v0 into m. step_ok H. destruct v0 as [instr mode]. cbv zeta in H.
  repeat step_ok H. destruct instr as [instr|]; [|discriminate H]. injection H as <-. cbn [er_instr er_mission].
  assert (Ip : In probe f).
  { unfold nth_hdu in *. destruct (nth_error f 0) as [h0|] eqn:F0; [|discriminate]. match goal with X : Ok h0 = Ok v |- _ => injection X as <- end.
    destruct (head_has (hd_head h0) "TELESCOP"); [match goal with X : Ok h0 = Ok probe |- _ => injection X as <- end; apply (nth_error_In f 0 F0)|].
    destruct (nth_error f 1) as [h1|] eqn:F1; [|discriminate]. match goal with X : Ok h1 = Ok probe |- _ => injection X as <- end. apply (nth_error_In f 1 F1). }
  match goal with X : instrument_mode _ _ _ = Ok _ |- _ => unfold instrument_mode in X; step_ok X; step_ok X; injection X as X1 X2; subst end.
  match goal with X : stripped _ _ = Ok (Some instr) |- _ => unfold stripped in X; destruct (head_get _ _) as [[s|q]|] eqn:Hg; cbn [text_of bind] in X; try discriminate; injection X as <- end.
  exists probe, m. eexists. exists s. auto 10.
Qed.
End Load.

(* ---- text ---- *)
Lemma lstrip_prefix chars p s : (forall c, mem_char c p = true -> mem_char c chars = true) -> lstrip chars (p ++ s) = lstrip chars s.
Proof.
  intros H. induction p as [|c p IH]; [reflexivity|]. simpl. rewrite (H c) by (simpl; rewrite Ascii.eqb_refl; reflexivity). apply IH.
  intros d Hd. apply H. simpl. rewrite Hd. apply orb_true_r.
Qed.
Lemma lstrip_stop chars c s : mem_char c chars = false -> lstrip chars (String c s) = String c s.
Proof. intros H. simpl. rewrite H. reflexivity. Qed.
(* The name of the ephemeris after "JPL-", unless it starts with one of the characters of "JPL-". *)
Lemma ephemeris_jpl show h c s : head_get h "PLEPHEM" = Some (Txt ("JPL-" ++ String c s)) -> mem_char c "JPL- " = false -> strip ("JPL-" ++ String c s) = ("JPL-" ++ String c s)%string ->
  ephemeris show h = Some (lower (String c s)).
Proof.
  intros H N E. unfold ephemeris. rewrite H, E, lstrip_prefix by auto. rewrite lstrip_stop; [reflexivity|].
  simpl in *. repeat (apply orb_false_iff in N; destruct N as (? & N)). rewrite H0, H1, H2, H3. reflexivity.
Qed.
(* Characters of "JPL-" at the start are lost. *)
Lemma ephemeris_lost show h p s : head_get h "PLEPHEM" = Some (Txt (p ++ s)) -> strip (p ++ s) = (p ++ s)%string -> (forall c, mem_char c p = true -> mem_char c "JPL-" = true) ->
  ephemeris show h = Some (lower (lstrip "JPL-" s)).
Proof. intros H E P. unfold ephemeris. rewrite H, E, lstrip_prefix by exact P. reflexivity. Qed.
Lemma ephemeris_none show h : head_get h "PLEPHEM" = None -> ephemeris show h = None.
Proof. intros H. unfold ephemeris. rewrite H. reflexivity. Qed.
(* headers *)
Lemma low_text_spec h k : (head_get h k = None -> low_text h k = Ok None) /\
  (forall s, head_get h k = Some (Txt s) -> low_text h k = Ok (Some (lower (strip s)))) /\
  (forall q, head_get h k = Some (Num q) -> low_text h k = Err AttributeError).
Proof. unfold low_text. repeat split; intros; rewrite H; reflexivity. Qed.
Lemma mission_of_spec h s : (head_get h "MISSION" = Some (Txt s) -> mission_of h = Ok (lower s)) /\
  (head_get h "MISSION" = None -> head_get h "TELESCOP" = Some (Txt s) -> mission_of h = Ok (lower s)) /\
  (head_get h "MISSION" = None -> head_get h "TELESCOP" = None -> mission_of h = Err KeyError).
Proof. unfold mission_of, head_has. split; [intros H; rewrite H, H; reflexivity|]. split; intros A B; rewrite A, B; reflexivity. Qed.
Lemma mode_spec info m h k s k' s' : info m "instkey"%string None None = Some k -> head_get h k = Some (Txt s) ->
  info m "dmodekey"%string (Some (strip s)) None = Some k' -> head_get h k' = Some (Txt s') -> instrument_mode info m h = Ok (Some (strip s), Some (strip s')).
Proof. intros A B C D. unfold instrument_mode, key, stripped. rewrite A, B. cbn [bind text_of]. rewrite C, D. reflexivity. Qed.
Lemma no_mode_spec info m h k s : info m "instkey"%string None None = Some k -> head_get h k = Some (Txt s) ->
  info m "dmodekey"%string (Some (strip s)) None = None -> instrument_mode info m h = Ok (Some (strip s), None).
Proof. intros A B C. unfold instrument_mode, key, stripped. rewrite A, B. cbn [bind text_of]. rewrite C. reflexivity. Qed.
Lemma get_key_missing {A} (d : list (string * A)) k : ~ In k (map fst d) -> get_key d k = Err KeyError.
Proof.
  induction d as [|p d IH]; [reflexivity|]. cbn [map get_key]. intros N. destruct (String.eqb (fst p) k) eqn:E; [apply String.eqb_eq in E; exfalso; apply N; now left|].
  apply IH. intros H. apply N. now right.
Qed.
Lemma ephemeris_number show h q : head_get h "PLEPHEM" = Some (Num q) -> ephemeris show h = Some (lower (lstrip "JPL-" (strip (show q)))).
Proof. intros H. unfold ephemeris. now rewrite H. Qed.
