(* P_mission5.v: corrections of the database, errors, keys of instruments and modes *)
From Coq Require Import String Ascii.
From Verif Require Import Np Lib M_utils M_base M_io M_mission S_mission S_mission2 P_mission P_mission3 P_mission4.
From Coq Require Import ZArith List Bool Lia.
Import ListNotations.
Open Scope nat_scope.

Lemma read_raw mission lines E : match mission with Some m => Forall (fun c => ~ is_blank c) m | None => True end -> says mission lines E -> compatible E ->
  exists db, read_lines (option_map lower mission) [] lines = Ok db /\ reflects db E.
Proof.
  intros M S C. destruct (says_puts mission lines E M S) as [P F].
  destruct (puts_reflect E [] []) as (db & D & R); [split; [apply wf_nil|intros p t _; split; [intros A; destruct (at_nil _ _ A)|intros (b & a & X & _); destruct b; discriminate X]]|exact C|exact F|].
  exists db. rewrite P. split; assumption.
Qed.
Lemma last_given_fun E p t u : last_given E p t -> last_given E p u -> t = u.
Proof.
  induction E as [|[q v] E IH] using rev_ind; [intros (b & a & X & _); destruct b; discriminate X|]. rewrite !last_given_snoc. intros [[-> ->]|[N A]] [[E1 ->]|[N' B]]; try congruence. now apply IH.
Qed.
Lemma xmm_read m lines E s : Forall (fun c => ~ is_blank c) m -> same_case m % "xmm" -> says (Some m) lines E -> compatible E -> last_given E [% "gti"] (Leaf s) ->
  exists db, read_mission_info lines (Some m) = Ok db /\ at_path db [% "gti"] (Leaf (s ++ % ",GTI0")) /\
    forall p t, leaf t -> p <> [% "gti"] -> (at_path db p t <-> last_given E p t).
Proof.
  intros M SC S C G. destruct (read_raw (Some m) lines E M S C) as (db & D & W & R). assert (ND : NoDup (map fst db)) by (inversion W; assumption).
  assert (L1 : leaf (Leaf s)) by (intros d; discriminate). assert (L2 : leaf (Leaf (s ++ % ",GTI0"))) by (intros d; discriminate).
  assert (A : dget db % "gti" = Some (Leaf s)) by (apply at_one; [exact ND|]; apply R; assumption).
  exists (dset db % "gti" (Leaf (s ++ % ",GTI0"))). split.
  - unfold read_mission_info. rewrite D. cbn [bind option_map]. unfold patch_mission_info. apply lower_same in SC. rewrite lower_idem, SC. change (str_eqb (lower % "xmm") % "xmm") with true. cbv iota. rewrite A. reflexivity.
  - destruct (put_spec [% "gti"] db (Leaf (s ++ % ",GTI0")) _ W L2 eq_refl) as [W' K]. split; [apply K; [exact L2|left; split; reflexivity]|]. intros p t T N. rewrite K, R by exact T. split; [intros [[? _]|(_ & _ & ?)]; [contradiction|assumption]|].
    intros LG. right. pose proof (last_given_in _ _ _ LG). pose proof (last_given_in _ _ _ G). split; [|split; [|exact LG]]; intros B; apply N; [symmetry|]; now apply C.
Qed.
Lemma xte_read m lines E t0 : Forall (fun c => ~ is_blank c) m -> same_case m % "xte" -> says (Some m) lines E -> compatible E -> leaf t0 -> last_given E [% "ecol"] t0 ->
  exists db, read_mission_info lines (Some m) = Ok db /\ at_path db [% "ecol"] (Leaf % "PHA") /\ at_path db [% "ccol"] (Leaf % "PCUID") /\
    forall p t, leaf t -> p <> [] -> ~ begins [% "ecol"] p -> ~ begins [% "ccol"] p -> (at_path db p t <-> last_given E p t).
Proof.
  intros M SC S C T0 G. destruct (read_raw (Some m) lines E M S C) as (db & D & W & R). assert (ND : NoDup (map fst db)) by (inversion W; assumption).
  assert (A : dget db % "ecol" = Some t0) by (apply at_one; [exact ND|]; apply R; assumption).
  assert (L : forall s, leaf (Leaf s)) by (intros s d; discriminate).
  exists (dset (dset db % "ecol" (Leaf % "PHA")) % "ccol" (Leaf % "PCUID")). split.
  - unfold read_mission_info. rewrite D. cbn [bind option_map]. unfold patch_mission_info. apply lower_same in SC. rewrite lower_idem, SC. change (str_eqb (lower % "xte") % "xmm") with false. change (str_eqb (lower % "xte") % "xte") with true. cbv iota. cbn [bind]. rewrite A. reflexivity.
  - destruct (put_spec [% "ecol"] db (Leaf % "PHA") _ W (L _) eq_refl) as [W1 K1]. destruct (put_spec [% "ccol"] _ (Leaf % "PCUID") _ W1 (L _) eq_refl) as [W2 K2].
    split; [apply K2; [apply L|]; right; split; [|split; [|apply K1; [apply L|left; split; reflexivity]]]; intros [r X]; discriminate X|].
    split; [apply K2; [apply L|left; split; reflexivity]|]. intros p t T NE N1 N2. rewrite K2, K1, R by exact T.
    assert (B : forall k, ~ begins [k] p -> ~ begins p [k]).
    { intros k H [r X]. destruct p as [|a [|b p]]; [contradiction|injection X as X _; apply H; exists []; now rewrite X|discriminate X]. }
    split; [intros [[E1 _]|(_ & _ & [[E1 _]|(_ & _ & X)])]; [exfalso; apply N2; rewrite E1; exists []; reflexivity|exfalso; apply N1; rewrite E1; exists []; reflexivity|exact X]|]. intros X. right. split; [exact N2|]. split; [now apply B|]. right. split; [exact N1|]. split; [now apply B|exact X].
Qed.
(* ---- errors ---- *)
Lemma no_colon mission lines E line name ws after : match mission with Some m => Forall (fun c => ~ is_blank c) m /\ about m line | None => True end -> says mission lines E -> compatible E ->
  spaced line (name :: ws) -> (forall r, name <> "!"%char :: r) -> ~ In ":"%char name -> read_mission_info (lines ++ line :: after) mission = Err IndexError.
Proof.
  intros M S C SP N NC. destruct (read_raw mission lines E) as (db & D & _); [destruct mission; [apply M|exact I]|exact S|exact C|].
  unfold read_mission_info. replace (read_lines (option_map lower mission) [] (lines ++ line :: after)) with (Err IndexError : result (list (str * tree))); [reflexivity|]. symmetry.
  assert (G : forall l db0, read_lines (option_map lower mission) db0 l = Ok db -> read_lines (option_map lower mission) db0 (l ++ line :: after) = Err IndexError).
  { induction l as [|x l IH]; intros db0 H; cbn [read_lines app] in *.
    - injection H as ->. rewrite (line_given mission db line name ws SP N M). rewrite split_on_one by exact NC. destruct mission; reflexivity.
    - destruct (read_line (option_map lower mission) db0 x) as [d|]; [cbn [bind] in *; now apply IH|discriminate H]. }
  apply G, D.
Qed.
Lemma put_conflict p : forall d v q t k r, wf_tree (Node d) -> leaf t -> at_path d q t -> p = q ++ k :: r -> put d p v = Err TypeError.
Proof.
  induction p as [|a p IH]; intros d v q t k r W T A E; [destruct q; discriminate E|]. destruct q as [|b q]; [destruct (at_never_nil _ _ A)|]. cbn [app] in E. injection E as <- E.
  assert (ND : NoDup (map fst d)) by (inversion W; assumption). destruct p as [|c p]; [destruct q; discriminate E|].
  change (put d (a :: c :: p) v) with (match dget d a with None => let! d' := put [] (c :: p) v in Ok (dset d a (Node d')) | Some (Node e) => let! d' := put e (c :: p) v in Ok (dset d a (Node d')) | Some _ => Err TypeError end).
  destruct q as [|b q].
  - apply at_one in A; [|exact ND]. rewrite A. destruct t as [s|l|e]; [reflexivity|reflexivity|destruct (T e); reflexivity].
  - apply at_cons in A; [|exact ND]. destruct A as (e & G & A). rewrite G. rewrite (IH e v (b :: q) t k r); [reflexivity| |exact T|exact A|exact E]. apply dget_in in G; [|exact ND]. inversion W as [| |? ? X]; subst. eapply X, G.
Qed.
Lemma conflict mission lines E line path t q u k r after : match mission with Some m => Forall (fun c => ~ is_blank c) m /\ about m line | None => True end -> says mission lines E -> compatible E ->
  gives line path t -> leaf u -> last_given E q u -> (match mission with Some _ => tl path | None => path end) = q ++ k :: r -> read_mission_info (lines ++ line :: after) mission = Err TypeError.
Proof.
  intros M S C GV U LG EP. destruct (read_raw mission lines E) as (db & D & W & R); [destruct mission; [apply M|exact I]|exact S|exact C|].
  unfold read_mission_info. replace (read_lines (option_map lower mission) [] (lines ++ line :: after)) with (Err TypeError : result (list (str * tree))); [reflexivity|]. symmetry.
  assert (G : forall l db0, read_lines (option_map lower mission) db0 l = Ok db -> read_lines (option_map lower mission) db0 (l ++ line :: after) = Err TypeError).
  { induction l as [|x l IH]; intros db0 H; cbn [read_lines app] in *.
    - injection H as ->. destruct GV as (name & ws & SP & N & L & K & -> & ->). rewrite (line_given mission db line _ ws SP N M).
      rewrite split_join; [|destruct path; [cbn in L; lia|discriminate]|exact K]. destruct path as [|a [|b path]]; [cbn in L; lia|cbn in L; lia|].
      apply R in LG; [|exact U]. destruct mission as [m|]; rewrite (put_conflict _ _ _ _ _ _ _ W U LG EP); reflexivity.
    - destruct (read_line (option_map lower mission) db0 x) as [d|]; [cbn [bind] in *; now apply IH|discriminate H]. }
  apply G, D.
Qed.
(* ---- refutations ---- *)
Lemma prefix_refuted : exists lines db, read_mission_info lines (Some % "astro-e") = Ok db /\ lines = [% "ASTRO-E2:time TIME"] /\ at_path db [% "time"] (Leaf % "TIME").
Proof. eexists. eexists. split; [|split; [reflexivity|]]; [vm_compute; reflexivity|]. apply at_here. now left. Qed.
Lemma shorter_refuted : exists lines db, lines = [% "A:SIS:time T1"; % "A:SIS x"] /\ read_mission_info lines None = Ok db /\ forall t, ~ at_path db [% "A"; % "SIS"; % "time"] t.
Proof.
  eexists. eexists. split; [reflexivity|]. split; [vm_compute; reflexivity|]. intros t H. inversion H as [|? ? e ? ? I B]; subst. destruct I as [I|[]]. injection I as <-.
  inversion B as [|? ? e ? ? I B']; subst. destruct I as [I|[]]. discriminate I.
Qed.
Lemma twice_patched_refuted : exists info once twice, patch_mission_info info (Some % "xmm") = Ok once /\ patch_mission_info once (Some % "xmm") = Ok twice /\ once <> twice.
Proof. exists [(% "gti", Leaf % "STDGTI")]. eexists. eexists. split; [reflexivity|]. split; [reflexivity|]. discriminate. Qed.
Lemma characters_refuted : exists lines db, lines = [% "XMM:gti GTI1 GTI2"] /\ read_mission_info lines (Some % "xmm") = Ok db /\
  at_path db [% "gti"] (Leaves [% "GTI1"; % "GTI2"; % ","; % "G"; % "T"; % "I"; % "0"]).
Proof. eexists. eexists. split; [reflexivity|]. split; [vm_compute; reflexivity|]. apply at_here. now left. Qed.

(* ---- keys ---- *)
Notation dict := (list (str * tree)).
Fixpoint last_of (d : dict) (k : str) : option tree :=
  match d with [] => None | (a, b) :: d' => match last_of d' k with Some v => Some v | None => if str_dec (lower a) k then Some b else None end end.
Lemma last_of_app d e k : last_of (d ++ e) k = match last_of e k with Some v => Some v | None => last_of d k end.
Proof. induction d as [|[a b] d IH]; cbn [app last_of]; [destruct (last_of e k); reflexivity|]. rewrite IH. destruct (last_of e k); reflexivity. Qed.
Lemma last_of_none d key : last_of d (lower key) = None <-> no_entry d key.
Proof.
  unfold no_entry. induction d as [|[a b] d IH]; cbn [last_of]; [split; [intros _ ? ? []|reflexivity]|]. split.
  - intros H k v [[= <- <-]|I]; destruct (last_of d (lower key)) eqn:E; try discriminate H.
    + destruct (str_dec (lower a) (lower key)) as [|N]; [discriminate H|]. intros S. apply N, lower_same, S.
    + apply (proj1 IH eq_refl k v I).
  - intros H. rewrite (proj2 IH) by (intros k v I; apply (H k v); now right). destruct (str_dec (lower a) (lower key)) as [E|]; [|reflexivity]. exfalso. apply (H a b); [now left|now apply lower_same].
Qed.
Lemma last_of_some d key v : last_entry d key v -> last_of d (lower key) = Some v.
Proof.
  intros (b & k & a & -> & S & N). rewrite last_of_app. cbn [last_of]. rewrite (proj2 (last_of_none a key) N). destruct (str_dec (lower k) (lower key)) as [|H]; [reflexivity|]. destruct H. now apply lower_same.
Qed.
Lemma lower_fold d acc k : dget (fold_left (fun acc p => dset acc (lower (fst p)) (lower_tree (snd p))) d acc) k = match last_of d k with Some v => Some (lower_tree v) | None => dget acc k end.
Proof.
  revert acc. induction d as [|[a b] d IH]; intros acc; cbn [fold_left last_of fst snd]; [reflexivity|]. rewrite IH. destruct (last_of d k); [reflexivity|]. rewrite dget_set. destruct (str_dec (lower a) k); reflexivity.
Qed.
Lemma lower_get d k : dget (lower_dict d) k = option_map lower_tree (last_of d k).
Proof. unfold lower_dict. rewrite lower_fold. destruct (last_of d k); reflexivity. Qed.
Lemma lower_node d : lower_tree (Node d) = Node (lower_dict d).
Proof. reflexivity. Qed.
Lemma lower_leaf t : leaf t -> lower_tree t = t.
Proof. intros L. destruct t as [s|l|d]; [reflexivity|reflexivity|destruct (L d); reflexivity]. Qed.
Lemma fold_nodup d acc : NoDup (map fst acc) -> NoDup (map fst (fold_left (fun acc p => dset acc (lower (fst p)) (lower_tree (snd p))) d acc)).
Proof. revert acc. induction d as [|[a b] d IH]; intros acc H; cbn [fold_left]; [exact H|]. apply IH, dset_nodup, H. Qed.
Lemma lower_nodup d : NoDup (map fst (lower_dict d)).
Proof. apply fold_nodup. constructor. Qed.
Lemma update_get e : NoDup (map fst e) -> forall d k, dget (dupdate d e) k = match dget e k with Some v => Some v | None => dget d k end.
Proof.
  unfold dupdate. induction e as [|[a b] e IH]; intros N d k; cbn [fold_left dget fst snd]; [reflexivity|]. inversion N as [|? ? N1 N2]; subst. rewrite IH by exact N2. rewrite dget_set.
  destruct (str_dec a k) as [->|M].
  - rewrite str_eqb_refl. destruct (dget e k) as [v|] eqn:E; [|reflexivity]. exfalso. apply N1. apply dget_in in E; [|exact N2]. apply in_map_iff. exists (k, v). split; [reflexivity|exact E].
  - rewrite str_eqb_neq by exact M. reflexivity.
Qed.
Lemma pop_get d k k' : dget (dpop d k) k' = if str_dec k k' then None else dget d k'.
Proof.
  unfold dpop. induction d as [|[a b] d IH]; cbn [filter dget fst]; [destruct (str_dec k k'); reflexivity|]. destruct (str_dec a k) as [->|N].
  - rewrite str_eqb_refl. cbn [negb]. rewrite IH. destruct (str_dec k k') as [|M]; [reflexivity|]. now rewrite str_eqb_neq.
  - rewrite (str_eqb_neq a k) by exact N. cbn [negb dget]. rewrite IH. destruct (str_dec k k') as [->|M]; [now rewrite str_eqb_neq|reflexivity].
Qed.
Lemma specialise_node info n e : dget info (lower n) = Some (Node e) -> NoDup (map fst e) ->
  exists d, specialise info (Some n) = Ok d /\ forall k, dget d k = if str_dec (lower n) k then None else match dget e k with Some v => Some v | None => dget info k end.
Proof.
  intros G N. unfold specialise. rewrite G. cbn [update_with bind]. eexists. split; [reflexivity|]. intros k. rewrite pop_get. destruct (str_dec (lower n) k); [reflexivity|]. now apply update_get.
Qed.
Lemma specialise_none info n : dget info (lower n) = None -> specialise info (Some n) = Ok info.
Proof. intros G. unfold specialise. now rewrite G. Qed.
Lemma not_same a b : ~ same_case a b -> lower b <> lower a.
Proof. intros H E. apply H, lower_same. now symmetry. Qed.

Lemma key_plain info key v default : leaf v -> last_entry info key v -> get_key_from_mission_info info key default None None = Ok v.
Proof. intros L E. unfold get_key_from_mission_info. cbn [specialise bind]. rewrite lower_get, (last_of_some _ _ _ E). cbn [option_map]. now rewrite lower_leaf. Qed.
Lemma key_default info key default : no_entry info key -> get_key_from_mission_info info key default None None = Ok default.
Proof. intros E. unfold get_key_from_mission_info. cbn [specialise bind]. rewrite lower_get, (proj2 (last_of_none _ _) E). reflexivity. Qed.
Lemma key_case info key key' default inst mode : same_case key key' -> get_key_from_mission_info info key default inst mode = get_key_from_mission_info info key' default inst mode.
Proof. intros S. apply lower_same in S. unfold get_key_from_mission_info. now rewrite S. Qed.
Lemma key_no_instrument info key default inst mode : no_entry info inst -> get_key_from_mission_info info key default (Some inst) mode = get_key_from_mission_info info key default None mode.
Proof. intros E. unfold get_key_from_mission_info. rewrite specialise_none; [reflexivity|]. rewrite lower_get, (proj2 (last_of_none _ _) E). reflexivity. Qed.
Lemma inst_info info inst e : last_entry info inst (Node e) ->
  exists d, specialise (lower_dict info) (Some inst) = Ok d /\ forall k, dget d k = if str_dec (lower inst) k then None else match option_map lower_tree (last_of e k) with Some v => Some v | None => option_map lower_tree (last_of info k) end.
Proof.
  intros E. destruct (specialise_node (lower_dict info) inst (lower_dict e)) as (d & D & K); [rewrite lower_get, (last_of_some _ _ _ E); reflexivity|apply lower_nodup|].
  exists d. split; [exact D|]. intros k. rewrite K, !lower_get. reflexivity.
Qed.
Lemma key_instrument info key default inst e : last_entry info inst (Node e) -> ~ same_case key inst ->
  (forall v, leaf v -> last_entry e key v -> get_key_from_mission_info info key default (Some inst) None = Ok v) /\
  (no_entry e key -> get_key_from_mission_info info key default (Some inst) None = get_key_from_mission_info info key default None None).
Proof.
  intros E N. destruct (inst_info info inst e E) as (d & D & K). unfold get_key_from_mission_info. rewrite D. cbn [specialise bind]. rewrite K. destruct (str_dec (lower inst) (lower key)) as [X|_]; [destruct (not_same _ _ N X)|].
  split.
  - intros v L LE. rewrite (last_of_some _ _ _ LE). cbn [option_map]. now rewrite lower_leaf.
  - intros NE. rewrite (proj2 (last_of_none _ _) NE), lower_get. reflexivity.
Qed.
Lemma key_is_instrument info key default inst e : last_entry info inst (Node e) -> same_case key inst -> get_key_from_mission_info info key default (Some inst) None = Ok default.
Proof.
  intros E S. destruct (inst_info info inst e E) as (d & D & K). unfold get_key_from_mission_info. rewrite D. cbn [specialise bind]. rewrite K. apply lower_same in S. destruct (str_dec (lower inst) (lower key)) as [_|X]; [reflexivity|]. congruence.
Qed.
Lemma key_mode info key default inst mode e f : last_entry info inst (Node e) -> (last_entry e mode (Node f) \/ (no_entry e mode /\ last_entry info mode (Node f))) ->
  ~ same_case mode inst -> ~ same_case key mode ->
  (forall v, leaf v -> last_entry f key v -> get_key_from_mission_info info key default (Some inst) (Some mode) = Ok v) /\
  (no_entry f key -> get_key_from_mission_info info key default (Some inst) (Some mode) = get_key_from_mission_info info key default (Some inst) None).
Proof.
  intros E M N1 N2. destruct (inst_info info inst e E) as (d & D & K).
  assert (G : dget d (lower mode) = Some (Node (lower_dict f))).
  { rewrite K. destruct (str_dec (lower inst) (lower mode)) as [X|_]; [destruct (not_same _ _ N1 X)|]. destruct M as [M|[M1 M]]; [rewrite (last_of_some _ _ _ M); reflexivity|]. rewrite (proj2 (last_of_none _ _) M1), (last_of_some _ _ _ M). reflexivity. }
  destruct (specialise_node d mode _ G (lower_nodup f)) as (d' & D' & K'). unfold get_key_from_mission_info. rewrite D. cbn [bind]. rewrite D'. cbn [specialise bind]. rewrite K'. destruct (str_dec (lower mode) (lower key)) as [X|_]; [destruct (not_same _ _ N2 X)|].
  rewrite lower_get. split.
  - intros v L LE. rewrite (last_of_some _ _ _ LE). cbn [option_map]. now rewrite lower_leaf.
  - intros NE. rewrite (proj2 (last_of_none _ _) NE). reflexivity.
Qed.
Lemma key_word_error info key default inst mode w : last_entry info inst (Leaf w) -> w <> [] -> get_key_from_mission_info info key default (Some inst) mode = Err ValueError.
Proof.
  intros E N. unfold get_key_from_mission_info. unfold specialise at 1. rewrite lower_get, (last_of_some _ _ _ E). cbn [option_map lower_tree update_with]. destruct w; [contradiction|reflexivity].
Qed.
Lemma search_first s l a : case_insensitive_search s l = Some a <-> exists before after, l = before ++ a :: after /\ same_case s a /\ forall b, In b before -> ~ same_case s b.
Proof.
  induction l as [|x l IH]; cbn [case_insensitive_search].
  - split; [discriminate|]. intros (b & c & E & _). destruct b; discriminate E.
  - destruct (str_dec (lower s) (lower x)) as [E|N].
    + rewrite E, str_eqb_refl. split.
      * intros [= <-]. exists [], l. split; [reflexivity|]. split; [now apply lower_same|intros ? []].
      * intros (b & c & X & S & K). destruct b as [|y b]; cbn [app] in X; [injection X as -> _; reflexivity|]. injection X as -> _. destruct (K y); [now left|now apply lower_same].
    + rewrite (str_eqb_neq _ _ N), IH. split.
      * intros (b & c & -> & S & K). exists (x :: b), c. split; [reflexivity|]. split; [exact S|]. intros y [<-|I]; [intros Q; apply N, lower_same, Q|now apply K].
      * intros (b & c & X & S & K). destruct b as [|y b]; cbn [app] in X; [injection X as -> ->; exfalso; apply N, lower_same, S|]. injection X as -> ->. exists b, c. split; [reflexivity|]. split; [exact S|]. intros z I. apply K. now right.
Qed.
Lemma search_none s l : case_insensitive_search s l = None <-> forall b, In b l -> ~ same_case s b.
Proof.
  induction l as [|x l IH]; cbn [case_insensitive_search]; [split; [intros _ ? []|reflexivity]|]. destruct (str_dec (lower s) (lower x)) as [E|N].
  - rewrite E, str_eqb_refl. split; [discriminate|]. intros H. destruct (H x); [now left|now apply lower_same].
  - rewrite (str_eqb_neq _ _ N), IH. split; [intros H y [<-|I]; [intros Q; apply N, lower_same, Q|now apply H]|intros H y I; apply H; now right].
Qed.
