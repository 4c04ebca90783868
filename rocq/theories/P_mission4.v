(* P_mission4.v: reading the mission database *)
From Coq Require Import String Ascii.
From Verif Require Import Np Lib M_utils M_base M_io M_mission S_mission S_mission2 P_mission P_mission3.
From Coq Require Import ZArith List Bool Lia.
Import ListNotations.
Open Scope nat_scope.

(* ---- words ---- *)
Lemma blank_iff c : blank c = true <-> is_blank c.
Proof.
  unfold blank, is_blank. rewrite existsb_exists. split.
  - intros (x & I & E). apply Nat.eqb_eq in E. congruence.
  - intros I. exists (nat_of_ascii c). split; [exact I|apply Nat.eqb_refl].
Qed.
Lemma blank_not c : ~ is_blank c -> blank c = false.
Proof. intros H. destruct (blank c) eqn:E; [apply blank_iff in E; contradiction|reflexivity]. Qed.
Lemma words_blank b s : Forall is_blank b -> words_from [] (b ++ s) = words_from [] s.
Proof. induction 1 as [|c b B F IH]; [reflexivity|]. cbn [app words_from]. apply blank_iff in B. now rewrite B. Qed.
Lemma words_blank_end b cur : Forall is_blank b -> words_from cur b = words_from cur [].
Proof.
  intros F. destruct F as [|c b B F]; [reflexivity|]. cbn [words_from]. apply blank_iff in B. rewrite B. rewrite <- (app_nil_r b), words_blank by exact F. destruct cur; reflexivity.
Qed.
Lemma words_app_blank b s : Forall is_blank b -> forall cur, words_from cur (s ++ b) = words_from cur s.
Proof.
  intros F. induction s as [|c s IH]; intros cur; [now apply words_blank_end|]. cbn [app words_from]. destruct (blank c); [|apply IH]. destruct cur; rewrite IH; reflexivity.
Qed.
Lemma words_word w : Forall (fun c => ~ is_blank c) w -> forall cur s, words_from cur (w ++ s) = words_from (rev w ++ cur) s.
Proof.
  induction 1 as [|c w B F IH]; intros cur s; [reflexivity|]. cbn [app words_from]. rewrite blank_not by exact B. rewrite IH. cbn [rev]. now rewrite <- app_assoc.
Qed.
Lemma rev_not_nil {A} (w : list A) : w <> [] -> exists a r, rev w = a :: r.
Proof. intros H. destruct (rev w) as [|a r] eqn:E; [|eauto]. apply (f_equal (@rev A)) in E. rewrite rev_involutive in E. contradiction. Qed.
Lemma spaced_words s ws : spaced s ws -> words s = ws.
Proof.
  unfold words. induction 1 as [b F|b w rest ws F [NE W] R S IH].
  - rewrite words_blank_end by exact F. reflexivity.
  - rewrite words_blank, words_word by assumption. rewrite app_nil_r. destruct (rev_not_nil w NE) as (a & r & E).
    destruct R as [->|(c & q & -> & C)].
    + cbn [words_from] in *. rewrite E, <- E, rev_involutive, IH. reflexivity.
    + cbn [words_from] in *. apply blank_iff in C. rewrite C in *. rewrite E, <- E, rev_involutive. f_equal. exact IH.
Qed.
Lemma strip_left_app s : exists b, Forall is_blank b /\ s = b ++ strip_left s.
Proof.
  induction s as [|c s (b & F & E)]; [exists []; split; [constructor|reflexivity]|]. cbn [strip_left]. destruct (blank c) eqn:B.
  - exists (c :: b). split; [constructor; [now apply blank_iff|exact F]|cbn [app]; congruence].
  - exists []. split; [constructor|reflexivity].
Qed.
Lemma strip_app s : exists b e, Forall is_blank b /\ Forall is_blank e /\ s = b ++ strip s ++ e.
Proof.
  destruct (strip_left_app s) as (b & F & E). destruct (strip_left_app (rev (strip_left s))) as (e & F' & E').
  exists b, (rev e). split; [exact F|]. split; [now apply Forall_rev|]. unfold strip. rewrite <- rev_app_distr, <- E', rev_involutive. exact E.
Qed.
Lemma strip_left_head s c r : strip_left s = c :: r -> blank c = false.
Proof. induction s as [|a s IH]; cbn [strip_left]; [discriminate|]. destruct (blank a) eqn:B; [exact IH|]. intros [= -> _]. exact B. Qed.
Lemma strip_head s c r : strip s = c :: r -> blank c = false.
Proof.
  intros E. destruct (strip_left_app (rev (strip_left s))) as (e & _ & E'). apply (f_equal (@rev ascii)) in E'. rewrite rev_involutive, rev_app_distr in E'.
  unfold strip in E. rewrite E in E'. cbn [app] in E'. eapply strip_left_head, E'.
Qed.
Lemma words_strip s : words (strip s) = words s.
Proof.
  destruct (strip_app s) as (b & e & F & F' & E). unfold words. rewrite E at 2. rewrite words_blank by exact F. now rewrite words_app_blank.
Qed.
Lemma words_open cur s : cur <> [] -> exists x rest ws, words_from cur s = (rev cur ++ x) :: ws /\ s = x ++ rest /\ (rest = [] \/ exists c r, rest = c :: r /\ is_blank c).
Proof.
  revert cur. induction s as [|c s IH]; intros cur H.
  - exists [], [], []. rewrite !app_nil_r. split; [destruct cur; [contradiction|reflexivity]|]. split; [reflexivity|now left].
  - cbn [words_from]. destruct (blank c) eqn:B.
    + destruct cur as [|a cur]; [contradiction|]. exists [], (c :: s), (words_from [] s). rewrite app_nil_r. split; [reflexivity|]. split; [reflexivity|]. right. exists c, s. split; [reflexivity|now apply blank_iff].
    + destruct (IH (c :: cur)) as (x & rest & ws & E & -> & R); [discriminate|]. exists (c :: x), rest, ws. split; [rewrite E; cbn [rev]; now rewrite <- app_assoc|]. split; [reflexivity|exact R].
Qed.
Lemma strip_first s name ws : words s = name :: ws -> exists c n rest, name = c :: n /\ strip s = name ++ rest /\ (rest = [] \/ exists c r, rest = c :: r /\ is_blank c).
Proof.
  intros W. rewrite <- words_strip in W. destruct (strip s) as [|c r] eqn:E; [discriminate W|]. unfold words in W. cbn [words_from] in W. rewrite (strip_head s c r E) in W.
  destruct (words_open [c] r) as (x & rest & ws' & W' & -> & R); [discriminate|]. rewrite W' in W. injection W as <- <-. exists c, x, rest. repeat split. exact R.
Qed.
Lemma strip_none s : words s = [] -> strip s = [].
Proof.
  intros W. rewrite <- words_strip in W. destruct (strip s) as [|c r] eqn:E; [reflexivity|]. unfold words in W. cbn [words_from] in W. rewrite (strip_head s c r E) in W.
  destruct (words_open [c] r) as (x & rest & ws' & W' & _); [discriminate|]. rewrite W' in W. discriminate W.
Qed.
Lemma starts_with_iff p s : starts_with p s = true <-> begins p s.
Proof.
  revert s. induction p as [|a p IH]; intros s; cbn [starts_with]; [split; [intros _; apply begins_nil|reflexivity]|]. destruct s as [|b s]; [split; [discriminate|intros [r E]; discriminate E]|].
  rewrite andb_true_iff, Ascii.eqb_eq, IH, begins_cons. tauto.
Qed.
Lemma lower_app a b : lower (a ++ b) = lower a ++ lower b.
Proof. apply map_app. Qed.
Lemma lower_idem a : lower (lower a) = lower a.
Proof.
  unfold lower. rewrite map_map. apply map_ext. intros c. apply nat_inj. rewrite !lower_char_nat.
  destruct (Nat.leb_spec 65 (nat_of_ascii c)), (Nat.leb_spec (nat_of_ascii c) 90); cbn [andb];
    destruct (Nat.leb_spec 65 (nat_of_ascii c)); destruct (Nat.leb_spec (nat_of_ascii c) 90); cbn [andb]; try lia;
    destruct (Nat.leb_spec 65 (nat_of_ascii c + 32)); destruct (Nat.leb_spec (nat_of_ascii c + 32) 90); cbn [andb]; lia.
Qed.
Lemma lower_blank c : is_blank (lower_char c) <-> is_blank c.
Proof.
  unfold is_blank. rewrite lower_char_nat. destruct (Nat.leb_spec 65 (nat_of_ascii c)), (Nat.leb_spec (nat_of_ascii c) 90); cbn [andb In]; lia.
Qed.
Lemma begins_lower m s : begins (lower m) (lower s) <-> exists a b, s = a ++ b /\ same_case a m.
Proof.
  split.
  - intros [r E]. exists (firstn (length m) s), (skipn (length m) s). split; [symmetry; apply firstn_skipn|]. apply lower_same.
    unfold lower at 1. rewrite <- firstn_map. fold (lower s). rewrite E, firstn_app. unfold lower. rewrite map_length, Nat.sub_diag, firstn_O, app_nil_r, <- (map_length lower_char m), firstn_all. reflexivity.
  - intros (a & b & -> & S). apply lower_same in S. rewrite lower_app, S. exists (lower b). reflexivity.
Qed.
Lemma no_blank_begins m name rest : Forall (fun c => ~ is_blank c) m -> (rest = [] \/ exists c r, rest = c :: r /\ is_blank c) ->
  (begins (lower m) (lower (name ++ rest)) <-> exists a b, name = a ++ b /\ same_case a m).
Proof.
  intros F R. rewrite <- begins_lower. split; [|intros [r E]; exists (r ++ lower rest); rewrite lower_app, E; symmetry; apply app_assoc].
  destruct R as [->|(c & r & -> & C)]; [rewrite app_nil_r; auto|]. revert m F. induction name as [|x name IH]; intros [|y m] F B.
  - apply begins_nil.
  - exfalso. cbn [app lower map] in B. apply begins_cons in B. destruct B as [B _]. inversion F as [|? ? Y _]; subst. apply Y, lower_blank. rewrite B. now apply lower_blank.
  - apply begins_nil.
  - cbn [app lower map] in *. apply begins_cons in B. apply begins_cons. inversion F; subst. split; [apply B|]. now apply IH.
Qed.

(* ---- one line ---- *)
Lemma comment_skipped mission db line : comment line -> read_line mission db line = Ok db.
Proof.
  intros C. unfold read_line. destruct (match mission with Some m => negb (starts_with m (lower (strip line))) | None => false end); [reflexivity|]. destruct C as [S|(name & ws & S & r & ->)].
  - apply spaced_words in S. rewrite (strip_none _ S). reflexivity.
  - apply spaced_words in S. destruct (strip_first _ _ _ S) as (c & n & rest & [= <- <-] & E & _). rewrite E. reflexivity.
Qed.
Lemma line_given mission db line name ws : spaced line (name :: ws) -> (forall r, name <> "!"%char :: r) ->
  match mission with Some m => Forall (fun c => ~ is_blank c) m /\ about m line | None => True end ->
  read_line (option_map lower mission) db line = match mission with
    | None => match split_on ":" name with [_] => Err IndexError | data => put db data (value_of ws) end
    | Some _ => put db (tl (split_on ":" name)) (value_of ws) end.
Proof.
  intros S N A. unfold read_line. pose proof (spaced_words _ _ S) as W. destruct (strip_first _ _ _ W) as (c & n & rest & E & ST & R).
  replace (match option_map lower mission with Some m => negb (starts_with m (lower (strip line))) | None => false end) with false.
  - rewrite words_strip, W. rewrite ST, E. cbn [app]. destruct (Ascii.eqb_spec c "!") as [->|_]; [exfalso; apply (N n E)|]. rewrite <- E.
    destruct mission; cbn [option_map]; [reflexivity|]. destruct (split_on ":" name) as [|a [|b l]]; reflexivity.
  - destruct mission as [m|]; [|reflexivity]. cbn [option_map]. destruct A as (F & name' & ws' & a & b & S' & E' & SC). pose proof (spaced_words _ _ S') as W'. rewrite W in W'. injection W' as <- <-.
    rewrite ST. replace (starts_with (lower m) (lower (name ++ rest))) with true; [reflexivity|]. symmetry. apply starts_with_iff, no_blank_begins; [exact F|exact R|]. exists a, b. split; assumption.
Qed.
Lemma line_other m db line name ws : spaced line (name :: ws) -> Forall (fun c => ~ is_blank c) m -> ~ about m line -> read_line (Some (lower m)) db line = Ok db.
Proof.
  intros S F A. unfold read_line. pose proof (spaced_words _ _ S) as W. destruct (strip_first _ _ _ W) as (c & n & rest & E & ST & R).
  destruct (starts_with (lower m) (lower (strip line))) eqn:B; [|reflexivity]. exfalso. apply starts_with_iff in B. rewrite ST in B. apply no_blank_begins in B; [|exact F|exact R].
  destruct B as (a & b & E' & SC). apply A. exists name, ws, a, b. split; [exact S|split; [exact E'|exact SC]].
Qed.
Lemma value_leaf ws : leaf (value_of ws).
Proof. intros d. destruct ws as [|w [|w' ws]]; discriminate. Qed.
Fixpoint puts (db : list (str * tree)) (E : list (list str * tree)) : result (list (str * tree)) :=
  match E with [] => Ok db | (p, t) :: E' => let! db := put db p t in puts db E' end.
Lemma says_puts mission lines E : match mission with Some m => Forall (fun c => ~ is_blank c) m | None => True end -> says mission lines E ->
  (forall db, read_lines (option_map lower mission) db lines = puts db E) /\ Forall (fun e => fst e <> [] /\ leaf (snd e)) E.
Proof.
  intros M. induction 1 as [|line lines E C S [IH F]|m line lines E path t -> G A S [IH F]|line lines E path t -> G S [IH F]|m line lines E path t -> A G S [IH F]]; (split; [intros db; cbn [read_lines]|]); try assumption; try constructor; try assumption.
  - rewrite comment_skipped by exact C. cbn [bind]. apply IH.
  - destruct G as (name & ws & SP & _). cbn [option_map]. rewrite (line_other m db line name ws) by assumption. cbn [bind]. apply IH.
  - destruct G as (name & ws & SP & N & L & K & -> & ->). rewrite (line_given None db line _ ws SP N I). rewrite split_join; [|destruct path; [cbn in L; lia|discriminate]|exact K].
    destruct path as [|a [|b path]]; [cbn in L; lia|cbn in L; lia|]. cbn [puts]. destruct (put db (a :: b :: path) (value_of ws)); [cbn [bind]; apply IH|reflexivity].
  - destruct G as (name & ws & SP & N & L & K & -> & ->). split; [destruct path; [cbn in L; lia|discriminate]|apply value_leaf].
  - destruct G as (name & ws & SP & N & L & K & -> & ->). rewrite (line_given (Some m) db line _ ws SP N (conj M A)). rewrite split_join; [|destruct path; [cbn in L; lia|discriminate]|exact K].
    cbn [puts]. destruct (put db (tl path) (value_of ws)); [cbn [bind]; apply IH|reflexivity].
  - destruct G as (name & ws & SP & N & L & K & -> & ->). split; [destruct path as [|a [|b path]]; [cbn in L; lia|cbn in L; lia|discriminate]|apply value_leaf].
Qed.
(* ---- all lines ---- *)
Definition reflects (db : list (str * tree)) (E : list (list str * tree)) : Prop := wf_tree (Node db) /\ forall p t, leaf t -> (at_path db p t <-> last_given E p t).
Lemma last_given_in E p t : last_given E p t -> In p (map fst E).
Proof. intros (b & a & -> & _). rewrite map_app. apply in_or_app. right. now left. Qed.
Lemma last_given_snoc E p t q u : last_given (E ++ [(q, u)]) p t <-> (p = q /\ t = u) \/ (p <> q /\ last_given E p t).
Proof.
  split.
  - intros (b & a & EQ & N). destruct a as [|x a _] using rev_ind.
    + apply app_inj_tail in EQ. destruct EQ as [-> [= -> ->]]. left. split; reflexivity.
    + rewrite app_comm_cons, app_assoc in EQ. apply app_inj_tail in EQ. destruct EQ as [-> <-]. rewrite map_app in N. right. split; [intros ->; apply N, in_or_app; right; now left|].
      exists b, a. split; [reflexivity|]. intros I. apply N, in_or_app. now left.
  - intros [[-> ->]|[N (b & a & -> & K)]]; [exists E, []; split; [reflexivity|intros []]|]. exists b, (a ++ [(q, u)]). split; [now rewrite <- app_assoc|]. rewrite map_app. intros I. apply in_app_or in I. destruct I as [I|[I|[]]]; [contradiction|cbn in I; congruence].
Qed.
Lemma puts_reflect E2 : forall E1 db, reflects db E1 -> compatible (E1 ++ E2) -> Forall (fun e => fst e <> [] /\ leaf (snd e)) E2 -> exists db', puts db E2 = Ok db' /\ reflects db' (E1 ++ E2).
Proof.
  induction E2 as [|[p t] E2 IH]; intros E1 db R C F; [exists db; rewrite app_nil_r; split; [reflexivity|exact R]|]. inversion F as [|? ? [NE T] F2]; subst. cbn [fst snd] in *.
  destruct R as [W R]. assert (I1 : forall q u, leaf u -> at_path db q u -> In q (map fst (E1 ++ (p, t) :: E2))) by (intros q u U A; rewrite map_app; apply in_or_app; left; eapply last_given_in, R; [exact U|exact A]).
  assert (I2 : In p (map fst (E1 ++ (p, t) :: E2))) by (rewrite map_app; apply in_or_app; right; now left).
  destruct (put_total p db t W NE) as [db1 P]; [intros q u U A B; apply C; [eapply I1; eassumption|exact I2|exact B]|]. cbn [puts]. rewrite P. cbn [bind].
  destruct (put_spec p db t db1 W T P) as [W1 K]. replace (E1 ++ (p, t) :: E2) with ((E1 ++ [(p, t)]) ++ E2) in * by now rewrite <- app_assoc.
  apply IH; [|exact C|exact F2]. split; [exact W1|]. intros q u U. rewrite K by exact U. rewrite last_given_snoc. split; [intros [?|(B1 & B2 & A)]; [left; assumption|]|intros [?|[N A]]; [left; assumption|]]; right.
  - split; [|now apply R]. intros ->. apply B1. exists []. now rewrite app_nil_r.
  - apply R in A; [|exact U]. split; [|split; [|exact A]]; intros B; apply N; [symmetry|]; apply C; try assumption; eapply I1; eassumption.
Qed.
Lemma database_read mission lines E : match mission with Some m => Forall (fun c => ~ is_blank c) m /\ ~ same_case m % "xmm" /\ ~ same_case m % "xte" | None => True end ->
  says mission lines E -> compatible E ->
  exists db, read_mission_info lines mission = Ok db /\ forall p t, leaf t -> (at_path db p t <-> last_given E p t).
Proof.
  intros M S C. destruct (says_puts mission lines E) as [P F]; [destruct mission; [apply M|exact I]|exact S|].
  destruct (puts_reflect E [] []) as (db & D & _ & R); [split; [apply wf_nil|intros p t _; split; [intros A; destruct (at_nil _ _ A)|intros (b & a & X & _); destruct b; discriminate X]]|exact C|exact F|].
  exists db. split; [|exact R]. unfold read_mission_info. rewrite P, D. cbn [bind]. destruct mission as [m|]; [|reflexivity]. cbn [option_map patch_mission_info]. rewrite lower_idem.
  destruct M as (_ & X1 & X2). rewrite !str_eqb_neq; [reflexivity| |]; intros X; [apply X2|apply X1]; apply lower_same; exact X.
Qed.
