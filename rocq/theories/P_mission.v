(* P_mission.v: reading of the channel notation *)
From Coq Require Import String Ascii.
From Verif Require Import Np Lib M_utils M_base M_io M_mission S_mission.
From Coq Require Import ZArith QArith List Bool Lia.
Import ListNotations.
Open Scope Z_scope.

Lemma str_eqb_spec a b : str_eqb a b = true <-> a = b.
Proof.
  revert b. induction a as [|x a IH]; intros [|y b]; cbn; try (split; congruence).
  rewrite andb_true_iff, Ascii.eqb_eq, IH. split; [intros []; congruence|intros H; injection H; auto].
Qed.
Lemma str_eqb_refl a : str_eqb a a = true.
Proof. now apply str_eqb_spec. Qed.
Lemma str_eqb_neq a b : a <> b -> str_eqb a b = false.
Proof. intros H. destruct (str_eqb a b) eqn:E; [|reflexivity]. apply str_eqb_spec in E. contradiction. Qed.
Lemma str_dec (a b : str) : {a = b} + {a <> b}.
Proof. apply list_eq_dec, ascii_dec. Qed.

(* ---- numbers ---- *)
Lemma digit_ok c : is_digit c -> digit c = Some (Z.of_nat (nat_of_ascii c) - 48).
Proof. unfold is_digit, digit. intros [A B]. apply Nat.leb_le in A, B. now rewrite A, B. Qed.
Lemma digits_value s : Forall is_digit s -> forall acc, digits_from acc s = Some (acc * 10 ^ Z.of_nat (length s) + decimal s).
Proof.
  induction 1 as [|c s D F IH]; intros acc; [cbn; f_equal; lia|]. cbn [digits_from length decimal]. rewrite digit_ok by exact D. rewrite IH. f_equal.
  rewrite Nat2Z.inj_succ, Z.pow_succ_r by lia. ring.
Qed.
Lemma digit_not_blank c : is_digit c -> blank c = false.
Proof.
  unfold is_digit, blank. intros H. cbn [existsb]. assert (E : forall k, (k < 48)%nat -> Nat.eqb (nat_of_ascii c) k = false) by (intros k K; apply Nat.eqb_neq; lia).
  rewrite !E by lia. reflexivity.
Qed.
Lemma strip_left_digits s : Forall is_digit s -> strip_left s = s.
Proof. intros [|c s' D F]; [reflexivity|]. cbn [strip_left]. now rewrite digit_not_blank. Qed.
Lemma strip_digits s : Forall is_digit s -> strip s = s.
Proof. intros F. unfold strip. rewrite (strip_left_digits s) by exact F. rewrite strip_left_digits by now apply Forall_rev. apply rev_involutive. Qed.
Lemma int_number s : number s -> int_of s = Ok (decimal s).
Proof.
  intros [N F]. unfold int_of. rewrite strip_digits by exact F. destruct s as [|c s]; [contradiction|].
  assert (E : match digits_from 0 (c :: s) with Some v => Ok v | None => Err ValueError end = Ok (decimal (c :: s))).
  { rewrite digits_value by exact F. f_equal. }
  inversion F as [|? ? D _]; subst. unfold is_digit in D.
  destruct c as [b0 b1 b2 b3 b4 b5 b6 b7]; destruct b0, b1, b2, b3, b4, b5, b6, b7; cbn in D; try lia; exact E.
Qed.

(* ---- splitting ---- *)
Lemma has_app c a b : has c (a ++ b) = (has c a || has c b)%bool.
Proof. unfold has. apply existsb_app. Qed.
Lemma has_cons c x s : has c (x :: s) = (Ascii.eqb c x || has c s)%bool.
Proof. reflexivity. Qed.
Lemma has_mid c a b : has c (a ++ [c] ++ b) = true.
Proof. rewrite has_app. cbn [app]. rewrite has_cons, Ascii.eqb_refl. apply orb_true_r. Qed.
Lemma has_false c s : ~ In c s -> has c s = false.
Proof. intros H. destruct (has c s) eqn:E; [|reflexivity]. apply existsb_exists in E. destruct E as (x & I & X). apply Ascii.eqb_eq in X. subst. contradiction. Qed.
Lemma digits_without c s : Forall is_digit s -> ~ is_digit c -> ~ In c s.
Proof. intros F N I. rewrite Forall_forall in F. apply N, F, I. Qed.
Lemma split_on_one c s : ~ In c s -> split_on c s = [s].
Proof.
  induction s as [|a s IH]; intros H; [reflexivity|]. cbn [split_on]. destruct (Ascii.eqb_spec a c) as [->|N]; [exfalso; apply H; now left|].
  rewrite IH by (intros I; apply H; now right). reflexivity.
Qed.
Lemma split_on_app c s r : ~ In c s -> split_on c (s ++ c :: r) = s :: split_on c r.
Proof.
  induction s as [|a s IH]; intros H; cbn [app split_on].
  - now rewrite Ascii.eqb_refl.
  - destruct (Ascii.eqb_spec a c) as [->|N]; [exfalso; apply H; now left|]. rewrite IH by (intros I; apply H; now right). reflexivity.
Qed.
Lemma split_join c l : l <> [] -> (forall w, In w l -> ~ In c w) -> split_on c (join c l) = l.
Proof.
  induction l as [|w l IH]; intros NE H; [contradiction|]. destruct l as [|w' l]; [apply split_on_one, H; now left|].
  change (join c (w :: w' :: l)) with (w ++ c :: join c (w' :: l)). rewrite split_on_app by (apply H; now left). f_equal. apply IH; [discriminate|]. intros v I. apply H. now right.
Qed.
Lemma chan_spec sep g : ~ is_digit sep -> group_ok g -> split_chan_spec (text sep g) sep = Ok (meaning g).
Proof.
  intros S G. unfold split_chan_spec. destruct g as [a|a b|p s t]; cbn [text meaning group_ok] in *.
  - rewrite has_false by (apply digits_without; [apply G|exact S]). rewrite Nat.ltb_irrefl, int_number by exact G. reflexivity.
  - destruct G as (A & B & L). rewrite has_mid.
    change (a ++ [sep] ++ b) with (a ++ sep :: b). rewrite split_on_app by (apply digits_without; [apply A|exact S]). rewrite split_on_one by (apply digits_without; [apply B|exact S]).
    replace (Nat.ltb (length b) (length a)) with false by (symmetry; apply Nat.ltb_ge; exact L). rewrite !int_number by assumption. reflexivity.
  - destruct G as (P & A & B & L). assert (PS : number (p ++ s)). { destruct A as [N F]. split; [destruct p; [exact N|discriminate]|now apply Forall_app]. }
    assert (PT : number (p ++ t)). { destruct B as [N F]. split; [destruct p; [exact N|discriminate]|now apply Forall_app]. }
    rewrite has_mid.
    change ((p ++ s) ++ [sep] ++ t) with ((p ++ s) ++ sep :: t). rewrite split_on_app by (apply digits_without; [apply PS|exact S]). rewrite split_on_one by (apply digits_without; [apply B|exact S]).
    rewrite app_length. destruct p as [|c p].
    + cbn [length app Nat.add] in *. replace (Nat.ltb (length t) (length s)) with false by (symmetry; apply Nat.ltb_ge; lia). rewrite !int_number by assumption. reflexivity.
    + replace (Nat.ltb (length t) (length (c :: p) + length s)) with true by (symmetry; apply Nat.ltb_lt; cbn [length]; lia).
      replace (match t with [] => [] | _ :: _ => firstn (length (c :: p) + length s - length t) ((c :: p) ++ s) end) with (c :: p).
      * rewrite !int_number by assumption. reflexivity.
      * destruct t as [|x t]; [destruct B; contradiction|]. rewrite <- L. replace (length (c :: p) + length s - length s)%nat with (length (c :: p)) by lia. rewrite firstn_app, Nat.sub_diag, firstn_all, firstn_O. symmetry. apply app_nil_r.
Qed.
Lemma text_without sep g c : group_ok g -> ~ is_digit c -> c <> sep -> ~ In c (text sep g).
Proof.
  intros G D N I. assert (H : forall s, Forall is_digit s -> In c s -> False) by (intros s F J; rewrite Forall_forall in F; apply D, F, J).
  destruct g as [a|a b|p s t]; cbn [text group_ok] in *.
  - apply (H a); [apply G|exact I].
  - destruct G as (A & B & _). apply in_app_or in I. destruct I as [I|[I|I]]; [apply (H a); [apply A|exact I]|congruence|apply (H b); [apply B|exact I]].
  - destruct G as (P & A & B & _). apply in_app_or in I. destruct I as [I|[I|I]]; [|congruence|apply (H t); [apply B|exact I]].
    apply in_app_or in I. destruct I as [I|I]; [now apply (H p)|apply (H s); [apply A|exact I]].
Qed.
Lemma in_join c w l : In c (join w l) -> c = w \/ exists x, In x l /\ In c x.
Proof.
  induction l as [|x l IH]; intros I; [destruct I|]. destruct l as [|y l]; [right; exists x; split; [now left|exact I]|].
  change (join w (x :: y :: l)) with (x ++ w :: join w (y :: l)) in I. apply in_app_or in I. destruct I as [I|[I|I]]; [right; exists x; split; [now left|exact I]|now left|].
  destruct (IH I) as [E|(z & Z & J)]; [now left|right; exists z; split; [now right|exact J]].
Qed.
Lemma groups_ok gs : gs <> [] -> Forall group_ok gs -> split_C_string (join "," (map (text "~") gs)) "~" = Ok (map meaning gs).
Proof.
  intros NE F. rewrite Forall_forall in F. unfold split_C_string.
  assert (D : forall c, c = ","%char \/ c = ":"%char \/ c = "~"%char -> ~ is_digit c) by (intros c [->|[->| ->]]; unfold is_digit; cbn; lia).
  rewrite has_false.
  - rewrite split_join.
    + clear NE. induction gs as [|g gs IH]; [reflexivity|]. cbn [map map_result]. rewrite chan_spec; [|apply D; auto|apply F; now left]. cbn [bind]. rewrite IH by (intros x I; apply F; now right). reflexivity.
    + destruct gs; [contradiction|discriminate].
    + intros w I. apply in_map_iff in I. destruct I as (g & <- & I). apply text_without; [now apply F|apply D; auto|discriminate].
  - intros I. apply in_join in I. destruct I as [E|(x & I & J)]; [discriminate E|]. apply in_map_iff in I. destruct I as (g & <- & I). revert J. apply text_without; [now apply F|apply D; auto|discriminate].
Qed.
Lemma range_ok a b : number a -> number b ->
  exists l, split_C_string (a ++ [":"%char] ++ b) "~" = Ok l /\ length l = Z.to_nat (decimal b + 1 - decimal a) /\
    forall i c, nth_error l i = Some c -> c = (decimal a + Z.of_nat i, decimal a + Z.of_nat i).
Proof.
  intros A B. assert (D : ~ is_digit ":"%char) by (unfold is_digit; cbn; lia). unfold split_C_string. rewrite has_mid.
  change (a ++ [":"%char] ++ b) with (a ++ ":"%char :: b). rewrite split_on_app by (apply digits_without; [apply A|exact D]). rewrite split_on_one by (apply digits_without; [apply B|exact D]).
  rewrite !int_number by assumption. cbn [bind]. eexists. split; [reflexivity|]. split; [now rewrite map_length, seq_length|]. intros i c H. rewrite nth_error_map in H.
  destruct (nth_error (seq 0 _) i) eqn:E; [|discriminate H]. cbn in H. injection H as <-. assert (n = i). { assert (L : (i < length (seq 0 (Z.to_nat (decimal b + 1 - decimal a))))%nat) by (apply nth_error_Some; congruence). rewrite seq_length in L. apply nth_error_nth with (d := 0%nat) in E. rewrite seq_nth in E by exact L. lia. }
  now subst.
Qed.
(* ---- fields ---- *)
Lemma upper_capital c : upper c = true <-> capital c.
Proof. unfold upper, capital. rewrite andb_true_iff, !Nat.leb_le. tauto. Qed.
Lemma unbroken_cons a s : unbroken (a :: s) -> unbroken s.
Proof. intros H x y c E. apply (H (a :: x) y c). rewrite E. reflexivity. Qed.
Lemma split_fields_app f c r : unbroken f -> capital c -> split_fields (f ++ ","%char :: c :: r) = f :: split_fields (c :: r).
Proof.
  induction f as [|a f IH]; intros U C.
  - cbn [app]. remember (c :: r) as cr eqn:E. cbn [split_fields]. rewrite E. replace (upper c) with true by (symmetry; now apply upper_capital). reflexivity.
  - cbn [app]. cbn [split_fields]. rewrite IH by (try assumption; eapply unbroken_cons; eassumption).
    replace (Ascii.eqb a "," && match f ++ ","%char :: c :: r with [] => false | b :: _ => upper b end)%bool with false; [reflexivity|].
    symmetry. destruct (Ascii.eqb_spec a ","); [|reflexivity]. subst a. cbn [andb]. destruct f as [|b f]; [reflexivity|]. cbn [app]. destruct (upper b) eqn:E; [|reflexivity]. exfalso. apply upper_capital in E. now apply (U [] f b).
Qed.
Lemma split_fields_one f : unbroken f -> split_fields f = [f].
Proof.
  induction f as [|a f IH]; intros U; [reflexivity|]. cbn [split_fields]. rewrite IH by (eapply unbroken_cons; eassumption).
  replace (Ascii.eqb a "," && match f with [] => false | b :: _ => upper b end)%bool with false; [reflexivity|].
  symmetry. destruct (Ascii.eqb_spec a ","); [|reflexivity]. subst a. cbn [andb]. destruct f as [|b f]; [reflexivity|]. destruct (upper b) eqn:E; [|reflexivity]. exfalso. apply upper_capital in E. now apply (U [] f b).
Qed.
Lemma split_fields_join fs : fs <> [] -> Forall unbroken fs -> Forall begins_with_capital (tl fs) -> split_fields (join "," fs) = fs.
Proof.
  induction fs as [|f fs IH]; intros NE U C; [contradiction|]. inversion U; subst. destruct fs as [|f' fs]; [now apply split_fields_one|].
  cbn [tl] in C. inversion C as [|? ? (c & r & -> & Cc) C']; subst. change (join "," (f :: (c :: r) :: fs)) with (f ++ ","%char :: join "," ((c :: r) :: fs)).
  assert (J : exists q, join "," ((c :: r) :: fs) = c :: q) by (destruct fs; [exists r; reflexivity|exists (r ++ ","%char :: join "," (l :: fs)); reflexivity]).
  destruct J as [q J]. rewrite J, split_fields_app, <- J by assumption. f_equal. apply IH; [discriminate|assumption|exact C'].
Qed.
Lemma find_skip fs rest : (forall f, In f fs -> forall r, f <> "C"%char :: r) -> find_C (fs ++ rest) = find_C rest.
Proof.
  induction fs as [|f fs IH]; intros H; [reflexivity|]. cbn [app find_C]. rewrite <- IH by (intros g I; apply H; now right).
  destruct f as [|c f]; [reflexivity|]. destruct (ascii_dec c "C") as [->|N]; [exfalso; apply (H ("C"%char :: f) (or_introl eq_refl) f eq_refl)|].
  destruct c as [b0 b1 b2 b3 b4 b5 b6 b7]; destruct b0, b1, b2, b3, b4, b5, b6, b7; try reflexivity. contradiction.
Qed.
Lemma rfind_none i c s found : ~ In c s -> rfind_from i c s found = found.
Proof. revert i found. induction s as [|a s IH]; intros i found H; [reflexivity|]. cbn [rfind_from]. destruct (Ascii.eqb_spec a c) as [->|]; [exfalso; apply H; now left|]. apply IH. intros I; apply H; now right. Qed.
Lemma rfind_app i c s r found : ~ In c r -> rfind_from i c (s ++ c :: r) found = Some (i + length s)%nat.
Proof.
  intros H. revert i found. induction s as [|a s IH]; intros i found; cbn [app rfind_from].
  - rewrite Ascii.eqb_refl, rfind_none by exact H. f_equal. cbn. lia.
  - rewrite IH. f_equal. cbn [length]. lia.
Qed.
Lemma match_ok content r : ~ In "]"%char r -> match_C ("C"%char :: "["%char :: content ++ "]"%char :: r) = Some content.
Proof. intros H. cbn [match_C]. unfold rfind. rewrite rfind_app by exact H. cbn [Nat.add]. f_equal. rewrite firstn_app, Nat.sub_diag, firstn_all, firstn_O. apply app_nil_r. Qed.
Definition c_field (content r : str) : str := ["C"%char; "["%char] ++ content ++ ["]"%char] ++ r.
Lemma decode_ok before after gs r :
  before <> [] -> Forall unbroken before -> Forall begins_with_capital (tl before) -> (forall f, In f before -> forall q, f <> "C"%char :: q) ->
  gs <> [] -> Forall group_ok gs -> ~ In "]"%char r -> unbroken (c_field (join "," (map (text "~") gs)) r) ->
  Forall unbroken after -> Forall begins_with_capital after ->
  decode_energy_channels (join "," (before ++ [c_field (join "," (map (text "~") gs)) r] ++ after)) = Ok (map meaning gs).
Proof.
  intros NB UB CB HB NG G R UC UA CA. unfold decode_energy_channels. rewrite split_fields_join.
  - rewrite find_skip by exact HB. cbn [app find_C c_field]. change ("C"%char :: "["%char :: join "," (map (text "~") gs) ++ "]"%char :: r) with ("C"%char :: "["%char :: join "," (map (text "~") gs) ++ "]"%char :: r).
    rewrite match_ok by exact R. cbn [bind]. now apply groups_ok.
  - destruct before; [contradiction|discriminate].
  - apply Forall_app. split; [exact UB|]. constructor; assumption.
  - destruct before as [|b before]; [contradiction|]. cbn [app tl] in *. apply Forall_app. split; [exact CB|]. constructor; [|exact CA].
    exists "C"%char. eexists. split; [reflexivity|]. unfold capital. cbn. lia.
Qed.
Lemma decode_none fs : fs <> [] -> Forall unbroken fs -> Forall begins_with_capital (tl fs) -> (forall f, In f fs -> forall q, f <> "C"%char :: q) ->
  decode_energy_channels (join "," fs) = Err ValueError.
Proof.
  intros NE U C H. unfold decode_energy_channels. rewrite split_fields_join by assumption. rewrite <- (app_nil_r fs), find_skip by exact H. reflexivity.
Qed.
