(* P_mission6.v: further facts about mission support: whole numbers with a sign, smoothness of the calibration table, AXAF, corner cases of the database. *)
From Coq Require Import String Ascii.
From Verif Require Import Np Lib M_utils M_base M_io M_mission S_mission S_mission2 P_mission P_mission2 P_mission3 P_mission4 P_mission5.
From Coq Require Import ZArith QArith List Bool Lia.
Import ListNotations.
Open Scope Z_scope.

Lemma int_minus s : number s -> int_of ("-"%char :: s) = Ok (- decimal s).
Proof.
  intros H. pose proof (int_number s H) as E. destruct H as [N F]. unfold int_of in E. rewrite strip_digits in E by exact F.
  assert (S : strip ("-"%char :: s) = "-"%char :: s).
  { unfold strip. change (strip_left ("-"%char :: s)) with ("-"%char :: s). cbn [rev]. unfold strip in *.
    assert (G : exists c r, rev s = c :: r /\ is_digit c).
    { destruct (rev s) as [|c r] eqn:R; [apply (f_equal (@rev _)) in R; rewrite rev_involutive in R; contradiction|]. exists c, r. split; [reflexivity|].
      rewrite Forall_forall in F. apply F. apply in_rev. rewrite R. now left. }
    destruct G as (c & r & R & D). rewrite R. cbn [app strip_left].
    assert (B : blank c = false).
    { unfold blank, is_digit in *. cbn [existsb]. repeat (rewrite (proj2 (Nat.eqb_neq _ _)) by lia). reflexivity. }
    rewrite B. change (c :: r ++ ["-"%char]) with ((c :: r) ++ ["-"%char]). rewrite <- R, rev_app_distr, rev_involutive. reflexivity. }
  unfold int_of. rewrite S. destruct s as [|c s]; [contradiction|].
  inversion F as [|? ? D F']; subst. assert (X : c <> "-"%char /\ c <> "+"%char) by (split; intros ->; unfold is_digit in D; cbn in D; lia).
  destruct (digits_from 0 (c :: s)) as [v|] eqn:V.
  - assert (v = decimal (c :: s)) as ->; [|reflexivity].
    destruct c as [[] [] [] [] [] [] [] []]; try (rewrite V in E; now inversion E); try (exfalso; apply (proj1 X); reflexivity); exfalso; apply (proj2 X); reflexivity.
  - exfalso. destruct c as [[] [] [] [] [] [] [] []]; try (rewrite V in E; discriminate E); try (apply (proj1 X); reflexivity); apply (proj2 X); reflexivity.
Qed.
Lemma int_blank s : Forall is_blank s -> int_of s = Err ValueError.
Proof.
  intros F. unfold int_of. assert (S : strip_left s = []).
  { induction F as [|c s B _ IH]; [reflexivity|]. cbn [strip_left]. apply blank_iff in B. rewrite B. exact IH. }
  unfold strip. rewrite S. reflexivity.
Qed.

Definition smooth3 (a b c : Z * list Z) : bool :=
  forallb (fun k => let w := fst b - fst a in let w' := fst c - fst b in
             let d := nth k (snd b) 0 - nth k (snd a) 0 in let d' := nth k (snd c) 0 - nth k (snd b) 0 in
             ((25 * w <=? d) && (d <=? 60 * w) && (25 * w' <=? d') && (d' <=? 60 * w') && (Z.abs (d' * w - d * w') <=? 2 * w * w'))%bool) (seq 0 6).
Fixpoint smooth (l : list (Z * list Z)) : bool :=
  match l with a :: (b :: c :: _) as l' => (smooth3 a b c && smooth l')%bool | _ => true end.
Lemma smooth_nth l i a b c : smooth l = true -> nth_error l i = Some a -> nth_error l (S i) = Some b -> nth_error l (S (S i)) = Some c -> smooth3 a b c = true.
Proof.
  revert i. induction l as [|x l IH]; intros i H A B C; [destruct i; discriminate|]. destruct i as [|i].
  - cbn [nth_error] in *. inversion A; subst. destruct l as [|y l]; [discriminate|]. cbn [nth_error] in *. inversion B; subst. destruct l as [|z l]; [discriminate|]. cbn [nth_error] in *. inversion C; subst.
    cbn [smooth] in H. apply andb_prop in H. apply H.
  - destruct l as [|y l]; [destruct i; discriminate|]. destruct l as [|z l]; [destruct i as [|[]]; discriminate|]. apply (IH i); try assumption.
    change (smooth (x :: y :: z :: l)) with (smooth3 x y z && smooth (y :: z :: l))%bool in H. apply andb_prop in H. apply H.
Qed.
(* neighbouring rows of the table: the energy grows by 0.25 to 0.60 keV per channel in each column, and the growth changes by at most 0.02 keV per channel from row to row *)
Lemma table_smooth i k ta va la ha tb vb lb hb tc vc lc hc : (k < 6)%nat ->
  nth_error caltable i = Some (ta, va) -> nth_error caltable (S i) = Some (tb, vb) -> nth_error caltable (S (S i)) = Some (tc, vc) ->
  split_chan_spec ta "-" = Ok (la, ha) -> split_chan_spec tb "-" = Ok (lb, hb) -> split_chan_spec tc "-" = Ok (lc, hc) ->
  25 * (hb - ha) <= nth k vb 0 - nth k va 0 <= 60 * (hb - ha) /\
  Z.abs ((nth k vc 0 - nth k vb 0) * (hb - ha) - (nth k vb 0 - nth k va 0) * (hc - hb)) <= 2 * (hb - ha) * (hc - hb).
Proof.
  intros K A B C SA SB SC.
  set (f := fun r : str * list Z => (match split_chan_spec (fst r) "-" with Ok p => snd p | Err _ => 0 end, snd r)).
  assert (S : smooth (map f caltable) = true) by (vm_compute; reflexivity).
  assert (M := smooth_nth _ i (ha, va) (hb, vb) (hc, vc) S). rewrite !nth_error_map, A, B, C in M. cbn [option_map f fst snd] in M. unfold f in M. cbn [fst snd] in M. rewrite SA, SB, SC in M. cbn [snd] in M. specialize (M eq_refl eq_refl eq_refl).
  unfold smooth3 in M. rewrite forallb_forall in M. specialize (M k). rewrite in_seq in M. specialize (M (conj (Nat.le_0_l _) K)). cbv zeta in M. cbn [fst snd] in M.
  rewrite !andb_true_iff, !Z.leb_le in M. lia.
Qed.
Lemma axaf_value mission instrument epoch c d : same_case mission % "axaf" ->
  exists e, rough_conversion mission instrument epoch c d = Ok e /\ (e == (inject_Z c - 1) * (146 # 10000))%Q.
Proof. intros S. apply lower_same in S. unfold rough_conversion. rewrite S. eexists. split; [reflexivity|]. reflexivity. Qed.

Lemma put_elsewhere p : forall d v d' k, put d p v = Ok d' -> (forall q, p <> k :: q) -> dget d' k = dget d k.
Proof.
  intros d v d' k H N. destruct p as [|a p]; [discriminate H|]. assert (A : a <> k) by (intros ->; now apply (N p)).
  assert (G : exists x, d' = dset d a x).
  { destruct p as [|b p]; [cbn [put] in H; inversion H; eexists; reflexivity|].
    assert (U : forall p', p' <> [] -> put d (a :: p') v = match dget d a with None => let! e := put [] p' v in Ok (dset d a (Node e)) | Some (Node e) => let! e' := put e p' v in Ok (dset d a (Node e')) | Some _ => Err TypeError end) by (intros [|? ?] Z; [contradiction|reflexivity]).
    rewrite U in H by discriminate. destruct (dget d a) as [[| |e]|]; try discriminate H.
    - destruct (put e (b :: p) v); [|discriminate H]. cbn [bind] in H. inversion H. eexists. reflexivity.
    - destruct (put [] (b :: p) v); [|discriminate H]. cbn [bind] in H. inversion H. eexists. reflexivity. }
  destruct G as [x ->]. rewrite dget_set. destruct (str_dec a k); [contradiction|reflexivity].
Qed.
Lemma puts_elsewhere E : forall db db' k, puts db E = Ok db' -> (forall p q, In p (map fst E) -> p <> k :: q) -> dget db' k = dget db k.
Proof.
  induction E as [|[p t] E IH]; intros db db' k H N; cbn [puts] in H; [now inversion H|]. destruct (put db p t) as [d|] eqn:P; [|discriminate H]. cbn [bind] in H.
  rewrite (IH d db' k H) by (intros; apply N; now right). apply (put_elsewhere p db t); [exact P|]. intros q. apply N. now left.
Qed.
Lemma read_without mission lines E k : match mission with Some m => Forall (fun c => ~ is_blank c) m | None => True end -> says mission lines E -> compatible E ->
  (forall p, In p (map fst E) -> ~ begins [k] p) -> exists db, read_lines (option_map lower mission) [] lines = Ok db /\ reflects db E /\ dget db k = None.
Proof.
  intros M S C N. destruct (read_raw mission lines E M S C) as (db & D & R). exists db. split; [exact D|]. split; [exact R|].
  rewrite (proj1 (says_puts mission lines E M S)) in D. rewrite (puts_elsewhere E [] db k D); [reflexivity|]. intros p q I ->. apply (N _ I). exists q. reflexivity.
Qed.
Lemma xte_plain m lines E : Forall (fun c => ~ is_blank c) m -> same_case m % "xte" -> says (Some m) lines E -> compatible E -> (forall p, In p (map fst E) -> ~ begins [% "ecol"] p) ->
  exists db, read_mission_info lines (Some m) = Ok db /\ forall p t, leaf t -> (at_path db p t <-> last_given E p t).
Proof.
  intros M SC S C N. destruct (read_without (Some m) lines E _ M S C N) as (db & D & [W R] & G). exists db. split; [|exact R].
  unfold read_mission_info. rewrite D. cbn [bind option_map]. unfold patch_mission_info. apply lower_same in SC. rewrite lower_idem, SC. change (str_eqb (lower % "xte") % "xmm") with false. change (str_eqb (lower % "xte") % "xte") with true. cbv iota. cbn [bind]. rewrite G. reflexivity.
Qed.
Lemma xmm_plain m lines E : Forall (fun c => ~ is_blank c) m -> same_case m % "xmm" -> says (Some m) lines E -> compatible E -> (forall p, In p (map fst E) -> ~ begins [% "gti"] p) ->
  exists db, read_mission_info lines (Some m) = Ok db /\ forall p t, leaf t -> (at_path db p t <-> last_given E p t).
Proof.
  intros M SC S C N. destruct (read_without (Some m) lines E _ M S C N) as (db & D & [W R] & G). exists db. split; [|exact R].
  unfold read_mission_info. rewrite D. cbn [bind option_map]. unfold patch_mission_info. apply lower_same in SC. rewrite lower_idem, SC. change (str_eqb (lower % "xmm") % "xmm") with true. cbv iota. rewrite G. reflexivity.
Qed.
Lemma xmm_group m lines E k q t : Forall (fun c => ~ is_blank c) m -> same_case m % "xmm" -> says (Some m) lines E -> compatible E -> leaf t -> last_given E (% "gti" :: k :: q) t ->
  read_mission_info lines (Some m) = Err TypeError.
Proof.
  intros M SC S C L G. destruct (read_raw (Some m) lines E M S C) as (db & D & W & R). assert (ND : NoDup (map fst db)) by (inversion W; assumption).
  apply R in G; [|exact L]. assert (X : exists e, dget db % "gti" = Some (Node e)).
  { inversion G as [|? ? e ? ? I B]; subst. exists e. now apply dget_in. }
  destruct X as [e X]. unfold read_mission_info. rewrite D. cbn [bind option_map]. unfold patch_mission_info. apply lower_same in SC. rewrite lower_idem, SC. change (str_eqb (lower % "xmm") % "xmm") with true. cbv iota. rewrite X. reflexivity.
Qed.
Lemma key_words_error info key default inst mode l w : last_entry info inst (Leaves l) -> In w l -> length w <> 2%nat -> get_key_from_mission_info info key default (Some inst) mode = Err ValueError.
Proof.
  intros E I N. unfold get_key_from_mission_info. unfold specialise at 1. rewrite lower_get, (last_of_some _ _ _ E). cbn [option_map lower_tree update_with].
  assert (X : map_result (fun w : str => match w with [a; b] => Ok ([a], Leaf [b]) | _ => Err ValueError end) l = Err ValueError).
  { clear E. induction l as [|x l IH]; [destruct I|]. cbn [map_result]. destruct I as [->|I].
    - destruct w as [|a [|b [|c w]]]; try reflexivity. cbn in N. lia.
    - rewrite IH by exact I. destruct x as [|a [|b [|c x]]]; reflexivity. }
  rewrite X. reflexivity.
Qed.
Example plain_case : exists lines, read_mission_info lines (Some % "xmm") = Err TypeError.
Proof. exists [% "xmm:gti:a b"]. reflexivity. Qed.
Lemma decode_open before after r : before <> [] -> Forall unbroken before -> Forall begins_with_capital (tl before) -> (forall f, In f before -> forall q, f <> "C"%char :: q) ->
  ~ In "]"%char r -> unbroken ("C"%char :: r) -> Forall unbroken after -> Forall begins_with_capital after ->
  decode_energy_channels (join "," (before ++ ["C"%char :: r] ++ after)) = Err AttributeError.
Proof.
  intros NB UB CB HB R UC UA CA. unfold decode_energy_channels. rewrite split_fields_join.
  - rewrite find_skip by exact HB. cbn [app find_C]. assert (M : match_C ("C"%char :: r) = None).
    { destruct r as [|c r]; [reflexivity|]. destruct (ascii_dec c "[") as [->|N].
      - cbn [match_C]. unfold rfind. rewrite rfind_none by (intros I; apply R; now right). reflexivity.
      - destruct c as [[] [] [] [] [] [] [] []]; try reflexivity. contradiction. }
    rewrite M. reflexivity.
  - destruct before; [contradiction|discriminate].
  - apply Forall_app. split; [exact UB|]. constructor; assumption.
  - destruct before as [|b before]; [contradiction|]. cbn [app tl] in *. apply Forall_app. split; [exact CB|]. constructor; [|exact CA].
    exists "C"%char. eexists. split; [reflexivity|]. unfold capital. cbn. lia.
Qed.
