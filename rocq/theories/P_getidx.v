(* P_getidx.v: indexing of objects: proofs. *)
From Coq Require Import String.
From Verif Require Import Np Lib M_getidx S_getidx.
From Coq Require Import ZArith List Bool Lia.
Import ListNotations.
Open Scope Z_scope.

Section Rows.
Context {A : Type}.
Variable l : list A.
Local Notation n := (Z.of_nat (length l)).
Lemma some_row i : 0 <= i < n -> exists x, nth_error l (Z.to_nat i) = Some x.
Proof. intros H. destruct (nth_error l (Z.to_nat i)) as [x|] eqn:E; [now exists x|]. apply nth_error_None in E. lia. Qed.
Lemma up fuel : forall i stop step, 0 < step -> 0 <= i -> stop <= n -> stop - i <= Z.of_nat fuel -> selects l i stop step (pick l (progression fuel i stop step)).
Proof.
  induction fuel as [|f IH]; intros i stop step S I T F k.
  - cbn [progression pick flat_map]. rewrite (proj2 (Z.ltb_lt 0 step) S). cbv zeta. rewrite (proj2 (Z.ltb_ge (i + Z.of_nat k * step) stop)) by nia. now destruct k.
  - cbn [progression]. rewrite (proj2 (Z.ltb_lt 0 step) S). cbv zeta. destruct (Z.ltb_spec i stop) as [L|L].
    + destruct (some_row i) as (x & E); [lia|]. cbn [pick flat_map]. rewrite E. cbn [app]. destruct k as [|k].
      * cbn [nth_error]. replace (i + Z.of_nat 0 * step) with i by lia. rewrite (proj2 (Z.ltb_lt i stop) L). now rewrite E.
      * cbn [nth_error]. pose proof (IH (i + step) stop step S ltac:(lia) T ltac:(lia) k) as Q. cbv zeta in Q. rewrite (proj2 (Z.ltb_lt 0 step) S) in Q. unfold pick in Q. rewrite Q.
        replace (i + step + Z.of_nat k * step) with (i + Z.of_nat (Datatypes.S k) * step) by lia. reflexivity.
    + cbn [pick flat_map]. rewrite (proj2 (Z.ltb_ge (i + Z.of_nat k * step) stop)) by nia. now destruct k.
Qed.
Lemma down fuel : forall i stop step, step < 0 -> i <= n - 1 -> -1 <= stop -> i - stop <= Z.of_nat fuel -> selects l i stop step (pick l (progression fuel i stop step)).
Proof.
  induction fuel as [|f IH]; intros i stop step S I T F k.
  - cbn [progression pick flat_map]. rewrite (proj2 (Z.ltb_ge 0 step)) by lia. cbv zeta. rewrite (proj2 (Z.ltb_ge stop (i + Z.of_nat k * step))) by nia. now destruct k.
  - cbn [progression]. rewrite (proj2 (Z.ltb_ge 0 step)) by lia. cbv zeta. destruct (Z.ltb_spec stop i) as [L|L].
    + destruct (some_row i) as (x & E); [lia|]. cbn [pick flat_map]. rewrite E. cbn [app]. destruct k as [|k].
      * cbn [nth_error]. replace (i + Z.of_nat 0 * step) with i by lia. rewrite (proj2 (Z.ltb_lt stop i) L). now rewrite E.
      * cbn [nth_error]. pose proof (IH (i + step) stop step S ltac:(lia) T ltac:(lia) k) as Q. cbv zeta in Q. rewrite (proj2 (Z.ltb_ge 0 step)) in Q by lia. unfold pick in Q. rewrite Q.
        replace (i + step + Z.of_nat k * step) with (i + Z.of_nat (Datatypes.S k) * step) by lia. reflexivity.
    + cbn [pick flat_map]. rewrite (proj2 (Z.ltb_ge stop (i + Z.of_nat k * step))) by nia. now destruct k.
Qed.
Lemma adjust_limited s i : s <> 0 -> limited n s i (adjust n (s <? 0) i).
Proof.
  intros N. unfold limited, adjust. destruct (Z.ltb_spec s 0), (Z.ltb_spec 0 s), (Z.ltb_spec i 0); split; lia.
Qed.
Lemma slice_ok i j s : s <> 0 -> exists r, np_slice l i j s = Ok r /\ python_slice l (Some i) (Some j) s r.
Proof.
  intros N. unfold np_slice. rewrite (proj2 (Z.eqb_neq s 0) N). eexists. split; [reflexivity|].
  exists (adjust n (s <? 0) i), (adjust n (s <? 0) j). split; [now apply adjust_limited|]. split; [now apply adjust_limited|].
  destruct (Z_lt_le_dec s 0) as [D|D]; [apply down|apply up]; unfold adjust; rewrite ?(proj2 (Z.ltb_lt s 0) D), ?(proj2 (Z.ltb_ge s 0) D); destruct (Z.ltb_spec i 0), (Z.ltb_spec j 0); lia.
Qed.
Lemma same_rows (r r' : list A) : (forall k, nth_error r k = nth_error r' k) -> r = r'.
Proof.
  revert r'. induction r as [|x r IH]; intros [|y r'] H; [reflexivity|specialize (H O); discriminate|specialize (H O); discriminate|].
  pose proof (H O) as E. injection E as ->. f_equal. apply IH. intros k. apply (H (S k)).
Qed.
Lemma item_ok i : 0 <= i < n \/ - n <= i < -1 -> exists r, np_slice l i (i + 1) 1 = Ok r /\ python_item l i r.
Proof.
  intros H. destruct (slice_ok i (i + 1) 1) as (r & E & first & stop & F & T & Q); [lia|]. exists r. split; [exact E|].
  cbn [python_first python_stop] in F, T. destruct F as [F1 F2], T as [T1 T2]. cbn [Z.ltb Z.compare] in *. unfold selects in Q. cbn [Z.ltb Z.compare] in Q. cbv zeta in Q.
  set (p := if i <? 0 then i + n else i). assert (Hf : first = p) by (unfold p; destruct (Z.ltb_spec i 0); [rewrite F2|rewrite F1]; lia).
  assert (Ht : stop = p + 1) by (unfold p; destruct (Z.ltb_spec i 0); [rewrite T2|rewrite T1]; lia).
  assert (Hp : 0 <= p < n) by (unfold p; destruct (Z.ltb_spec i 0); lia). destruct (some_row p Hp) as (x & Ex). exists x. fold p. split; [|exact Ex].
  apply same_rows. intros k. rewrite Q, Hf, Ht. destruct k as [|k].
  - replace (p + Z.of_nat 0 * 1) with p by lia. rewrite (proj2 (Z.ltb_lt p (p + 1))) by lia. now rewrite Ex.
  - rewrite (proj2 (Z.ltb_ge (p + Z.of_nat (S k) * 1) (p + 1))) by lia. now destruct k.
Qed.
Lemma nothing i j s : s <> 0 -> (if 0 <? s then adjust n false j <= adjust n false i else adjust n true i <= adjust n true j) -> np_slice l i j s = Ok [].
Proof.
  intros N H. unfold np_slice. rewrite (proj2 (Z.eqb_neq s 0) N). f_equal. cbn [progression]. destruct (Z.ltb_spec 0 s) as [D|D].
  - rewrite (proj2 (Z.ltb_ge s 0)) by lia. now rewrite (proj2 (Z.ltb_ge _ _) H).
  - rewrite (proj2 (Z.ltb_lt s 0)) by lia. now rewrite (proj2 (Z.ltb_ge _ _) H).
Qed.
Lemma no_item i : i = -1 \/ i < - n \/ n <= i -> np_slice l i (i + 1) 1 = Ok [].
Proof. intros H. apply nothing; [lia|]. cbn [Z.ltb Z.compare]. unfold adjust. destruct (Z.ltb_spec i 0), (Z.ltb_spec (i + 1) 0); lia. Qed.
End Rows.

Lemma all_ok {A} (P : list A -> list A -> Prop) cols i j k : Forall (fun p => exists r, np_slice (snd p) i j k = Ok r /\ P (snd p) r) cols ->
  exists c, slice_all cols i j k = Ok c /\ Forall2 (fun p q : string * list A => fst q = fst p /\ P (snd p) (snd q)) cols c.
Proof.
  induction cols as [|[m l] cols IH]; intros H; [exists []; split; [reflexivity|constructor]|]. inversion H as [|? ? (r & E & Hr) Ht]; subst. cbn [snd] in *.
  destruct (IH Ht) as (c & Ec & Fc). exists ((m, r) :: c). cbn [slice_all]. rewrite E. cbn [bind]. rewrite Ec. cbn [bind]. split; [reflexivity|]. constructor; [now split|exact Fc].
Qed.
Lemma arrays_ok {A B} (P : list A -> list A -> Prop) (o : object A B) idx i j k :
  (match idx with IInt v => i = v /\ j = v + 1 /\ k = 1 | ISlice a b s => i = if_none a 0 /\ j = if_none b (Z.of_nat (length (o_main o))) /\ k = if_none s 1 | IOther => False end) ->
  (forall l, length l = length (o_main o) -> exists r, np_slice l i j k = Ok r /\ P l r) -> even_columns o ->
  exists r, obj_getitem o idx = Ok r /\ every_array P o r /\ o_meta r = o_meta o /\ o_hidden r = [].
Proof.
  intros H Hl Ev. destruct (Hl (o_main o) eq_refl) as (m & Em & Pm).
  destruct (all_ok P (o_columns o) i j k) as (c & Ec & Pc). { eapply Forall_impl; [|exact Ev]. intros p Hp. now apply Hl. }
  exists (mkObject (o_meta o) [] c m). split; [|split; [split; assumption|split; reflexivity]].
  unfold obj_getitem. destruct idx as [v|a b s|]; [destruct H as (-> & -> & ->)|destruct H as (-> & -> & ->)|contradiction]; cbn [bind]; rewrite Ec; cbn [bind]; rewrite Em; reflexivity.
Qed.
Lemma int_ok {A B} (o : object A B) i : even_columns o -> let n := Z.of_nat (length (o_main o)) in 0 <= i < n \/ - n <= i < -1 ->
  exists r, obj_getitem o (IInt i) = Ok r /\ every_array (fun l x => python_item l i x) o r /\ o_meta r = o_meta o /\ o_hidden r = [].
Proof. intros Ev n H. apply (arrays_ok _ o (IInt i) i (i + 1) 1); [now split|intros l L; apply item_ok; rewrite L; exact H|exact Ev]. Qed.
Lemma int_empty {A B} (o : object A B) i : even_columns o -> let n := Z.of_nat (length (o_main o)) in i = -1 \/ i < - n \/ n <= i ->
  exists r, obj_getitem o (IInt i) = Ok r /\ every_array (fun l x => x = []) o r /\ o_meta r = o_meta o.
Proof.
  intros Ev n H. destruct (arrays_ok (fun l x => x = []) o (IInt i) i (i + 1) 1) as (r & E & P & M & _); [now split|intros l L; exists []; split; [apply no_item; rewrite L; exact H|reflexivity]|exact Ev|].
  exists r. now split.
Qed.
Lemma python_defaults {A} (l r : list A) a b s : 0 < s -> python_slice l (Some (if_none a 0)) (Some (if_none b (Z.of_nat (length l)))) s r -> python_slice l a b s r.
Proof.
  intros S (f & t & F & T & Q). exists f, t. split; [|split; [|exact Q]].
  - destruct a; [exact F|]. destruct F as [F _]. cbn [if_none] in F. cbn [python_first]. rewrite F by lia. rewrite (proj2 (Z.ltb_lt 0 s) S). lia.
  - destruct b; [exact T|]. destruct T as [T _]. cbn [if_none] in T. cbn [python_stop]. rewrite T by lia. rewrite (proj2 (Z.ltb_lt 0 s) S). lia.
Qed.
Lemma slice_up {A B} (o : object A B) a b s : even_columns o -> 0 < if_none s 1 ->
  exists r, obj_getitem o (ISlice a b s) = Ok r /\ every_array (fun l x => python_slice l a b (if_none s 1) x) o r /\ o_meta r = o_meta o /\ o_hidden r = [].
Proof.
  intros Ev S. eapply (arrays_ok _ o (ISlice a b s)); [split; [reflexivity|split; reflexivity]| |exact Ev].
  intros l L. destruct (slice_ok l (if_none a 0) (if_none b (Z.of_nat (length (o_main o)))) (if_none s 1)) as (r & E & Q); [lia|]. exists r. split; [exact E|].
  apply python_defaults; [exact S|]. now rewrite L.
Qed.
Lemma slice_down {A B} (o : object A B) a b s : even_columns o -> s < 0 ->
  exists r, obj_getitem o (ISlice (Some a) (Some b) (Some s)) = Ok r /\ every_array (fun l x => python_slice l (Some a) (Some b) s x) o r /\ o_meta r = o_meta o /\ o_hidden r = [].
Proof.
  intros Ev S. eapply (arrays_ok _ o (ISlice (Some a) (Some b) (Some s))); [split; [reflexivity|split; reflexivity]| |exact Ev].
  intros l L. cbn [if_none]. apply slice_ok. lia.
Qed.
Lemma slice_reversed {A B} (o : object A B) a s : even_columns o -> s < 0 ->
  exists r, obj_getitem o (ISlice a None (Some s)) = Ok r /\ every_array (fun l x => x = []) o r /\ o_meta r = o_meta o.
Proof.
  intros Ev S. destruct (arrays_ok (fun l x => x = []) o (ISlice a None (Some s)) (if_none a 0) (Z.of_nat (length (o_main o))) s) as (r & E & P & M & _);
    [split; [reflexivity|split; reflexivity]| |exact Ev|exists r; now split].
  intros l L. exists []. split; [|reflexivity]. apply nothing; [lia|]. rewrite (proj2 (Z.ltb_ge 0 s)) by lia. rewrite L. unfold adjust.
  destruct (Z.ltb_spec (if_none a 0) 0), (Z.ltb_spec (Z.of_nat (length (o_main o))) 0); lia.
Qed.
Lemma zero_step {A B} (o : object A B) a b : obj_getitem o (ISlice a b (Some 0)) = Err ValueError.
Proof. unfold obj_getitem. cbn [bind if_none]. destruct (o_columns o) as [|[m l] c]; reflexivity. Qed.
Lemma other_index {A B} (o : object A B) : obj_getitem o IOther = Err IndexError.
Proof. reflexivity. Qed.
