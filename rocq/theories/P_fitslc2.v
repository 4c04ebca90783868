(* P_fitslc2.v: proofs about the names of columns, extensions and detectors in FITS files. *)
From Verif Require Import Np Lib S_gti S_seg M_gti M_seg M_reader M_fitslc S_fitslc P_gti_final P_seg_regions P_fitslc.
From Coq Require Import QArith List Arith ZArith Bool Ascii String Decimal DecimalString DecimalNat Permutation Lia Lqa.
Import ListNotations.
Open Scope Q_scope.

(* Upper and lower case. *)
Lemma alphabet : lower "ABCDEFGHIJKLMNOPQRSTUVWXYZ" = "abcdefghijklmnopqrstuvwxyz"%string /\
  lower "abcdefghijklmnopqrstuvwxyz0123456789_-@[`{" = "abcdefghijklmnopqrstuvwxyz0123456789_-@[`{"%string.
Proof. split; reflexivity. Qed.
(* The same name first, then the only one that is the same but for case. *)
Definition same_but_case (a b : string) : Prop := lower a = lower b.
Lemma filter_none {A} (f : A -> bool) l : (forall x, In x l -> f x = false) -> filter f l = [].
Proof. induction l as [|x l IH]; intros H; [reflexivity|]. simpl. rewrite (H x (or_introl eq_refl)). apply IH. intros y Hy. apply H. right. exact Hy. Qed.
Lemma field_case {A} (t1 t2 : table A) n v name : (forall m w, In (m, w) (t1 ++ (n, v) :: t2) -> m <> name) -> same_but_case n name ->
  (forall m w, In (m, w) (t1 ++ t2) -> ~ same_but_case m name) -> field (t1 ++ (n, v) :: t2) name = Ok v.
Proof.
  intros N C O. unfold field. rewrite filter_none; [|intros [m w] H; apply String.eqb_neq; exact (N m w H)].
  rewrite filter_app. simpl. rewrite (proj2 (String.eqb_eq _ _) C).
  rewrite (filter_none _ t1), (filter_none _ t2); [reflexivity| |]; intros [m w] H; apply String.eqb_neq; apply (O m w); apply in_app_iff; auto.
Qed.
Lemma field_ambiguous {A} (t1 t2 t3 : table A) n v m w name : (forall k u, In (k, u) (t1 ++ (n, v) :: t2 ++ (m, w) :: t3) -> k <> name) ->
  same_but_case n name -> same_but_case m name -> field (t1 ++ (n, v) :: t2 ++ (m, w) :: t3) name = Err KeyError.
Proof.
  intros N C D. unfold field. rewrite filter_none; [|intros [k u] H; apply String.eqb_neq; exact (N k u H)].
  rewrite filter_app. simpl. rewrite (proj2 (String.eqb_eq _ _) C). rewrite filter_app. simpl. rewrite (proj2 (String.eqb_eq _ _) D).
  destruct (filter _ t1) as [|a l1]; simpl; [destruct (filter _ t2); reflexivity|destruct l1; reflexivity].
Qed.
Lemma field_missing {A} (t : table A) name : (forall m w, In (m, w) t -> ~ same_but_case m name) -> field t name = Err KeyError.
Proof.
  intros N. unfold field. rewrite filter_none.
  - rewrite filter_none; [reflexivity|]. intros [m w] H. apply String.eqb_neq. exact (N m w H).
  - intros [m w] H. apply String.eqb_neq. intros E. simpl in E. apply (N m w H). unfold same_but_case. rewrite E. reflexivity.
Qed.
(* Extensions: the first one with the name, whatever the case. *)
Lemma extension_first l1 l2 n t name : same_but_case n name -> (forall m u, In (m, u) l1 -> ~ same_but_case m name) -> extension (l1 ++ (n, t) :: l2) name = Ok t.
Proof.
  intros C. induction l1 as [|[m u] l1 IH]; intros O; simpl.
  - rewrite (proj2 (String.eqb_eq _ _) C). reflexivity.
  - rewrite (proj2 (String.eqb_neq _ _) (O m u (or_introl eq_refl))). apply IH. intros k w H. apply (O k w). right. exact H.
Qed.
Lemma extension_missing l name : (forall m u, In (m, u) l -> ~ same_but_case m name) -> extension l name = Err KeyError.
Proof.
  induction l as [|[m u] l IH]; intros O; simpl; [reflexivity|].
  rewrite (proj2 (String.eqb_neq _ _) (O m u (or_introl eq_refl))). apply IH. intros k w H. apply (O k w). right. exact H.
Qed.
Lemma load_default l1 l2 n t a b : same_but_case n "GTI" -> (forall m u, In (m, u) l1 -> ~ same_but_case m "GTI") ->
  field t "START" = Ok a -> field t "STOP" = Ok b -> load_gtis (l1 ++ (n, t) :: l2) None = Ok (combine a b).
Proof. intros C O A B. unfold load_gtis. rewrite (extension_first _ _ _ _ _ C O). cbn [bind]. rewrite A. cbn [bind]. rewrite B. reflexivity. Qed.
Lemma load_missing l name : (forall m u, In (m, u) l -> ~ same_but_case m name) -> load_gtis l (Some name) = Err KeyError.
Proof. intros H. unfold load_gtis. rewrite (extension_missing _ _ H). reflexivity. Qed.
(* A table of GTIs without the columns, or no table: the good bins count. *)
Lemma gti_columns t time good e : field t "START" = Err e \/ field t "STOP" = Err e -> lc_gti (Some t) time good = lc_gti None time good.
Proof. intros [H|H]; unfold lc_gti; rewrite H; [reflexivity|]. destruct (field t "START"); reflexivity. Qed.
Lemma no_unit tc rc limit f : lf_unit f = None -> lcurve_from_fits tc rc limit f = Err KeyError.
Proof. intros H. unfold lcurve_from_fits. rewrite H. reflexivity. Qed.
(* Detector numbers: two digits at least, that give back the number. *)
Lemma small_digits i : (i < 100)%nat -> two_digits i = String (ascii_of_nat (48 + i / 10)) (String (ascii_of_nat (48 + i mod 10)) EmptyString).
Proof.
  intros H. assert (K : forallb (fun i => String.eqb (two_digits i) (String (ascii_of_nat (48 + i / 10)) (String (ascii_of_nat (48 + i mod 10)) EmptyString))) (seq 0 100) = true) by (vm_compute; reflexivity).
  rewrite forallb_forall in K. specialize (K i ltac:(apply in_seq; lia)). apply String.eqb_eq in K. exact K.
Qed.
Lemma digits_read i : exists u, NilEmpty.uint_of_string (two_digits i) = Some u /\ Nat.of_uint u = i.
Proof.
  destruct (Nat.ltb i 10) eqn:L.
  - apply Nat.ltb_lt in L. do 10 (destruct i as [|i]; [eexists; split; vm_compute; reflexivity|]). lia.
  - exists (Nat.to_uint i). unfold two_digits. rewrite L. split; [apply NilEmpty.usu|apply Unsigned.of_to].
Qed.
(* Text is split at the commas. *)
Fixpoint joined (l : list string) : string :=
  match l with [] => EmptyString | [s] => s | s :: l' => (s ++ "," ++ joined l')%string end.
Fixpoint has_comma (s : string) : Prop := match s with EmptyString => False | String c s' => c = ","%char \/ has_comma s' end.
Lemma app_assoc_s (a b c : string) : ((a ++ b) ++ c)%string = (a ++ (b ++ c))%string.
Proof. induction a as [|x a IH]; [reflexivity|]. simpl. rewrite IH. reflexivity. Qed.
Lemma app_nil_s (a : string) : (a ++ EmptyString)%string = a.
Proof. induction a as [|x a IH]; [reflexivity|]. simpl. rewrite IH. reflexivity. Qed.
Lemma has_comma_app a b : has_comma (a ++ b)%string <-> has_comma a \/ has_comma b.
Proof. induction a as [|x a IH]; simpl; [tauto|]. rewrite IH. tauto. Qed.
Lemma split_from s : forall cur, ~ has_comma cur ->
  joined (split_comma_from cur s) = (cur ++ s)%string /\ (forall p, In p (split_comma_from cur s) -> ~ has_comma p) /\ split_comma_from cur s <> [].
Proof.
  induction s as [|c s IH]; intros cur N; simpl.
  - split; [symmetry; apply app_nil_s|]. split; [|discriminate]. intros p [<-|[]]. exact N.
  - destruct (Ascii.eqb_spec c ",") as [->|C].
    + destruct (IH EmptyString ltac:(simpl; tauto)) as (J & P & E). split; [|split; [|discriminate]].
      * destruct (split_comma_from EmptyString s) as [|q l]; [congruence|]. change (joined (cur :: q :: l)) with (cur ++ "," ++ joined (q :: l))%string. rewrite J. reflexivity.
      * intros p [<-|H]; [exact N|exact (P p H)].
    + destruct (IH (cur ++ String c EmptyString)%string) as (J & P & E).
      * rewrite has_comma_app. simpl. tauto.
      * split; [|split; [exact P|exact E]]. rewrite J, app_assoc_s. reflexivity.
Qed.
Lemma split_joined s : joined (split_comma s) = s /\ (forall p, In p (split_comma s) -> ~ has_comma p) /\ split_comma s <> [].
Proof. exact (split_from s EmptyString (fun H => H)). Qed.
