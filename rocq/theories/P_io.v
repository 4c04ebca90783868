(* P_io.v: proofs about M_io.v. *)
From Verif Require Import Np Lib P_base2 M_io S_io.
From Coq Require Import Ascii String List Qpower Qround Lqa Lia.
Import ListNotations.
Open Scope Q_scope.

(* ---- split_numbers ---- *)
Lemma pow10_pos k : 0 < Qpower 10 k.
Proof. apply Qpower_0_lt. lra. Qed.
Lemma modf_ok x : let '(f, i) := modf x in i + f == x /\ (exists z, i == inject_Z z) /\ -(1) < f < 1 /\
  (0 <= x -> 0 <= i /\ 0 <= f) /\ (x <= 0 -> i <= 0 /\ f <= 0).
Proof.
  unfold modf. destruct (qlt x 0) eqn:E.
  - apply qlt_t in E. pose proof (Qfloor_le (- x)) as F1. pose proof (Qlt_floor (- x)) as F2. rewrite inject_Z_plus in F2.
    change (inject_Z 1) with 1 in F2.
    assert (F0 : (0 <= Qfloor (- x))%Z). { change 0%Z with (Qfloor 0). apply Qfloor_resp_le. lra. }
    rewrite Zle_Qle in F0. change (inject_Z 0) with 0 in F0.
    split; [lra|]. split; [exists (- Qfloor (- x))%Z; now rewrite inject_Z_opp|]. split; [lra|]. split; intros; lra.
  - apply qlt_f in E. pose proof (Qfloor_le x) as F1. pose proof (Qlt_floor x) as F2. rewrite inject_Z_plus in F2.
    change (inject_Z 1) with 1 in F2.
    assert (F0 : (0 <= Qfloor x)%Z). { change 0%Z with (Qfloor 0). apply Qfloor_resp_le. lra. }
    rewrite Zle_Qle in F0. change (inject_Z 0) with 0 in F0.
    split; [lra|]. split; [now exists (Qfloor x)|]. split; [lra|]. split; intros; try lra.
Qed.
Lemma modf_parts x k : parts_at k x (snd (modf (x * Qpower 10 k)) / Qpower 10 k) (fst (modf (x * Qpower 10 k)) / Qpower 10 k).
Proof.
  pose proof (modf_ok (x * Qpower 10 k)) as M. destruct (modf (x * Qpower 10 k)) as [f i]. cbn [fst snd].
  pose proof (pow10_pos k) as P. set (p := Qpower 10 k) in *. destruct M as (M1 & (z & M2) & M3 & M4 & M5).
  assert (Hi : i / p * p == i) by (field; lra). assert (Hf : f / p * p == f) by (field; lra).
  assert (S : forall y, 0 <= y -> 0 <= y / p) by (intros y Hy; apply Qle_shift_div_l; lra).
  assert (S' : forall y, y <= 0 -> y / p <= 0) by (intros y Hy; apply Qle_shift_div_r; lra).
  unfold parts_at. fold p. split.
  - apply (Qmult_inj_r _ _ p); [lra|]. rewrite Qmult_plus_distr_l, Hi, Hf. exact M1.
  - split; [exists z; now rewrite Hi|]. split; [rewrite Hf; exact M3|]. split; intros H.
    + assert (0 <= x * p) by nra. split; apply S; tauto.
    + assert (x * p <= 0) by nra. split; apply S'; tauto.
Qed.
Lemma parts_list k l : forall l', Forall2 (fun x y => y == x * Qpower 10 k) l l' ->
  Forall2 (fun x p => parts_at k x (fst p) (snd p)) l
    (combine (map (fun x => snd (modf x) / Qpower 10 k) l') (map (fun x => fst (modf x) / Qpower 10 k) l')).
Proof.
  intros l' H. induction H as [|x y l l' E H IH]; cbn [map combine]; constructor; [|assumption]. cbn [fst snd].
  pose proof (modf_parts x k) as P.
  assert (Em : snd (modf y) == snd (modf (x * Qpower 10 k)) /\ fst (modf y) == fst (modf (x * Qpower 10 k))).
  { assert (Eq : qlt y 0 = qlt (x * Qpower 10 k) 0).
    { destruct (qlt (x * Qpower 10 k) 0) eqn:B; [apply qlt_t in B|apply qlt_f in B]; [apply qlt_t|apply qlt_f]; lra. }
    assert (Ef : Qround.Qfloor y = Qround.Qfloor (x * Qpower 10 k)) by now apply Qround.Qfloor_comp.
    assert (Eg : Qround.Qfloor (- y) = Qround.Qfloor (- (x * Qpower 10 k))) by (apply Qround.Qfloor_comp; lra).
    unfold modf. rewrite Eq, Ef, Eg. destruct (qlt (x * Qpower 10 k) 0); cbn [fst snd]; split; lra. }
  destruct Em as [E1 E2]. destruct P as (P1 & (z & P2) & P3). unfold parts_at. rewrite E1, E2.
  split; [exact P1|]. split; [exists z; now rewrite E1|exact P3].
Qed.
Lemma forall2_scale k l : Forall2 (fun x y => y == x * Qpower 10 k) l (map (fun x => x * Qpower 10 k) l).
Proof. induction l; cbn [map]; constructor; [reflexivity|assumption]. Qed.
Lemma forall2_scale_int k l : (0 <= k)%Z -> Forall2 (fun x y => y == x * Qpower 10 k) (map inject_Z l) (map inject_Z (map (fun n => n * 10 ^ k)%Z l)).
Proof.
  intros H. induction l; cbn [map]; constructor; [|assumption]. rewrite inject_Z_mult.
  rewrite Zpower_Qpower by assumption. reflexivity.
Qed.
Lemma split_main n k : is_int n = false \/ (0 <= k)%Z ->
  exists i f after, split_numbers n k = Ok (i, f, after) /\ length i = length (values_of n) /\ length f = length (values_of n) /\
    Forall2 (fun x p => parts_at k x (fst p) (snd p)) (values_of n) (combine i f) /\ (is_array n = false -> after = n).
Proof.
  intros H. unfold split_numbers.
  assert (Z : is_int n = true -> forall l, scale_ints l k = Ok (map (fun n => n * 10 ^ k)%Z l)).
  { intros Hi l. destruct H as [H|H]; [congruence|]. unfold scale_ints. now rewrite (proj2 (Z.leb_le 0 k) H). }
  assert (Zk : is_int n = true -> (0 <= k)%Z) by (intros Hi; destruct H as [H|H]; [congruence|assumption]).
  destruct n as [x|l|l|l|l]; cbn [values_of is_array is_int] in *; rewrite ?(Z eq_refl); cbn [bind]; do 3 eexists; (split; [reflexivity|]);
    (split; [now rewrite !map_length|]); (split; [now rewrite !map_length|]); (split; [|intros A; congruence]); apply parts_list.
  - constructor; [reflexivity|constructor].
  - apply forall2_scale.
  - apply forall2_scale_int. now apply Zk.
  - apply forall2_scale.
  - apply forall2_scale_int. now apply Zk.
Qed.
Lemma split_int_error n k : is_int n = true -> (k < 0)%Z -> split_numbers n k = Err TypeError.
Proof.
  intros H K. assert (E : forall l, scale_ints l k = Err TypeError) by (intros l; unfold scale_ints; now rewrite (proj2 (Z.leb_gt 0 k) K)).
  destruct n; try discriminate; unfold split_numbers; now rewrite E.
Qed.
Lemma split_int_refuted : exists l k, split_numbers (IntList l) k = Err TypeError.
Proof. exists [12%Z], (-1)%Z. reflexivity. Qed.
Lemma split_input_refuted : exists l k i f after x y, split_numbers (FloatArray l) k = Ok (i, f, after) /\
  nth_error (values_of after) 0 = Some y /\ nth_error l 0 = Some x /\ ~ y == x.
Proof.
  exists [5 # 4], 1%Z. do 5 eexists. split; [vm_compute; reflexivity|]. split; [reflexivity|]. split; [reflexivity|]. vm_compute. discriminate.
Qed.

(* ---- common_name ---- *)
Lemma common_eq a : forall b, map fst (filter (fun p => Ascii.eqb (fst p) (snd p)) (combine a b)) = letters_in_common a b.
Proof.
  induction a as [|x a IH]; intros [|y b]; cbn [combine filter map letters_in_common fst snd]; try reflexivity.
  destruct (ascii_dec x y) as [ -> |N].
  - rewrite Ascii.eqb_refl. cbn [map fst]. now rewrite IH.
  - rewrite (proj2 (Ascii.eqb_neq x y) N). apply IH.
Qed.
Lemma letters_sym a : forall b, letters_in_common a b = letters_in_common b a.
Proof.
  induction a as [|x a IH]; intros [|y b]; cbn; try reflexivity.
  destruct (ascii_dec x y) as [E|N]; destruct (ascii_dec y x) as [E2|N2]; try congruence; rewrite IH; congruence.
Qed.
Lemma letters_self a : letters_in_common a a = a.
Proof. induction a as [|x a IH]; cbn; [reflexivity|]. destruct (ascii_dec x x); [now rewrite IH|congruence]. Qed.
Lemma lstrip_ok c s : exists pre, s = pre ++ lstrip c s /\ Forall (fun a => a = c) pre /\ ~ starts_by (fun a => a = c) (lstrip c s).
Proof.
  induction s as [|a s (pre & E & F & N)]; cbn [lstrip].
  - exists []. split; [reflexivity|]. split; [constructor|]. intros (x & s' & C & _). discriminate.
  - destruct (Ascii.eqb_spec a c) as [ -> |Na].
    + exists (c :: pre). split; [cbn; now rewrite <- E|]. split; [now constructor|assumption].
    + exists []. split; [reflexivity|]. split; [constructor|]. intros (x & s' & C & X). congruence.
Qed.
Lemma rstrip_ok c s : exists suf, s = rstrip c s ++ suf /\ Forall (fun a => a = c) suf /\ ~ ends_by (fun a => a = c) (rstrip c s).
Proof.
  destruct (lstrip_ok c (rev s)) as (pre & E & F & N). exists (rev pre). unfold rstrip. split.
  - rewrite <- rev_app_distr, <- E. now rewrite rev_involutive.
  - split; [now apply Forall_rev|]. intros (x & s' & C & X). apply N. exists x, (rev s').
    split; [|assumption]. rewrite <- (rev_involutive (lstrip c (rev s))), C, rev_app_distr. reflexivity.
Qed.
Lemma ends_suffix P pre s : s <> [] -> ends_by P s -> ends_by P (pre ++ s).
Proof. intros _ (c & s' & -> & H). exists c, (pre ++ s'). now rewrite app_assoc. Qed.
Lemma common_main a b d :
  (length a <> length b -> common_name a b d = d) /\
  common_name a b d = common_name b a d /\
  (length a = length b ->
     (common_name a b d = d /\ trimmed (letters_in_common a b) []) \/
     (common_name a b d <> [] /\ trimmed (letters_in_common a b) (common_name a b d) /\
      ~ starts_by (fun c => c = "-"%char) (common_name a b d) /\ ~ ends_by (fun c => c = "-"%char) (common_name a b d))).
Proof.
  split; [|split].
  - intros H. unfold common_name. now rewrite (proj2 (Nat.eqb_neq _ _) H).
  - unfold common_name. rewrite !common_eq, (Nat.eqb_sym (length b)), (letters_sym b a). reflexivity.
  - intros H. unfold common_name. rewrite H, Nat.eqb_refl. cbn [negb]. rewrite common_eq. set (s := letters_in_common a b).
    destruct (rstrip_ok "_" s) as (f1 & E1 & F1 & N1). set (s1 := rstrip "_" s) in *.
    destruct (rstrip_ok "-" s1) as (f2 & E2 & F2 & N2). set (s2 := rstrip "-" s1) in *.
    destruct (lstrip_ok "_" s2) as (f3 & E3 & F3 & N3). set (s3 := lstrip "_" s2) in *.
    destruct (lstrip_ok "-" s3) as (f4 & E4 & F4 & N4). set (s4 := lstrip "-" s3) in *.
    assert (T : trimmed s s4).
    { exists (f3 ++ f4), (f2 ++ f1). split.
      - rewrite E1 at 1. rewrite E2 at 1. rewrite E3 at 1. rewrite E4 at 1. now rewrite !app_assoc.
      - split; apply Forall_app; split; (eapply Forall_impl; [|eassumption]); intros c Hc; unfold mark; tauto. }
    destruct s4 as [|c0 r] eqn:Es; [left; split; [reflexivity|assumption]|right].
    split; [discriminate|]. split; [exact T|]. split; [exact N4|]. intros G. apply N2. rewrite E3, E4.
    apply ends_suffix; [destruct f4; discriminate|]. apply ends_suffix; [discriminate|exact G].
Qed.
Lemma lstrip_id c s : ~ starts_by (fun a => a = c) s -> lstrip c s = s.
Proof.
  destruct s as [|a s]; [reflexivity|]. intros H. cbn [lstrip]. destruct (Ascii.eqb_spec a c) as [ -> |N]; [|reflexivity].
  exfalso. apply H. exists c, s. now split.
Qed.
Lemma rstrip_id c s : ~ ends_by (fun a => a = c) s -> rstrip c s = s.
Proof.
  intros H. unfold rstrip. rewrite lstrip_id; [apply rev_involutive|]. intros (x & s' & E & X). apply H. exists x, (rev s').
  split; [|assumption]. rewrite <- (rev_involutive s), E. reflexivity.
Qed.
(* letters without marks at the ends are all kept *)
Lemma common_plain a b d : length a = length b -> letters_in_common a b <> [] ->
  ~ starts_by mark (letters_in_common a b) -> ~ ends_by mark (letters_in_common a b) -> common_name a b d = letters_in_common a b.
Proof.
  intros H N S E. unfold common_name. rewrite H, Nat.eqb_refl. cbn [negb]. rewrite common_eq.
  assert (S' : forall c, mark c -> ~ starts_by (fun a => a = c) (letters_in_common a b)).
  { intros c Hc (x & s' & C & X). subst x. apply S. exists c, s'. now split. }
  assert (E' : forall c, mark c -> ~ ends_by (fun a => a = c) (letters_in_common a b)).
  { intros c Hc (x & s' & C & X). subst x. apply E. exists c, s'. now split. }
  rewrite (rstrip_id "_") by (apply E'; now left). rewrite (rstrip_id "-") by (apply E'; now right).
  rewrite (lstrip_id "_") by (apply S'; now left). rewrite (lstrip_id "-") by (apply S'; now right).
  destruct (letters_in_common a b); [congruence|reflexivity].
Qed.
Lemma common_refuted : exists a b d, length a = length b /\ common_name a b d <> d /\ ends_by mark (common_name a b d).
Proof.
  exists % "a_-", % "a_-", % "common". split; [reflexivity|]. split; [vm_compute; discriminate|].
  exists "_"%char, % "a". split; [vm_compute; reflexivity|now left].
Qed.

(* ---- get_file_extension ---- *)
Lemma starts_ok p : forall s, starts_with p s = true <-> exists b, s = p ++ b.
Proof.
  induction p as [|a p IH]; intros s; cbn [starts_with].
  - split; [intros _; now exists s|reflexivity].
  - destruct s as [|c s]; [split; [discriminate|intros (b & E); discriminate]|].
    rewrite andb_true_iff, Ascii.eqb_eq, IH. split.
    + intros (-> & b & ->). now exists b.
    + intros (b & E). injection E as -> ->. split; [reflexivity|now exists b].
Qed.
Lemma drop_none p s : ~ occurs p s -> drop_all p 0 s = s.
Proof.
  induction s as [|c s IH]; intros H; [reflexivity|]. cbn [drop_all].
  destruct (starts_with p (c :: s)) eqn:E.
  - apply starts_ok in E. destruct E as (b & E). exfalso. apply H. now exists [], b.
  - f_equal. apply IH. intros (a & b & ->). apply H. exists (c :: a), b. reflexivity.
Qed.
Lemma drop_skip p k : forall s t, length s = k -> drop_all p k (s ++ t) = drop_all p 0 t.
Proof.
  induction k as [|k IH]; intros s t H.
  - destruct s; [reflexivity|discriminate].
  - destruct s as [|c s]; [discriminate|]. cbn [app drop_all]. apply IH. now injection H.
Qed.
Lemma remove_front r e : r <> [] -> ~ occurs r e -> remove_string r (r ++ e) = e.
Proof.
  intros N H. destruct r as [|c r]; [congruence|]. unfold remove_string. cbn [app drop_all].
  assert (S : starts_with (c :: r) (c :: r ++ e) = true) by (apply starts_ok; now exists e). rewrite S.
  replace (length (c :: r) - 1)%nat with (length r) by (cbn; lia). rewrite drop_skip by reflexivity. now apply drop_none.
Qed.
Lemma drop_gz w : ~ occurs gz w -> drop_all gz 0 (w ++ gz) = w.
Proof.
  induction w as [|c w IH]; intros H.
  - reflexivity.
  - assert (Hw : ~ occurs gz w) by (intros (a & b & ->); apply H; exists (c :: a), b; reflexivity).
    cbn [app drop_all]. destruct (starts_with gz (c :: w ++ gz)) eqn:E.
    + exfalso. apply starts_ok in E. destruct E as (b & E). unfold gz in E. cbn in E.
      destruct w as [|x [|y w]]; cbn in E; try discriminate. apply H. injection E as -> -> -> _. now exists [], w.
    + now rewrite IH.
Qed.
Lemma rfind_spec c s : forall i found, rfind_from i c s found = match rfind_from 0 c s None with Some k => Some (i + k)%nat | None => found end.
Proof.
  assert (G : forall s i found, rfind_from i c s found = match rfind_from i c s None with Some k => Some k | None => found end).
  { clear. induction s as [|a s IH]; intros i found; cbn [rfind_from]; [reflexivity|].
    rewrite IH. destruct (Ascii.eqb a c); [|reflexivity]. rewrite (IH (S i) (Some i)). destruct (rfind_from (S i) c s None); reflexivity. }
  assert (K : forall s i, rfind_from i c s None = option_map (fun k => i + k)%nat (rfind_from 0 c s None)).
  { clear - G. induction s as [|a s IH]; intros i; cbn [rfind_from]; [reflexivity|].
    rewrite (G s (S i)), (G s 1%nat), (IH (S i)), (IH 1%nat). destruct (rfind_from 0 c s None) as [k|]; cbn [option_map].
    - f_equal. lia.
    - destruct (Ascii.eqb a c); cbn; [f_equal; lia|reflexivity]. }
  intros i found. rewrite G, K. destruct (rfind_from 0 c s None); reflexivity.
Qed.
Lemma rfind_app c s t : rfind c (s ++ t) = match rfind c t with Some k => Some (length s + k)%nat | None => rfind c s end.
Proof.
  unfold rfind. assert (G : forall s i found, rfind_from i c (s ++ t) found = rfind_from (length s + i) c t (rfind_from i c s found)).
  { clear. induction s as [|a s IH]; intros i found; cbn [app rfind_from length Nat.add]; [reflexivity|]. rewrite IH. f_equal. lia. }
  rewrite G, Nat.add_0_r, rfind_spec. reflexivity.
Qed.
Lemma rfind_none c s : ~ In c s -> rfind c s = None.
Proof.
  unfold rfind. generalize 0%nat. induction s as [|a s IH]; intros i H; cbn [rfind_from]; [reflexivity|].
  destruct (Ascii.eqb_spec a c) as [ -> |N]; [exfalso; apply H; now left|]. apply IH. intros C. apply H. now right.
Qed.
Lemma rfind_lt c s k : rfind c s = Some k -> (k < length s)%nat.
Proof.
  induction s as [|a s IH] using rev_ind; [discriminate|]. rewrite rfind_app, app_length. cbn [length].
  unfold rfind at 1. cbn [rfind_from]. destruct (Ascii.eqb a c); intros H; [injection H as <-; lia|]. specialize (IH H). lia.
Qed.
Lemma splitext_ok r x : has_name r -> ~ In dot x -> ~ In slash x -> splitext (r ++ dot :: x) = (r, dot :: x).
Proof.
  intros (a & c & b & Er & Hc & Hs & Hb) Hx Hx2. unfold splitext. change "."%char with dot. change "/"%char with slash.
  rewrite rfind_app. assert (D : rfind dot (dot :: x) = Some 0%nat).
  { change (dot :: x) with ([dot] ++ x). rewrite rfind_app, (rfind_none dot x Hx). reflexivity. }
  rewrite D, Nat.add_0_r.
  assert (Hsl : rfind slash (r ++ dot :: x) = rfind slash a).
  { rewrite rfind_app. rewrite (rfind_none slash (dot :: x)) by (intros [F|F]; [discriminate|contradiction]).
    rewrite Er, rfind_app, rfind_none; [reflexivity|]. intros [F|F]; [congruence|contradiction]. }
  rewrite Hsl. set (start := match rfind slash a with None => 0%nat | Some s => S s end).
  assert (Hst : (start <= length a)%nat) by (subst start; destruct (rfind slash a) eqn:Ea; [apply rfind_lt in Ea; lia|lia]).
  assert (Hla : (length a < length r)%nat) by (rewrite Er, app_length; cbn; lia).
  rewrite (proj2 (Nat.leb_le start (length r))) by lia. cbn [andb].
  assert (X : existsb (fun q => negb (Ascii.eqb q dot)) (slice (r ++ dot :: x) start (length r)) = true).
  { apply existsb_exists. exists c. split; [|now rewrite (proj2 (Ascii.eqb_neq c dot) Hc)].
    apply (nth_error_In _ (length a - start)). rewrite slice_nth by lia.
    replace (start + (length a - start))%nat with (length a) by lia. rewrite Er, <- app_assoc, nth_error_app2 by lia.
    now rewrite Nat.sub_diag. }
  rewrite X. f_equal.
  - rewrite firstn_app, firstn_all, Nat.sub_diag. cbn. apply app_nil_r.
  - rewrite skipn_app, skipn_all, Nat.sub_diag. reflexivity.
Qed.

Lemma extension_main r x z : has_name r -> ~ In dot x -> ~ In slash x -> z = [] \/ z = gz ->
  ~ occurs gz (r ++ dot :: x) -> ~ occurs r (dot :: x ++ z) ->
  get_file_extension (r ++ dot :: x ++ z) = dot :: x ++ z.
Proof.
  intros Hr Hx Hs Hz G O. unfold get_file_extension.
  assert (E : remove_string (% ".gz") (r ++ dot :: x ++ z) = r ++ dot :: x).
  { unfold remove_string. change (% ".gz") with gz. destruct Hz as [ -> | -> ].
    - rewrite app_nil_r. now apply drop_none.
    - change (r ++ dot :: x ++ gz) with (r ++ (dot :: x) ++ gz). rewrite app_assoc. now apply drop_gz. }
  rewrite E, splitext_ok by assumption. cbn [fst]. apply remove_front; [|assumption].
  destruct Hr as (a & c & b & -> & _). now destruct a.
Qed.
Lemma extension_refuted : exists r x, has_name r /\ ~ In dot x /\ ~ In slash x /\ ~ occurs gz (r ++ dot :: x) /\
  get_file_extension (r ++ dot :: x) <> dot :: x.
Proof.
  exists % "a", % "a". split; [exists [], "a"%char, []; repeat split; try discriminate; intros []|].
  split; [intros [C|[]]; discriminate|]. split; [intros [C|[]]; discriminate|]. split; [|vm_compute; discriminate].
  intros (a & b & E). destruct a as [|? [|? [|? [|? a]]]]; discriminate.
Qed.
Lemma forall_dot_slash d : Forall (fun c => c = dot) d -> ~ In slash d.
Proof. intros H I. rewrite Forall_forall in H. apply H in I. discriminate. Qed.
Lemma splitext_none f : no_extension f -> splitext f = (f, []).
Proof.
  intros (dir & d & x & -> & Hd & Fd & Hx & Hs). unfold splitext. change "."%char with dot. change "/"%char with slash.
  rewrite app_assoc, rfind_app, (rfind_none dot x Hx), rfind_app.
  assert (S : rfind slash ((dir ++ d) ++ x) = rfind slash dir).
  { rewrite rfind_app, (rfind_none slash x Hs), rfind_app, (rfind_none slash d (forall_dot_slash d Fd)). reflexivity. }
  rewrite S. assert (St : match rfind slash dir with None => 0%nat | Some s => Datatypes.S s end = length dir).
  { destruct Hd as [ -> |(c & dir' & -> & ->)]; [reflexivity|]. rewrite rfind_app, app_length. cbn. lia. }
  rewrite St. destruct (rfind dot d) as [k|] eqn:Ek.
  - apply rfind_lt in Ek. assert (E : existsb (fun c => negb (Ascii.eqb c dot)) (slice ((dir ++ d) ++ x) (length dir) (length dir + k)) = false).
    { destruct (existsb _ _) eqn:Ex; [|reflexivity]. apply existsb_exists in Ex. destruct Ex as (c & Hc & Nc).
      unfold slice in Hc. rewrite <- app_assoc, skipn_app, skipn_all, Nat.sub_diag in Hc. cbn [skipn app] in Hc.
      replace (length dir + k - length dir)%nat with k in Hc by lia. rewrite firstn_app in Hc.
      replace (k - length d)%nat with 0%nat in Hc by lia. cbn [firstn] in Hc. rewrite app_nil_r in Hc.
      assert (Hin : In c d) by (rewrite <- (firstn_skipn k d); apply in_or_app; now left). rewrite Forall_forall in Fd. apply Fd in Hin. subst c.
      now rewrite Ascii.eqb_refl in Nc. }
    rewrite E, andb_false_r. reflexivity.
  - destruct (rfind dot dir) as [k|] eqn:Ed; [|reflexivity]. apply rfind_lt in Ed.
    now rewrite (proj2 (Nat.leb_gt (length dir) k) Ed).
Qed.
Lemma extension_none f : f <> [] -> no_extension f -> ~ occurs gz f -> get_file_extension f = [].
Proof.
  intros N H G. unfold get_file_extension. assert (E : remove_string (% ".gz") f = f) by (unfold remove_string; now apply drop_none).
  rewrite E, splitext_none by assumption. cbn [fst]. rewrite <- (app_nil_r f) at 2. apply remove_front; [assumption|].
  intros (a & b & C). destruct a, f; [congruence|discriminate..].
Qed.
