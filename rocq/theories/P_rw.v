(* P_rw.v: complex columns in text files: proofs. *)
From Coq Require Import String Ascii.
From Verif Require Import Np Lib M_io M_mission M_rw S_rw P_mission.
From Coq Require Import QArith List Bool Permutation Lia Lqa.
Import ListNotations.
Open Scope Q_scope.

Lemma get_app t u n : ~ In n (map fst t) -> col_get (t ++ u) n = col_get u n.
Proof.
  induction t as [|[m c] t IH]; intros H; [reflexivity|]. cbn [app col_get]. rewrite str_eqb_neq; [apply IH|]; intros E; apply H; cbn [map fst]; [right; exact E|left; exact E].
Qed.
Lemma get_here n c u : col_get ((n, c) :: u) n = Some c.
Proof. cbn [col_get]. now rewrite str_eqb_refl. Qed.
Lemma put_new t n c : ~ In n (map fst t) -> col_put t n c = t ++ [(n, c)].
Proof.
  induction t as [|[m d] t IH]; intros H; [reflexivity|]. cbn [app col_put]. rewrite str_eqb_neq; [f_equal; apply IH|]; intros E; apply H; cbn [map fst]; [right; exact E|left; exact E].
Qed.
Lemma put_app t u n c : ~ In n (map fst t) -> col_put (t ++ u) n c = t ++ col_put u n c.
Proof.
  induction t as [|[m d] t IH]; intros H; [reflexivity|]. cbn [app col_put]. rewrite str_eqb_neq; [f_equal; apply IH|]; intros E; apply H; cbn [map fst]; [right; exact E|left; exact E].
Qed.
Lemma put_here n c d u : col_put ((n, d) :: u) n c = (n, c) :: u.
Proof. cbn [col_put]. now rewrite str_eqb_refl. Qed.
Lemma del_none t n : ~ In n (map fst t) -> col_del t n = t.
Proof.
  induction t as [|[m d] t IH]; intros H; [reflexivity|]. unfold col_del. cbn [filter fst]. rewrite str_eqb_neq by (intros E; apply H; now left). cbn [negb].
  f_equal. apply IH. intros E. apply H. now right.
Qed.
Lemma del_app t u n : col_del (t ++ u) n = col_del t n ++ col_del u n.
Proof. apply filter_app. Qed.
Lemma del_here n c u : col_del ((n, c) :: u) n = col_del u n.
Proof. unfold col_del. cbn [filter fst]. now rewrite str_eqb_refl. Qed.
Lemma in_iff t n : col_in t n = true <-> In n (map fst t).
Proof.
  unfold col_in, colnames. rewrite existsb_exists. split; [intros (m & H & E); apply str_eqb_spec in E; now subst|]. intros H. exists n. split; [exact H|apply str_eqb_refl].
Qed.
Lemma in_none t n : ~ In n (map fst t) -> col_in t n = false.
Proof. intros H. destruct (col_in t n) eqn:E; [|reflexivity]. apply in_iff in E. contradiction. Qed.

(* names *)
Lemma real_dot n : In "."%char (n ++ dot_real).
Proof. apply in_or_app. right. now left. Qed.
Lemma imag_dot n : In "."%char (n ++ dot_imag).
Proof. apply in_or_app. right. now left. Qed.
Lemma real_imag n m : n ++ dot_real <> m ++ dot_imag.
Proof. intros E. apply (f_equal (@rev ascii)) in E. rewrite !rev_app_distr in E. cbn in E. discriminate. Qed.
Lemma real_inj n m : n ++ dot_real = m ++ dot_real -> n = m.
Proof. apply app_inv_tail. Qed.
Lemma imag_inj n m : n ++ dot_imag = m ++ dot_imag -> n = m.
Proof. apply app_inv_tail. Qed.
Lemma starts_app p s : starts_with p (p ++ s) = true.
Proof. induction p as [|a p IH]; [reflexivity|]. cbn [starts_with app]. now rewrite Ascii.eqb_refl. Qed.
Lemma starts_in p s : starts_with p s = true -> forall a, In a p -> In a s.
Proof.
  revert s. induction p as [|b p IH]; intros s H a; [intros []|]. destruct s as [|c s]; [discriminate|]. cbn [starts_with] in H. apply andb_true_iff in H.
  destruct H as [E H]. apply Ascii.eqb_eq in E. subst c. intros [->|I]; [now left|right; now apply IH].
Qed.
Lemma ends_app n p : ends_with p (n ++ p) = true.
Proof. unfold ends_with. rewrite rev_app_distr. apply starts_app. Qed.
Lemma ends_dot p n : In "."%char p -> plain n -> ends_with p n = false.
Proof.
  intros I P. destruct (ends_with p n) eqn:E; [|reflexivity]. exfalso. apply P. apply in_rev. apply (starts_in _ _ E). now apply -> in_rev.
Qed.
Lemma ends_ri n : ends_with dot_real (n ++ dot_imag) = false.
Proof. unfold ends_with. rewrite rev_app_distr. reflexivity. Qed.
Lemma drop_plain p n s : plain n -> drop_all ("."%char :: p) 0 (n ++ s) = n ++ drop_all ("."%char :: p) 0 s.
Proof.
  intros H. induction n as [|a n IH]; [reflexivity|]. cbn [app drop_all starts_with]. destruct (Ascii.eqb "."%char a) eqn:E.
  - apply Ascii.eqb_eq in E. subst a. exfalso. apply H. now left.
  - cbn [andb]. f_equal. apply IH. intros I. apply H. now right.
Qed.
Lemma strip_real n : plain n -> remove_string dot_imag (remove_string dot_real (n ++ dot_real)) = n.
Proof.
  intros H. unfold dot_real, dot_imag. cbn [list_ascii_of_string remove_string]. rewrite drop_plain by exact H.
  change (drop_all _ 0 _) with (@nil ascii) at 2. rewrite app_nil_r. rewrite <- (app_nil_r n) at 1. rewrite drop_plain by exact H. apply app_nil_r.
Qed.
Lemma strip_imag n : plain n -> remove_string dot_imag (remove_string dot_real (n ++ dot_imag)) = n.
Proof.
  intros H. unfold dot_real, dot_imag. cbn [list_ascii_of_string remove_string]. rewrite drop_plain by exact H.
  match goal with |- drop_all ?p 0 (n ++ ?x) = n => change x with (% ".imag") end. rewrite drop_plain by exact H.
  match goal with |- n ++ ?x = n => change x with (@nil ascii) end. apply app_nil_r.
Qed.

(* writing *)
Definition parts (p : str * column) : tab := [(fst p ++ dot_real, real_part (snd p)); (fst p ++ dot_imag, imag_part (snd p))].
Definition split_b (p : str * column) : bool := match first_is_complex (snd p) with Ok b => b | Err _ => false end.
Lemma split_iff p : split_b p = true <-> to_split p.
Proof.
  unfold split_b, first_is_complex, to_split. destruct (k_data (snd p)) as [|v l]; [split; [discriminate|intros (_ & v & l & E & _); discriminate]|].
  rewrite andb_true_iff, negb_true_iff. split.
  - intros [A B]. split; [exact A|]. exists v, l. split; [reflexivity|]. intros E. apply qeq_t in E. congruence.
  - intros [A (v' & l' & E & N)]. injection E as <- <-. split; [exact A|]. destruct (qeq (snd v) 0) eqn:E; [|reflexivity]. apply qeq_t in E. contradiction.
Qed.
Lemma parts_names l n : In n (map fst (flat_map parts l)) -> exists m, In m (map fst l) /\ (n = m ++ dot_real \/ n = m ++ dot_imag).
Proof.
  intros H. apply in_map_iff in H. destruct H as ([x c] & E & H). cbn [fst] in E. subst x. apply in_flat_map in H. destruct H as ([m d] & I & H). exists m.
  split; [apply (in_map fst) in I; exact I|]. destruct H as [H|[H|[]]]; injection H as <- <-; auto.
Qed.
Definition wellnamed (t : tab) : Prop := NoDup (map fst t) /\ Forall (fun p => plain (fst p)) t.
Lemma split_ok rest : forall u s, wellnamed (u ++ rest ++ s) -> Forall (fun p => k_data (snd p) <> []) rest ->
  split_loop (map fst rest) (u ++ rest ++ flat_map parts s) = Ok (u ++ filter (fun p => negb (split_b p)) rest ++ flat_map parts (s ++ filter split_b rest)).
Proof.
  induction rest as [|[n c] rest IH]; intros u s [N P] H; [cbn [map split_loop filter app]; now rewrite app_nil_r|].
  inversion H as [|? ? Hd Ht]; subst. cbn [map fst split_loop].
  assert (Pn : plain n) by (rewrite Forall_forall in P; apply (P (n, c)), in_or_app; right; now left).
  assert (Nu : ~ In n (map fst u) /\ ~ In n (map fst rest) /\ ~ In n (map fst s)).
  { rewrite map_app in N. cbn [app map fst] in N. apply NoDup_remove_2 in N. rewrite map_app, !in_app_iff in N. tauto. }
  destruct Nu as (Nu & Nr & Ns). rewrite get_app by exact Nu. cbn [app]. rewrite get_here. cbn [bind].
  cbn [filter]. cbn [snd] in Hd. destruct (first_is_complex c) as [b|e] eqn:E; [|exfalso; unfold first_is_complex in E; destruct (k_data c); [now apply Hd|discriminate]].
  assert (Eb : split_b (n, c) = b) by (unfold split_b; cbn [snd]; now rewrite E). rewrite Eb. clear Eb.
  cbn [bind]. assert (D : forall x, In "."%char x -> ~ In x (map fst (u ++ (n, c) :: rest))).
  { intros x Hx I. apply in_map_iff in I. destruct I as (p & <- & I). rewrite Forall_forall in P. apply (P p); [|exact Hx]. rewrite app_assoc, <- app_assoc. cbn [app].
    apply in_app_or in I. destruct I as [I|[I|I]]; apply in_or_app; [now left|right; left; exact I|right; right; apply in_or_app; now left]. }
  destruct b; cbn [negb].
  - replace (u ++ (n, c) :: rest ++ flat_map parts s) with ((u ++ (n, c) :: rest) ++ flat_map parts s) by (rewrite <- app_assoc; reflexivity).
    rewrite (put_new _ (n ++ dot_real)). 2: { rewrite map_app, in_app_iff. intros [I|I]; [now apply (D _ (real_dot n)) in I|]. apply parts_names in I. destruct I as (m & Im & [I|I]).
      - apply real_inj in I. subst m. contradiction.
      - now apply real_imag in I. }
    rewrite (put_new _ (n ++ dot_imag)). 2: { rewrite map_app, in_app_iff. rewrite map_app, in_app_iff. intros [[I|I]|[I|[]]]; [now apply (D _ (imag_dot n)) in I| |now apply real_imag in I]. apply parts_names in I. destruct I as (m & Im & [I|I]).
      - symmetry in I. now apply real_imag in I.
      - apply imag_inj in I. subst m. contradiction. }
    replace (col_del _ n) with (u ++ rest ++ flat_map parts (s ++ [(n, c)])).
    + rewrite IH; [cbn [app filter]; rewrite <- app_assoc; reflexivity| |exact Ht]. split.
      * eapply Permutation.Permutation_NoDup; [|exact N]. apply Permutation.Permutation_map. apply Permutation.Permutation_app_head. cbn [app].
        rewrite app_assoc. apply Permutation.Permutation_cons_append.
      * rewrite Forall_forall in P |- *. intros p I. apply P. rewrite !in_app_iff in *. cbn [In] in *. tauto.
    + rewrite !del_app, del_here. rewrite (del_none u) by exact Nu. rewrite (del_none rest) by exact Nr.
      rewrite (del_none (flat_map parts s)). 2: { intros I. apply parts_names in I. destruct I as (m & _ & [->| ->]); apply Pn; [apply real_dot|apply imag_dot]. }
      rewrite (del_none [(n ++ dot_real, _)]). 2: { intros [I|[]]. cbn [fst] in I. apply Pn. rewrite <- I. apply real_dot. }
      rewrite (del_none [(n ++ dot_imag, _)]). 2: { intros [I|[]]. cbn [fst] in I. apply Pn. rewrite <- I. apply imag_dot. }
      rewrite flat_map_app. cbn [flat_map parts fst snd app]. rewrite <- !app_assoc. reflexivity.
  - replace (u ++ (n, c) :: rest ++ flat_map parts s) with ((u ++ [(n, c)]) ++ rest ++ flat_map parts s) by (rewrite <- app_assoc; reflexivity).
    rewrite IH; [cbn [app filter]; rewrite <- app_assoc; reflexivity| |exact Ht]. split; rewrite <- app_assoc; assumption.
Qed.
Lemma write_ok t : sound t -> exists w, write_table true t = Ok w /\ exists u s, Permutation (u ++ s) t /\ w = u ++ flat_map parts s /\
  u = filter (fun p => negb (split_b p)) t /\ s = filter split_b t.
Proof.
  intros [N F]. eexists. split.
  - unfold write_table, colnames. pose proof (split_ok t [] []) as H. cbn [app flat_map] in H. rewrite !app_nil_r in H. rewrite H; [reflexivity| |].
    + split; [exact N|]. eapply Forall_impl; [|exact F]. now intros p (A & _).
    + eapply Forall_impl; [|exact F]. now intros p (_ & _ & A).
  - do 2 eexists. split; [|split; [reflexivity|split; reflexivity]]. clear N F. induction t as [|p t IH]; [constructor|]. cbn [filter].
    destruct (split_b p); cbn [negb app]; [|now constructor]. symmetry. apply Permutation_cons_app. now symmetry.
Qed.
Lemma parts_two p : two_columns (fst p) (snd p) (parts p).
Proof.
  unfold two_columns, parts, real_part, imag_part. do 2 eexists. split; [reflexivity|].
  split; induction (k_data (snd p)); constructor; auto.
Qed.

(* reading *)
Lemma lower_id (t : tab) : forall acc : tab, NoDup (map fst (acc ++ t)) -> Forall (fun p => no_capital (fst p)) t ->
  fold_left (fun (acc : tab) (p : str * column) => col_put acc (lower (fst p)) (snd p)) t acc = acc ++ t.
Proof.
  induction t as [|[n c] t IH]; intros acc N F; [symmetry; apply app_nil_r|]. inversion F as [|? ? L Ft]; subst. cbn [fold_left fst snd] in *. rewrite L.
  assert (M : ~ In n (map fst acc)). { rewrite map_app in N. cbn [map fst] in N. apply NoDup_remove_2 in N. rewrite in_app_iff in N. tauto. }
  rewrite put_new by exact M. rewrite IH; [now rewrite <- app_assoc|now rewrite <- app_assoc|exact Ft].
Qed.
Definition joined (flag : bool) (p : str * column) : str * column :=
  (fst p, mkCol true (map (fun q => (fst (fst q) + fst (snd q), snd (fst q) + snd (snd q))) (combine (k_data (new_value flag (real_part (snd p)))) (k_data (new_value true (imag_part (snd p))))))).
Lemma skip_plain (u : tab) : forall r flag t, Forall (fun p => plain (fst p)) u -> u <> [] -> join_loop (map fst u ++ r) flag t = join_loop r (Some false) t.
Proof.
  induction u as [|[n c] u IH]; intros r flag t F H; [contradiction|]. inversion F as [|? ? P Fu]; subst. cbn [fst] in P. cbn [map fst app join_loop].
  rewrite (ends_dot dot_real n) by (try exact P; now left). rewrite (ends_dot dot_imag n) by (try exact P; now left). cbn [orb negb].
  destruct u as [|q u]; [reflexivity|]. apply IH; [exact Fu|discriminate].
Qed.
Lemma pair_step n c (rest u j : tab) flag r : wellnamed (u ++ (n, c) :: rest ++ j) ->
  join_loop ((n ++ dot_real) :: (n ++ dot_imag) :: r) (Some flag) (u ++ flat_map parts ((n, c) :: rest) ++ j) =
  join_loop r (Some true) (u ++ flat_map parts rest ++ j ++ [joined flag (n, c)]).
Proof.
  intros [N P].
  assert (Nu : ~ In n (map fst u) /\ ~ In n (map fst rest) /\ ~ In n (map fst j)).
  { rewrite map_app in N. cbn [app map fst] in N. apply NoDup_remove_2 in N. rewrite map_app, !in_app_iff in N. tauto. }
  destruct Nu as (Nu & Nr & Nj).
  assert (Pn : plain n) by (rewrite Forall_forall in P; apply (P (n, c)), in_or_app; right; now left).
  assert (Du : forall x, In "."%char x -> ~ In x (map fst u)).
  { intros x Hx I. apply in_map_iff in I. destruct I as (p & <- & I). rewrite Forall_forall in P. apply (P p); [|exact Hx]. apply in_or_app. now left. }
  assert (Dj : forall x, In "."%char x -> ~ In x (map fst j)).
  { intros x Hx I. apply in_map_iff in I. destruct I as (p & <- & I). rewrite Forall_forall in P. apply (P p); [|exact Hx]. apply in_or_app. right. right. apply in_or_app. now right. }
  assert (Dr : ~ In n (map fst (flat_map parts rest))) by (intros I; apply parts_names in I; destruct I as (m & _ & [->| ->]); apply Pn; [apply real_dot|apply imag_dot]).
  assert (Rr : ~ In (n ++ dot_real) (map fst (flat_map parts rest))).
  { intros I. apply parts_names in I. destruct I as (m & Im & [I|I]); [apply real_inj in I; subst m; contradiction|now apply real_imag in I]. }
  assert (Ri : ~ In (n ++ dot_imag) (map fst (flat_map parts rest))).
  { intros I. apply parts_names in I. destruct I as (m & Im & [I|I]); [symmetry in I; now apply real_imag in I|apply imag_inj in I; subst m; contradiction]. }
  assert (Nn : n <> n ++ dot_real /\ n <> n ++ dot_imag).
  { split; intros E; apply Pn; rewrite E; [apply real_dot|apply imag_dot]. }
  destruct Nn as [Nnr Nni].
  cbn [flat_map]. unfold parts at 1. cbn [fst snd app].
  (* the real part *)
  cbn [join_loop]. rewrite ends_app. cbn [orb negb]. rewrite get_app by (apply Du, real_dot). rewrite get_here. rewrite strip_real by exact Pn.
  rewrite in_none. 2: { rewrite map_app, in_app_iff. cbn [map fst In]. rewrite map_app, in_app_iff. intros [I|[I|[I|[I|I]]]]; try contradiction; congruence. }
  cbn [bind]. rewrite put_new. 2: { rewrite map_app, in_app_iff. cbn [map fst In]. rewrite map_app, in_app_iff. intros [I|[I|[I|[I|I]]]]; try contradiction; congruence. }
  replace (col_del _ (n ++ dot_real)) with ((u ++ [(n ++ dot_imag, imag_part c)] ++ flat_map parts rest ++ j) ++ [(n, new_value flag (real_part c))]).
  2: { rewrite <- !app_assoc. cbn [app]. rewrite del_app, del_here, (del_none u) by (apply Du, real_dot). f_equal. symmetry. rewrite del_none; [rewrite <- app_assoc; reflexivity|].
       cbn [map fst In]. rewrite !map_app, !in_app_iff. cbn [map fst In].
       intros [I|[[I|I]|[I|[]]]]; [symmetry in I; now apply real_imag in I|contradiction|now apply (Dj _ (real_dot n)) in I|congruence]. }
  (* the imaginary part *)
  rewrite ends_ri, ends_app. cbn [orb negb]. rewrite <- app_assoc. rewrite get_app by (apply Du, imag_dot). cbn [app]. rewrite get_here. rewrite strip_imag by exact Pn.
  match goal with |- context [col_in ?t n] => assert (I : col_in t n = true) end.
  { apply in_iff. rewrite map_app, in_app_iff. right. cbn [map fst In]. right. rewrite map_app, in_app_iff. right. now left. }
  rewrite I. clear I.
  assert (G : forall x, (u ++ (n ++ dot_imag, imag_part c) :: (flat_map parts rest ++ j) ++ x) = (u ++ [(n ++ dot_imag, imag_part c)] ++ flat_map parts rest ++ j) ++ x).
  { intros x. rewrite <- !app_assoc. reflexivity. }
  assert (M : ~ In n (map fst (u ++ [(n ++ dot_imag, imag_part c)] ++ flat_map parts rest ++ j))).
  { rewrite !map_app, !in_app_iff. cbn [map fst In]. intros [I|[[I|[]]|[I|I]]]; try contradiction. congruence. }
  rewrite G. rewrite get_app by exact M. rewrite get_here. unfold add_into. cbn [k_complex new_value bind]. rewrite put_app by exact M. rewrite put_here.
  f_equal. rewrite <- !app_assoc. rewrite !del_app. rewrite (del_none u) by (apply Du, imag_dot). f_equal. cbn [app]. rewrite del_here.
  change (col_del [] (n ++ dot_imag)) with (@nil (str * column)). cbn [app]. rewrite (del_none (flat_map parts rest)) by exact Ri. f_equal.
  rewrite (del_none j) by (apply Dj, imag_dot). f_equal. apply del_none. intros [I|[]]. now apply Nni.
Qed.
Lemma pairs_ok (rest : tab) : forall u j : tab, wellnamed (u ++ rest ++ j) ->
  join_loop (map fst (flat_map parts rest)) (Some true) (u ++ flat_map parts rest ++ j) = Ok (u ++ j ++ map (joined true) rest).
Proof.
  induction rest as [|[n c] rest IH]; intros u j W; [cbn [flat_map map join_loop app]; now rewrite app_nil_r|].
  change (map fst (flat_map parts ((n, c) :: rest))) with ((n ++ dot_real) :: (n ++ dot_imag) :: map fst (flat_map parts rest)).
  rewrite pair_step by exact W. rewrite IH; [cbn [map]; rewrite <- app_assoc; reflexivity|]. destruct W as [N P]. split.
  - replace (map fst (u ++ rest ++ j ++ [joined true (n, c)])) with (map fst (u ++ rest ++ j ++ [(n, c)])) by (rewrite !map_app; reflexivity).
    eapply Permutation_NoDup; [|exact N]. apply Permutation_map, Permutation_app_head. cbn [app]. rewrite app_assoc. apply Permutation_cons_append.
  - rewrite Forall_forall in P |- *. intros p I. rewrite !in_app_iff in I. cbn [In] in I. destruct I as [I|[I|[I|[I|[]]]]].
    + apply P. rewrite !in_app_iff. now left.
    + apply P. rewrite !in_app_iff. right. left. now right.
    + apply P. rewrite !in_app_iff. right. now right.
    + subst p. apply (P (n, c)). rewrite !in_app_iff. right. left. now left.
Qed.
Lemma joined_first p : as_it_was p (joined false p).
Proof.
  unfold as_it_was, joined, new_value, real_part, imag_part. cbn [fst snd k_complex k_data]. split; [reflexivity|]. split; [reflexivity|].
  induction (k_data (snd p)) as [|[a b] l IH]; constructor; [|exact IH]. cbn [fst snd]. split; Lqa.lra.
Qed.
Lemma joined_later p : all_imaginary p (joined true p).
Proof.
  unfold all_imaginary, joined, new_value, real_part, imag_part. cbn [fst snd k_complex k_data]. split; [reflexivity|]. split; [reflexivity|].
  induction (k_data (snd p)) as [|[a b] l IH]; constructor; [|exact IH]. cbn [fst snd]. split; Lqa.lra.
Qed.
Lemma lower_app a b : lower (a ++ b) = lower a ++ lower b.
Proof. apply map_app. Qed.
Lemma parts_nodup l : NoDup (map fst l) -> NoDup (map fst (flat_map parts l)).
Proof.
  induction l as [|[n c] l IH]; intros N; [constructor|]. cbn [map fst] in N. inversion N as [|? ? M N']; subst.
  change (NoDup ((n ++ dot_real) :: (n ++ dot_imag) :: map fst (flat_map parts l))). constructor; [intros [I|I]|constructor; [intros I|now apply IH]].
  - symmetry in I. now apply real_imag in I.
  - apply parts_names in I. destruct I as (m & Im & [I|I]); [apply real_inj in I; subst m; contradiction|now apply real_imag in I].
  - apply parts_names in I. destruct I as (m & Im & [I|I]); [symmetry in I; now apply real_imag in I|apply imag_inj in I; subst m; contradiction].
Qed.
Lemma nodup_apart (a b : list str) : NoDup a -> NoDup b -> (forall x, In x a -> ~ In x b) -> NoDup (a ++ b).
Proof.
  induction a as [|x a IH]; intros A B D; [exact B|]. inversion A; subst. cbn [app]. constructor; [rewrite in_app_iff; intros [I|I]; [contradiction|now apply (D x (or_introl eq_refl))]|].
  apply IH; auto. intros y Hy. apply D. now right.
Qed.
Lemma sound_parts (u s t : tab) : sound t -> Permutation (u ++ s) t -> wellnamed (u ++ s) /\ lower_table (u ++ flat_map parts s) = u ++ flat_map parts s.
Proof.
  intros [N F] E. assert (N' : NoDup (map fst (u ++ s))) by (eapply Permutation_NoDup; [apply Permutation_map; symmetry; exact E|exact N]).
  assert (F' : Forall (fun p => plain (fst p) /\ no_capital (fst p)) (u ++ s)).
  { rewrite Forall_forall in F |- *. intros p I. destruct (F p (Permutation_in _ E I)) as (A & B & _). now split. }
  split; [split; [exact N'|eapply Forall_impl; [|exact F']; now intros p (A & _)]|].
  apply Forall_app in F'. destruct F' as [Fu Fs]. unfold lower_table. rewrite lower_id; [reflexivity| |].
  - cbn [app]. rewrite map_app in *. apply nodup_apart.
    + clear - N'. induction (map fst u) as [|x l IH]; [constructor|]. cbn [app] in N'. inversion N' as [|? ? M N]; subst. constructor; [rewrite in_app_iff in M; tauto|auto].
    + apply parts_nodup. clear - N'. induction (map fst u) as [|x l IH]; [exact N'|]. inversion N'; subst. auto.
    + intros x Hx I. apply in_map_iff in Hx. destruct Hx as (p & <- & Hp). rewrite Forall_forall in Fu. destruct (Fu p Hp) as [Q _].
      apply parts_names in I. destruct I as (m & _ & [I|I]); apply Q; rewrite I; [apply real_dot|apply imag_dot].
  - apply Forall_app. split; [eapply Forall_impl; [|exact Fu]; now intros p (_ & A)|]. rewrite Forall_forall in *. intros [n c] I. apply in_flat_map in I.
    destruct I as (p & Ip & I). destruct (Fs p Ip) as [_ L]. unfold no_capital in *. destruct I as [I|[I|[]]]; injection I as <- <-; cbn [fst]; rewrite lower_app, L; reflexivity.
Qed.
(* the round trip *)
Lemma round_trip t u s : sound t -> u = filter (fun p => negb (split_b p)) t -> s = filter split_b t -> u <> [] ->
  exists w, write_table true t = Ok w /\ read_table true w = Ok (u ++ match s with [] => [] | p :: r => joined false p :: map (joined true) r end).
Proof.
  intros S -> -> H. destruct (write_ok t S) as (w & Ew & u & s & E & -> & Eu & Es). exists (u ++ flat_map parts s). split; [exact Ew|]. rewrite <- Eu, <- Es in *.
  destruct (sound_parts u s t S E) as [W L]. unfold read_table. rewrite L. unfold colnames. rewrite map_app. rewrite skip_plain; [| |exact H].
  2: { destruct W as [_ P]. apply Forall_app in P. exact (proj1 P). }
  destruct s as [|[n c] s]; [reflexivity|]. change (map fst (flat_map parts ((n, c) :: s))) with ((n ++ dot_real) :: (n ++ dot_imag) :: map fst (flat_map parts s)).
  pose proof (pair_step n c s u [] false (map fst (flat_map parts s))) as Q. rewrite !app_nil_r in Q. rewrite Q by exact W. cbn [app].
  change (u ++ flat_map parts s ++ [joined false (n, c)]) with (u ++ flat_map parts s ++ [joined false (n, c)]).
  rewrite pairs_ok; [reflexivity|]. destruct W as [N P]. split.
  - replace (map fst (u ++ s ++ [joined false (n, c)])) with (map fst (u ++ s ++ [(n, c)])) by (rewrite !map_app; reflexivity).
    eapply Permutation_NoDup; [|exact N]. apply Permutation_map, Permutation_app_head. apply Permutation_cons_append.
  - rewrite Forall_forall in P |- *. intros p I. rewrite !in_app_iff in I. cbn [In] in I. destruct I as [I|[I|[I|[]]]].
    + apply P. rewrite in_app_iff. now left.
    + apply P. rewrite in_app_iff. right. now right.
    + subst p. apply (P (n, c)). rewrite in_app_iff. right. now left.
Qed.
Lemma agree_b (b : str * column -> bool) : (forall p, b p = true <-> to_split p) -> forall p, b p = split_b p.
Proof. intros H p. destruct (b p) eqn:E, (split_b p) eqn:E'; try reflexivity; [apply H, split_iff in E|apply split_iff, H in E']; congruence. Qed.
Lemma written b t : sound t -> (forall p, b p = true <-> to_split p) ->
  exists l, write_table true t = Ok (filter (fun p => negb (b p)) t ++ concat l) /\ Forall2 (fun p => two_columns (fst p) (snd p)) (filter b t) l.
Proof.
  intros S B. pose proof (agree_b b B) as A. destruct (write_ok t S) as (w & Ew & u & s & _ & -> & -> & ->). exists (map parts (filter b t)).
  rewrite (filter_ext _ _ A). rewrite (filter_ext (fun p => negb (b p)) (fun p => negb (split_b p))) by (intros p; now rewrite A). rewrite <- flat_map_concat_map. split; [exact Ew|].
  clear. induction (filter split_b t) as [|p l IH]; [constructor|constructor; [apply parts_two|exact IH]].
Qed.
Lemma came_back b t : sound t -> (forall p, b p = true <-> to_split p) -> (exists p, In p t /\ ~ to_split p) ->
  exists w r, write_table true t = Ok w /\ read_table true w = Ok (filter (fun p => negb (b p)) t ++ r) /\
    match filter b t, r with [], [] => True | p :: l, q :: m => as_it_was p q /\ Forall2 all_imaginary l m | _, _ => False end.
Proof.
  intros S B (p & Hp & Np). pose proof (agree_b b B) as A. rewrite (filter_ext _ _ A). rewrite (filter_ext (fun p => negb (b p)) (fun p => negb (split_b p))) by (intros q; now rewrite A).
  destruct (round_trip t _ _ S eq_refl eq_refl) as (w & Ew & Er).
  { intros E. assert (I : In p (filter (fun p => negb (split_b p)) t)); [|rewrite E in I; exact I]. apply filter_In. split; [exact Hp|]. apply negb_true_iff.
    destruct (split_b p) eqn:F; [|reflexivity]. apply split_iff in F. contradiction. }
  exists w. eexists. split; [exact Ew|]. split; [exact Er|]. destruct (filter split_b t) as [|q l]; [exact I|]. split; [apply joined_first|].
  clear. induction l as [|p l IH]; [constructor|constructor; [apply joined_later|exact IH]].
Qed.
Lemma one_column t n c : sound t -> (exists p, In p t /\ ~ to_split p) -> In (n, c) t -> to_split (n, c) -> (forall p, In p t -> to_split p -> p = (n, c)) ->
  exists w r q, write_table true t = Ok w /\ read_table true w = Ok (r ++ [q]) /\ as_it_was (n, c) q /\ forall p, In p r <-> In p t /\ p <> (n, c).
Proof.
  intros S X Hin Hs U. destruct (came_back split_b t S split_iff X) as (w & r & Ew & Er & M).
  assert (Hf : filter split_b t = [(n, c)]).
  { destruct S as [N _]. apply NoDup_map_inv in N. assert (N' : NoDup (filter split_b t)) by now apply NoDup_filter.
    assert (In' : In (n, c) (filter split_b t)) by (apply filter_In; split; [exact Hin|now apply split_iff]).
    assert (U' : forall p, In p (filter split_b t) -> p = (n, c)) by (intros p Hp; apply filter_In in Hp; destruct Hp as [Hp Hq]; apply U; [exact Hp|now apply split_iff]).
    destruct (filter split_b t) as [|p l]; [destruct In'|]. rewrite (U' p (or_introl eq_refl)) in *. destruct l as [|q l]; [reflexivity|]. exfalso.
    inversion N' as [|? ? M' _]; subst. apply M'. left. apply U'. right. now left. }
  rewrite Hf in M. destruct r as [|q [|q' r]]; [contradiction| |destruct M as [_ M]; inversion M]. destruct M as [M _].
  exists w. do 2 eexists. split; [exact Ew|]. split; [exact Er|]. split; [exact M|]. intros p. rewrite filter_In, negb_true_iff. split; intros [A B]; split; try exact A.
  - intros ->. apply split_iff in Hs. congruence.
  - destruct (split_b p) eqn:E; [|reflexivity]. exfalso. apply B, U; [exact A|now apply split_iff].
Qed.
Lemma unbound_error n c t : ends_with dot_real (lower n) = true -> read_table true ((n, c) :: t) = Err UnboundLocalError \/ exists m d, In (m, d) t /\ lower m = lower n.
Proof.
  intros H. destruct (existsb (fun p => str_eqb (lower (fst p)) (lower n)) t) eqn:X.
  - right. apply existsb_exists in X. destruct X as ([m d] & I & E). apply str_eqb_spec in E. now exists m, d.
  - left. unfold read_table, lower_table. cbn [fold_left fst snd col_put].
    assert (F : forall l acc, existsb (fun p : str * column => str_eqb (lower (fst p)) (lower n)) l = false ->
      exists r, fold_left (fun (acc : tab) p => col_put acc (lower (fst p)) (snd p)) l ((lower n, c) :: acc) = (lower n, c) :: r).
    { induction l as [|[m d] l IH]; intros acc E; [now exists acc|]. cbn [existsb fst] in E. apply orb_false_iff in E. destruct E as [E1 E2]. cbn [fold_left fst snd col_put].
      assert (E3 : str_eqb (lower n) (lower m) = false) by (apply str_eqb_neq; intros Q; rewrite Q in E1; rewrite str_eqb_refl in E1; discriminate).
      rewrite E3. now apply IH. }
    destruct (F t [] X) as (r & ->). cbn [colnames map fst join_loop]. rewrite H. cbn [orb negb]. now rewrite get_here.
Qed.
Lemma all_split_error t : sound t -> t <> [] -> (forall p, In p t -> to_split p) -> exists w, write_table true t = Ok w /\ read_table true w = Err UnboundLocalError.
Proof.
  intros S Ne H. destruct (write_ok t S) as (w & Ew & u & s & P & -> & Eu & Es). exists (u ++ flat_map parts s). split; [exact Ew|].
  destruct (sound_parts u s t S P) as [_ L].
  assert (U : u = []).
  { subst u. destruct (filter (fun p => negb (split_b p)) t) as [|p l] eqn:F; [reflexivity|]. exfalso. assert (I : In p (filter (fun p => negb (split_b p)) t)) by (rewrite F; now left).
    apply filter_In in I. destruct I as [I E]. apply H, split_iff in I. rewrite I in E. discriminate. }
  rewrite U in *. cbn [app] in *. destruct s as [|[n c] s]; [apply Permutation_nil in P; contradiction|].
  unfold read_table. rewrite L. change (join_loop ((n ++ dot_real) :: map fst (tl (flat_map parts ((n, c) :: s)))) None ((n ++ dot_real, real_part c) :: tl (flat_map parts ((n, c) :: s))) = Err UnboundLocalError).
  cbn [join_loop]. rewrite ends_app. cbn [orb negb]. now rewrite get_here.
Qed.
Lemma binary_files t : sound t -> write_table false t = Ok t /\ read_table false t = Ok t.
Proof.
  intros [N F]. split; [reflexivity|]. unfold read_table, lower_table. rewrite lower_id; [reflexivity|exact N|]. eapply Forall_impl; [|exact F]. now intros p (_ & A & _).
Qed.
Lemma empty_error n c t : k_data c = [] -> write_table true ((n, c) :: t) = Err IndexError.
Proof. intros H. unfold write_table. cbn [colnames map fst split_loop]. rewrite get_here. unfold first_is_complex. now rewrite H. Qed.
Lemma clash_error n c : plain n -> no_capital n -> k_complex c = false -> read_table true [(n, c); (n ++ dot_imag, c)] = Err TypeError.
Proof.
  intros P L H. unfold read_table, lower_table. cbn [fold_left fst snd col_put]. rewrite lower_app, L. change (lower dot_imag) with dot_imag.
  assert (E : n <> n ++ dot_imag) by (intros E; apply P; rewrite E; apply imag_dot). rewrite (str_eqb_neq n _ E). cbn [colnames map fst join_loop].
  rewrite (ends_dot dot_real n) by (try exact P; now left). rewrite (ends_dot dot_imag n) by (try exact P; now left). cbn [orb negb]. rewrite ends_ri, ends_app. cbn [orb negb].
  cbn [col_get]. rewrite (str_eqb_neq n _ E), str_eqb_refl. rewrite strip_imag by exact P. unfold col_in. cbn [colnames map fst existsb]. rewrite str_eqb_refl. cbn [orb].
  unfold add_into. now rewrite H.
Qed.
