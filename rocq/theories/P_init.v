(* P_init.v: checks of inputs: proofs. *)
From Coq Require Import String Ascii.
From Verif Require Import Np Lib M_utils M_lc M_base M_io M_mission M_object M_init S_object S_init P_mission P_object.
From Coq Require Import ZArith QArith Qabs List Bool Lia Lqa.
Import ListNotations.
Open Scope Q_scope.

Lemma norm_iff n : mem (lower n) norms = true <-> lower n = % "frac" \/ lower n = % "abs" \/ lower n = % "leahy" \/ lower n = % "none".
Proof. rewrite mem_iff. cbn [norms In]. intuition congruence. Qed.
Lemma type_iff p : mem p power_types = true <-> good_type p.
Proof. rewrite mem_iff. unfold good_type. cbn [power_types In]. intuition congruence. Qed.
Lemma gti_flag gtis (seg : option (option Q)) : match seg, gtis with None, Some n => Nat.ltb 1 n | _, _ => false end = false <-> good_gtis gtis seg.
Proof.
  unfold good_gtis. destruct seg; [split; [discriminate|reflexivity]|]. destruct gtis as [n|]; [|split; [discriminate|reflexivity]].
  rewrite Nat.ltb_ge. split; [intros H _ m E; injection E as <-; exact H|intros H; now apply H].
Qed.
Lemma some_true_ok (e : exn) : @Err bool e <> Ok true.
Proof. discriminate. Qed.
Lemma lists_true l l' : check_lists l l' = Ok true <-> exists x m y m', l = Some x :: m /\ l' = Some y :: m'.
Proof.
  destruct l as [|[x|] m]; cbn; [split; [discriminate|intros (? & ? & ? & ? & C & _); discriminate]| |split; [discriminate|intros (? & ? & ? & ? & C & _); discriminate]].
  destruct l' as [|[y|] m']; [split; [discriminate|intros (? & ? & ? & ? & _ & C); discriminate]| |split; [discriminate|intros (? & ? & ? & ? & _ & C); discriminate]].
  split; [intros _; now exists x, m, y, m'|reflexivity].
Qed.
Lemma checks_true norm pt d1 d2 gtis dt seg : basic_checks norm pt d1 d2 gtis dt seg = Ok true <->
  good_norm norm /\ good_type pt /\ good_gtis gtis seg /\ pair_ok dt d1 d2.
Proof.
  unfold basic_checks, good_norm. destruct norm as [n|]; [|split; [discriminate|intros [(n & C & _) _]; discriminate]].
  rewrite <- type_iff, <- gti_flag.
  destruct (mem (lower n) norms) eqn:En; cbn [negb]; [|split; [discriminate|intros [(m & C & H) _]; injection C as <-; apply norm_iff in H; congruence]].
  destruct (mem pt power_types) eqn:Ep; cbn [negb]; [|split; [discriminate|intros (_ & C & _); discriminate]].
  assert (N : exists m, Some n = Some m /\ (lower m = % "frac" \/ lower m = % "abs" \/ lower m = % "leahy" \/ lower m = % "none")) by (exists n; split; [reflexivity|now apply norm_iff]).
  destruct (is_none d1 || is_none d2)%bool eqn:E0.
  { split; [destruct (negb (is_none d1) || negb (is_none d2))%bool; discriminate|]. intros (_ & _ & _ & P). destruct P; discriminate. }
  destruct (match seg with Some _ => false | None => _ end) eqn:Eg; [split; [discriminate|intros (_ & _ & C & _); discriminate]|].
  assert (A : forall X Y : Prop, (Y <-> X) -> (Y <-> (exists m, Some n = Some m /\ (lower m = % "frac" \/ lower m = % "abs" \/ lower m = % "leahy" \/ lower m = % "none")) /\ true = true /\ false = false /\ X)) by (intuition auto).
  apply A. clear A N.
  destruct d1 as [| |a t e|l|l| |k], d2 as [| |b t' e'|l'|l'| |k']; cbn [same_type negb is_none] in *; try (split; [discriminate|intros P; inversion P; fail]).
  - destruct dt as [v|]; [|split; [discriminate|intros P; inversion P; discriminate]]. destruct (qle v _) eqn:Ev.
    + apply qle_t in Ev. split; [discriminate|]. intros P. inversion P as [w E H| | | |]. injection E as <-. Lqa.lra.
    + apply qle_f in Ev. split; [intros _; now apply (events_ok _ v)|reflexivity].
  - unfold np_isclose. destruct (qle _ _) eqn:Ev; cbn [negb].
    + apply qle_t in Ev. split; [intros _; now constructor|reflexivity].
    + apply qle_f in Ev. split; [discriminate|]. intros P. inversion P. subst. exfalso. eapply Qlt_not_le; eassumption.
  - rewrite lists_true. split; [intros (x & m & y & m' & -> & ->); constructor|intros P; inversion P; subst; now eexists _, _, _, _].
  - rewrite lists_true. split; [intros (x & m & y & m' & -> & ->); constructor|intros P; inversion P; subst; now eexists _, _, _, _].
  - split; [intros _; constructor|reflexivity].
  - destruct (Nat.eqb k k'); cbn [negb]; split; try discriminate; intros P; inversion P.
Qed.
Lemma checks_false norm pt d1 d2 gtis dt seg : basic_checks norm pt d1 d2 gtis dt seg = Ok false <->
  good_norm norm /\ good_type pt /\ d1 = DNone /\ d2 = DNone.
Proof.
  unfold basic_checks, good_norm. destruct norm as [n|]; [|split; [discriminate|intros [(n & C & _) _]; discriminate]].
  rewrite <- type_iff.
  destruct (mem (lower n) norms) eqn:En; cbn [negb]; [|split; [discriminate|intros [(m & C & H) _]; injection C as <-; apply norm_iff in H; congruence]].
  destruct (mem pt power_types) eqn:Ep; cbn [negb]; [|split; [discriminate|intros (_ & C & _); discriminate]].
  assert (N : exists m, Some n = Some m /\ (lower m = % "frac" \/ lower m = % "abs" \/ lower m = % "leahy" \/ lower m = % "none")) by (exists n; split; [reflexivity|now apply norm_iff]).
  destruct (is_none d1 || is_none d2)%bool eqn:E0.
  - destruct d1, d2; cbn; try discriminate E0; split; try discriminate; try (intros (_ & _ & C & D); discriminate); auto.
  - split.
    + destruct (match seg with Some _ => false | None => _ end); [discriminate|]. destruct (same_type d1 d2) eqn:Es; cbn [negb]; [|discriminate].
      destruct d1 as [| |a t e|l|l| |k], d2 as [| |b t' e'|l'|l'| |k']; try discriminate; try (cbn [is_none orb] in E0; discriminate).
      * destruct (match dt with Some v => _ | None => true end); discriminate.
      * destruct (np_isclose _ _ _ _); discriminate.
      * unfold check_lists. destruct l as [|[x|] m]; try discriminate. destruct l' as [|[y|] m']; discriminate.
      * unfold check_lists. destruct l as [|[x|] m]; try discriminate. destruct l' as [|[y|] m']; discriminate.
    + intros (_ & _ & -> & ->). discriminate E0.
Qed.
Lemma checks_errors norm pt d1 d2 gtis dt seg :
  (norm = None -> basic_checks norm pt d1 d2 gtis dt seg = Err TypeError) /\
  (norm <> None -> ~ good_norm norm \/ ~ good_type pt -> basic_checks norm pt d1 d2 gtis dt seg = Err ValueError) /\
  (good_norm norm -> good_type pt -> ((d1 = DNone /\ d2 <> DNone) \/ (d1 <> DNone /\ d2 = DNone)) -> basic_checks norm pt d1 d2 gtis dt seg = Err ValueError) /\
  (good_norm norm -> good_type pt -> d1 <> DNone -> d2 <> DNone -> (~ good_gtis gtis seg \/ same_type d1 d2 = false) -> basic_checks norm pt d1 d2 gtis dt seg = Err TypeError) /\
  (good_norm norm -> good_type pt -> good_gtis gtis seg -> forall a t e b t' e', d1 = DCurve a t e -> d2 = DCurve b t' e' -> ~ pair_ok dt d1 d2 ->
     basic_checks norm pt d1 d2 gtis dt seg = Err StingrayError).
Proof.
  assert (G : forall n, good_norm (Some n) -> mem (lower n) norms = true) by (intros n (m & E & H); injection E as <-; now apply norm_iff).
  split; [intros ->; reflexivity|]. split; [|split; [|split]].
  - intros N B. unfold basic_checks. destruct norm as [n|]; [|contradiction]. destruct (mem (lower n) norms) eqn:En; cbn [negb]; [|reflexivity].
    destruct (mem pt power_types) eqn:Ep; cbn [negb]; [|reflexivity]. apply norm_iff in En. apply type_iff in Ep. exfalso.
    destruct B as [B|B]; [apply B; exists n; now split|now apply B].
  - intros N T H. destruct norm as [n|]; [|destruct N as (m & C & _); discriminate]. unfold basic_checks. rewrite (G n N), (proj2 (type_iff pt) T). cbn [negb].
    destruct d1, d2; cbn; try reflexivity; exfalso; destruct H as [[A B]|[A B]]; congruence.
  - intros N T A B H. destruct norm as [n|]; [|destruct N as (m & C & _); discriminate]. unfold basic_checks. rewrite (G n N), (proj2 (type_iff pt) T). cbn [negb].
    assert (E : (is_none d1 || is_none d2)%bool = false) by (destruct d1, d2; try reflexivity; contradiction). rewrite E.
    destruct (match seg with Some _ => false | None => _ end) eqn:Eg; [reflexivity|]. apply gti_flag in Eg. destruct H as [H|H]; [contradiction|]. now rewrite H.
  - intros N T Hg a t e b t' e' -> -> P. destruct norm as [n|]; [|destruct N as (m & C & _); discriminate]. unfold basic_checks. rewrite (G n N), (proj2 (type_iff pt) T). cbn [negb is_none orb same_type].
    rewrite (proj2 (gti_flag gtis seg) Hg). unfold np_isclose. destruct (qle _ _) eqn:Ev; cbn [negb]; [|reflexivity]. apply qle_t in Ev. exfalso. apply P. now constructor.
Qed.
Lemma averaged_true norm pt d1 d2 gtis dt seg : averaged_checks norm pt d1 d2 gtis dt seg = Ok true <->
  good_norm norm /\ good_type pt /\ pair_ok dt d1 d2 /\ exists s, seg = Some (Some s).
Proof.
  unfold averaged_checks. split.
  - destruct (basic_checks norm pt d1 d2 gtis dt seg) as [[|]|e] eqn:E; cbn [bind negb]; try discriminate. apply checks_true in E. destruct E as (A & B & _ & D).
    destruct seg as [[s|]|]; try discriminate. intros _. split; [exact A|split; [exact B|split; [exact D|now exists s]]].
  - intros (A & B & D & s & ->). rewrite (proj2 (checks_true norm pt d1 d2 gtis dt (Some (Some s)))); [reflexivity|].
    split; [exact A|split; [exact B|split; [intros C; discriminate|exact D]]].
Qed.
Lemma averaged_segment norm pt d1 d2 gtis dt seg : basic_checks norm pt d1 d2 gtis dt seg = Ok true -> (forall s, seg <> Some (Some s)) ->
  averaged_checks norm pt d1 d2 gtis dt seg = Err ValueError.
Proof. intros E N. unfold averaged_checks. rewrite E. cbn [bind negb]. destruct seg as [[s|]|]; try reflexivity. now destruct (N s). Qed.
(* how good the check of the bin times is *)
Lemma drift_bound dt a t e b t' e' : 0 < a -> 0 < t -> pair_ok dt (DCurve a t e) (DCurve b t' e') -> drift a b t <= (1 # 100) * Qabs b + (1 # 100000000) * (t / a).
Proof.
  intros Ha Ht P. inversion P as [|a0 t0 e0 b0 t0' e0' H| | |]. subst. unfold drift.
  setoid_replace ((1 # 100) * Qabs b + (1 # 100000000) * (t / a)) with (((1 # 100000000) + (1 # 100) * a / t * Qabs b) * (t / a)) by (field; split; Lqa.lra).
  apply Qmult_le_compat_r; [exact H|]. apply Qlt_le_weak, Qlt_shift_div_l; Lqa.lra.
Qed.

(* dynamical *)
Lemma dyn_matrix d1 d2 seg st : dynamical_start d1 d2 seg st = Ok Matrix <-> d1 <> DNone /\ d2 <> DNone /\ exists s,
  seg = Some s /\ match d1 with DCurve dt tseg _ => s <= tseg /\ 2 * dt <= s | _ => exists t, st = Some t /\ 2 * t <= s end.
Proof.
  unfold dynamical_start. destruct seg as [s|]; [|destruct (is_none d1 && is_none d2)%bool; (split; [discriminate|intros (_ & _ & x & C & _); discriminate])].
  assert (L : forall t, (if qlt s (2 * t) then Err ValueError else Ok Matrix) = Ok Matrix <-> 2 * t <= s).
  { intros t. destruct (qlt s (2 * t)) eqn:E; [apply qlt_t in E; split; [discriminate|intros H; Lqa.lra]|apply qlt_f in E; split; [intros _; exact E|reflexivity]]. }
  assert (M : forall x, (exists t, x = Some t /\ 2 * t <= s) <-> match x with Some t => if qlt s (2 * t) then Err ValueError else Ok Matrix | None => Err TypeError end = Ok Matrix).
  { intros [t|]; [rewrite L; split; [intros (u & E & H); now injection E as ->|intros H; now exists t]|split; [intros (u & C & _); discriminate|discriminate]]. }
  assert (X : forall A : Prop, d2 <> DNone -> d1 <> DNone -> (A <-> (d1 <> DNone /\ d2 <> DNone /\ exists s', Some s = Some s' /\ match d1 with DCurve dt tseg _ => s' <= tseg /\ 2 * dt <= s' | _ => exists t, st = Some t /\ 2 * t <= s' end)) <->
     (A <-> match d1 with DCurve dt tseg _ => s <= tseg /\ 2 * dt <= s | _ => exists t, st = Some t /\ 2 * t <= s end)).
  { intros A H2 H1. assert (E : (d1 <> DNone /\ d2 <> DNone /\ exists s', Some s = Some s' /\ match d1 with DCurve dt tseg _ => s' <= tseg /\ 2 * dt <= s' | _ => exists t, st = Some t /\ 2 * t <= s' end) <->
      match d1 with DCurve dt tseg _ => s <= tseg /\ 2 * dt <= s | _ => exists t, st = Some t /\ 2 * t <= s end); [|rewrite E; reflexivity].
    split; [intros (_ & _ & s' & E & H); injection E as ->; exact H|intros H; split; [exact H1|split; [exact H2|now exists s]]]. }
  destruct (is_none d2) eqn:E2.
  { destruct d2; try discriminate. rewrite orb_true_r. split; [discriminate|intros (_ & C & _); now destruct C]. }
  destruct (is_none d1) eqn:E1.
  { destruct d1; try discriminate. split; [discriminate|intros (C & _); now destruct C]. }
  assert (H1 : d1 <> DNone) by (intros ->; discriminate). assert (H2 : d2 <> DNone) by (intros ->; discriminate). apply (X _ H2 H1). cbn [orb].
  destruct d1 as [| |a t e|l|l| |k]; try contradiction; try (cbn [bind]; symmetry; apply M).
  - destruct st as [t|]; cbn [bind]; [symmetry; apply (M (Some t))|]. split; [discriminate|intros (t & C & _); discriminate].
  - destruct (qlt t s) eqn:E; cbn [bind].
    + apply qlt_t in E. split; [discriminate|intros [C _]; Lqa.lra].
    + apply qlt_f in E. rewrite L. split; [intros H; now split|now intros [_ H]].
Qed.
Lemma dyn_empty d1 d2 seg st : dynamical_start d1 d2 seg st = Ok Empty <-> d1 = DNone /\ d2 = DNone /\ seg = None.
Proof.
  unfold dynamical_start. destruct seg as [s|].
  - split; [|intros (_ & _ & C); discriminate]. destruct (is_none d1 || is_none d2)%bool; [discriminate|].
    assert (M : forall x, match x with Some t => if qlt s (2 * t) then Err ValueError else Ok Matrix | None => Err TypeError end <> Ok Empty) by (intros [t|]; [destruct (qlt s (2 * t)); discriminate|discriminate]).
    destruct d1 as [| |a t e|l|l| |k]; cbn [bind]; try (intros H; now apply M in H).
    + destruct st as [t|]; cbn [bind]; [|discriminate]. intros H. now apply (M (Some t)) in H.
    + destruct (qlt t s); cbn [bind]; [discriminate|]. intros H. now apply (M (Some a)) in H.
  - destruct d1, d2; cbn; split; try discriminate; try (intros (A & B & _); discriminate); auto.
Qed.
Lemma dyn_errors d1 d2 seg st :
  ((seg = None /\ (d1 <> DNone \/ d2 <> DNone)) \/ (seg <> None /\ (d1 = DNone \/ d2 = DNone)) -> dynamical_start d1 d2 seg st = Err TypeError) /\
  (d1 = DEvents -> d2 <> DNone -> seg <> None -> st = None -> dynamical_start d1 d2 seg st = Err ValueError) /\
  (forall s a t e, d1 = DCurve a t e -> d2 <> DNone -> seg = Some s -> t < s \/ s < 2 * a -> dynamical_start d1 d2 seg st = Err ValueError) /\
  (forall s t, d1 = DEvents -> d2 <> DNone -> seg = Some s -> st = Some t -> s < 2 * t -> dynamical_start d1 d2 seg st = Err ValueError).
Proof.
  unfold dynamical_start. split; [|split; [|split]].
  - intros [[-> H]|[H1 H2]].
    + destruct d1, d2; cbn; try reflexivity. destruct H as [H|H]; now destruct H.
    + destruct seg as [s|]; [|contradiction]. destruct H2 as [-> | ->]; [reflexivity|]. now rewrite orb_true_r.
  - intros -> H2 H ->. destruct seg as [s|]; [|contradiction]. destruct d2; try contradiction; reflexivity.
  - intros s a t e -> H2 -> H. assert (E : is_none d2 = false) by (destruct d2; [contradiction|reflexivity ..]). cbn [is_none orb]. rewrite E.
    destruct (qlt t s) eqn:Et; cbn [bind]; [reflexivity|]. apply qlt_f in Et. destruct (qlt s (2 * a)) eqn:Es; [reflexivity|]. apply qlt_f in Es. exfalso. destruct H; Lqa.lra.
  - intros s t -> H2 -> -> H. assert (E : is_none d2 = false) by (destruct d2; [contradiction|reflexivity ..]). cbn [is_none orb bind]. rewrite E. now rewrite (proj2 (qlt_t _ _) H).
Qed.

(* generators *)
Lemma random_int z : (0 < z < 2 ^ 32)%Z -> get_random_state (SInt z) = Ok (Fresh z).
Proof.
  intros H. unfold get_random_state. rewrite (proj2 (Z.eqb_neq z 0)) by lia. cbn [negb].
  rewrite (proj2 (Z.leb_le 0 z)), (proj2 (Z.ltb_lt z (2 ^ 32))) by lia. reflexivity.
Qed.
Lemma random_out z : (z < 0 \/ 2 ^ 32 <= z)%Z -> get_random_state (SInt z) = Err ValueError.
Proof.
  intros H. unfold get_random_state. rewrite (proj2 (Z.eqb_neq z 0)) by lia. cbn [negb].
  destruct (Z.leb 0 z) eqn:A; [|reflexivity]. destruct (Z.ltb z (2 ^ 32)) eqn:B; [|reflexivity]. apply Z.leb_le in A. apply Z.ltb_lt in B. lia.
Qed.
Lemma random_state_kept k : get_random_state (SState k) = Ok (Given k).
Proof. reflexivity. Qed.
Lemma random_none : get_random_state SNone = Ok Global.
Proof. reflexivity. Qed.
Lemma random_other : get_random_state (SOther true) = Err ValueError.
Proof. reflexivity. Qed.
Lemma events_error norm pt gtis dt seg : good_norm norm -> good_type pt -> good_gtis gtis seg -> (forall v, dt = Some v -> v <= 1 # 1000000000000000) ->
  basic_checks norm pt DEvents DEvents gtis dt seg = Err ValueError.
Proof.
  intros (n & -> & H) T G D. apply norm_iff in H. unfold basic_checks. rewrite H, (proj2 (type_iff pt) T). cbn [negb is_none orb same_type].
  rewrite (proj2 (gti_flag gtis seg) G). destruct dt as [v|]; [|reflexivity]. now rewrite (proj2 (qle_t v _) (D v eq_refl)).
Qed.
Lemma lists_error norm pt l m gtis dt seg : good_norm norm -> good_type pt -> good_gtis gtis seg -> (l = [] \/ (exists x r, l = Some x :: r) /\ m = []) ->
  basic_checks norm pt (DList l) (DList m) gtis dt seg = Err IndexError /\ basic_checks norm pt (DTuple l) (DTuple m) gtis dt seg = Err IndexError.
Proof.
  intros (n & -> & H) T G D. apply norm_iff in H. unfold basic_checks. rewrite H, (proj2 (type_iff pt) T). cbn [negb is_none orb same_type].
  rewrite (proj2 (gti_flag gtis seg) G). destruct D as [->|[(x & r & ->) ->]]; split; reflexivity.
Qed.
Lemma lists_kind_error norm pt l m gtis dt seg : good_norm norm -> good_type pt -> good_gtis gtis seg ->
  ((exists r, l = None :: r) \/ (exists x r r', l = Some x :: r /\ m = None :: r')) ->
  basic_checks norm pt (DList l) (DList m) gtis dt seg = Err TypeError /\ basic_checks norm pt (DTuple l) (DTuple m) gtis dt seg = Err TypeError.
Proof.
  intros (n & -> & H) T G D. apply norm_iff in H. unfold basic_checks. rewrite H, (proj2 (type_iff pt) T). cbn [negb is_none orb same_type].
  rewrite (proj2 (gti_flag gtis seg) G). destruct D as [(r & ->)|(x & r & r' & -> & ->)]; split; reflexivity.
Qed.
