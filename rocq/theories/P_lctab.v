(* P_lctab.v: conversion of light curves: proofs. *)
From Coq Require Import String.
From Verif Require Import Np Lib M_gti M_seg M_lc M_lctab S_lctab.
From Coq Require Import ZArith QArith List Bool Arith Lia Lqa.
Import ListNotations.
Open Scope Q_scope.

Lemma look_put k v d : look k (put k v d) = Some v.
Proof. unfold look. induction d as [|[k' v'] d IH]; cbn [put]; [cbn; now rewrite String.eqb_refl|]. destruct (String.eqb k k') eqn:E; cbn [find fst]; rewrite ?String.eqb_refl, ?E; [reflexivity|exact IH]. Qed.
Lemma look_put_other k k' v d : k <> k' -> look k (put k' v d) = look k d.
Proof.
  intros N. assert (Ekk : String.eqb k k' = false) by now apply String.eqb_neq.
  unfold look. induction d as [|[k1 v1] d IH]; cbn [put]; [cbn; now rewrite Ekk|]. destruct (String.eqb k' k1) eqn:E; cbn [find fst].
  - apply String.eqb_eq in E. subst k1. now rewrite Ekk.
  - destruct (String.eqb k k1); [reflexivity|exact IH].
Qed.
Lemma look_opt_other k k' v d : k <> k' -> look k (put_opt k' v d) = look k d.
Proof. intros N. destruct v; [now apply look_put_other|reflexivity]. Qed.
Lemma look_opt k v d : look k d = None -> look k (put_opt k v d) = v.
Proof. intros N. destruct v; [apply look_put|exact N]. Qed.
Ltac looks := repeat first [rewrite look_put | rewrite look_put_other by discriminate | rewrite look_opt_other by discriminate].

Lemma round_eq lower mask_of f d : valid_dist lower (f_dist f) = true -> has_values (f_st f) (List.length (st_time (f_st f))) ->
  exists l, snd (from_table lower mask_of (to_table f) d) = Ok (
   let s := f_st f in
   let err := match st_counts_err s with Some e => Some e | None => st_rate_err s end in
   mkFull (match st_counts s with
           | Some c => mkSt (st_time s) (st_dt s) (mask_of (f_gti f) (st_time s)) false (String.eqb (lower (f_dist f)) "poisson") true (Some c) err None None None None None None
           | None => mkSt (st_time s) (st_dt s) (mask_of (f_gti f) (st_time s)) false (String.eqb (lower (f_dist f)) "poisson") false None None (st_rate s) err None None None None end)
     (f_gti f) (f_mjdref f) (f_instr f) (f_mission f) (f_dist f), l) /\ l = (if st_meancounts (f_st f) then ["meancounts"%string] else []).
Proof.
  intros V H. unfold from_table.
  assert (X : exists c k, match t_counts (to_table f) with Some c => Some (c, true) | None => option_map (fun r => (r, false)) (t_rate (to_table f)) end = Some (c, k) /\
    List.length c = List.length (st_time (f_st f)) /\ match st_counts (f_st f) with Some c' => c' = c /\ k = true | None => st_rate (f_st f) = Some c /\ k = false end).
  { unfold has_values in H. cbn [to_table t_counts t_rate]. destruct (st_counts (f_st f)) as [c|]; [exists c, true; now repeat split|].
    destruct (st_rate (f_st f)) as [r|]; [|contradiction]. exists r, false. now repeat split. }
  destruct X as (c & k & -> & L & K). cbn [snd t_time t_counts_err t_rate_err to_table].
  match goal with |- context [look "err_dist" ?m] => assert (E : look "err_dist" m = Some (VText (f_dist f))) by (cbn [t_meta to_table]; looks; reflexivity); rewrite E end.
  eexists. split.
  - cbn [t_meta to_table].
    match goal with |- context [as_gti (look "gti" ?m)] => set (M := m) end.
    assert (E1 : look "gti" M = option_map VGti (f_gti f)) by (unfold M; looks; apply look_opt; reflexivity).
    assert (E2 : look "mjdref" M = Some (VNum (f_mjdref f))) by (unfold M; looks; reflexivity).
    assert (E3 : look "dt" M = Some (VNum (st_dt (f_st f)))) by (unfold M; looks; reflexivity).
    assert (E4 : look "instr" M = option_map VText (f_instr f)) by (unfold M; looks; apply look_opt; looks; reflexivity).
    assert (E5 : look "mission" M = option_map VText (f_mission f)) by (unfold M; looks; apply look_opt; looks; reflexivity).
    assert (E6 : look "err_dist" M = Some (VText (f_dist f))) by (unfold M; looks; reflexivity).
    rewrite E1, E2, E3, E4, E5, E6.
    assert (G : as_gti (option_map VGti (f_gti f)) = Ok (f_gti f)) by (destruct (f_gti f); reflexivity). rewrite G. cbn [bind as_num].
    assert (T : forall o, as_text (option_map VText o) = Ok o) by (intros [|]; reflexivity). rewrite !T. cbn [bind as_text].
    unfold lc_init. rewrite L, Nat.eqb_refl, V. cbn [negb bind]. f_equal.
    destruct (st_counts (f_st f)) as [c'|]; [destruct K as [-> ->]|destruct K as [-> ->]]; reflexivity.
  - cbn [t_meta to_table]. destruct (f_gti f), (st_meancounts (f_st f)), (f_instr f), (f_mission f); reflexivity.
Qed.
Lemma round_frame lower mask_of f d : valid_dist lower (f_dist f) = true -> has_values (f_st f) (List.length (st_time (f_st f))) ->
  exists g, snd (from_table lower mask_of (to_table f) d) = Ok (g, if st_meancounts (f_st f) then ["meancounts"%string] else []) /\ same_frame f g /\
  snd (get_counts (f_st g)) = snd (get_counts (f_st f)) /\
  st_input_counts (f_st g) = (if st_counts (f_st f) then true else false).
Proof.
  intros V H. destruct (round_eq lower mask_of f d V H) as (l & E & ->). eexists. split; [exact E|]. split.
  - unfold same_frame. cbn [f_st f_gti f_mjdref f_instr f_mission f_dist]. destruct (st_counts (f_st f)); repeat split.
  - cbn [f_st]. unfold get_counts, has_values in *. destruct (st_counts (f_st f)) eqn:C; [split; reflexivity|]. cbn [st_counts st_rate st_dt st_input_counts].
    destruct (st_rate (f_st f)); [split; reflexivity|contradiction].
Qed.
Lemma round_rate lower mask_of f d g l : valid_dist lower (f_dist f) = true -> has_values (f_st f) (List.length (st_time (f_st f))) -> agree (f_st f) ->
  snd (from_table lower mask_of (to_table f) d) = Ok (g, l) -> qlist_eq (snd (get_countrate (f_st g))) (snd (get_countrate (f_st f))).
Proof.
  intros V H A E. destruct (round_eq lower mask_of f d V H) as (l' & E' & _). rewrite E' in E. injection E as <- <-. cbn [f_st].
  assert (Rf : forall x : list Q, Forall2 Qeq x x) by (induction x; constructor; [reflexivity|assumption]).
  unfold get_countrate, has_values in *. destruct (st_counts (f_st f)) as [c|] eqn:C; cbn [st_counts st_rate st_dt].
  - destruct (st_rate (f_st f)) as [r|] eqn:B; cbn [snd qlist_eq]; [|apply Rf]. specialize (A c r C B). clear -A. induction A as [|x y c r Hxy A IH]; cbn [map]; constructor; [now symmetry|exact IH].
  - destruct (st_rate (f_st f)) as [r|]; [|contradiction]. cbn [snd qlist_eq]. apply Rf.
Qed.
Lemma round_err lower mask_of perr f d g l : valid_dist lower (f_dist f) = true -> has_values (f_st f) (List.length (st_time (f_st f))) ->
  st_poisson (f_st f) = String.eqb (lower (f_dist f)) "poisson" -> errors_match (f_st f) ->
  snd (from_table lower mask_of (to_table f) d) = Ok (g, l) -> snd (get_counts_err perr (f_st g)) = snd (get_counts_err perr (f_st f)).
Proof.
  intros V H P A E. destruct (round_eq lower mask_of f d V H) as (l' & E' & _). rewrite E' in E. injection E as <- <-. cbn [f_st]. rewrite <- P.
  unfold get_counts_err, get_counts, has_values, errors_match in *.
  destruct (st_counts (f_st f)) as [c|] eqn:C; cbn [st_counts st_rate st_dt st_counts_err st_rate_err st_poisson].
  - destruct (st_counts_err (f_st f)) as [e|]; [reflexivity|]. destruct A as [A|A]; [congruence|]. rewrite A. cbn [snd]. reflexivity.
  - rewrite A. destruct (st_rate (f_st f)) as [r|]; [|contradiction]. destruct (st_rate_err (f_st f)) as [e|]; cbn [snd]; reflexivity.
Qed.
(* otherwise the errors of the other kind are taken over without conversion *)
Lemma round_err_other lower mask_of perr f d g l e : valid_dist lower (f_dist f) = true -> has_values (f_st f) (List.length (st_time (f_st f))) ->
  snd (from_table lower mask_of (to_table f) d) = Ok (g, l) ->
  (st_counts (f_st f) <> None -> st_counts_err (f_st f) = None -> st_rate_err (f_st f) = Some e ->
     snd (get_counts_err perr (f_st f)) = Ok (map (fun x => x * st_dt (f_st f)) e) /\ snd (get_counts_err perr (f_st g)) = Ok e) /\
  (st_counts (f_st f) = None -> st_counts_err (f_st f) = Some e ->
     snd (get_counts_err perr (f_st f)) = Ok e /\ snd (get_counts_err perr (f_st g)) = Ok (map (fun x => x * st_dt (f_st f)) e)).
Proof.
  intros V H E. destruct (round_eq lower mask_of f d V H) as (l' & E' & _). rewrite E' in E. injection E as <- <-. cbn [f_st]. unfold get_counts_err. split.
  - intros C E1 E2. rewrite E1, E2. destruct (st_counts (f_st f)); [|congruence]. split; reflexivity.
  - intros C E1. rewrite E1, C. cbn [st_counts_err st_rate_err st_dt snd]. split; reflexivity.
Qed.
(* a table without values *)
Lemma no_values lower mask_of t d : t_counts t = None -> t_rate t = None -> from_table lower mask_of t d = (t, Err ValueError).
Proof. intros A B. unfold from_table. now rewrite A, B. Qed.
(* the table that is read: its columns stay, its meta dictionary grows *)
Lemma read_table lower mask_of t d : let t' := fst (from_table lower mask_of t d) in
  t_time t' = t_time t /\ t_counts t' = t_counts t /\ t_counts_err t' = t_counts_err t /\ t_rate t' = t_rate t /\ t_rate_err t' = t_rate_err t /\
  t_bin_lo t' = t_bin_lo t /\ t_bin_hi t' = t_bin_hi t /\
  (forall k, ~ In k ["time"; "counts"; "err"; "input_counts"; "skip_checks"; "err_dist"]%string -> look k (t_meta t') = look k (t_meta t)) /\
  (forall v, look "err_dist" (t_meta t) = Some v -> look "err_dist" (t_meta t') = Some v).
Proof.
  cbn zeta. unfold from_table. destruct (match t_counts t with Some c => Some (c, true) | None => _ end) as [[c k]|]; [|now repeat split; auto].
  cbn [fst t_time t_counts t_counts_err t_rate t_rate_err t_bin_lo t_bin_hi t_meta]. repeat match goal with |- _ /\ _ => split end; try reflexivity.
  - intros k' N. assert (N' : k' <> "time"%string /\ k' <> "counts"%string /\ k' <> "err"%string /\ k' <> "input_counts"%string /\ k' <> "skip_checks"%string /\ k' <> "err_dist"%string)
      by (repeat split; intros ->; apply N; cbn; tauto).
    destruct N' as (N1 & N2 & N3 & N4 & N5 & N6). destruct (look "err_dist" _); repeat rewrite look_put_other by assumption; reflexivity.
  - intros v Hv. looks. rewrite Hv. looks. exact Hv.
Qed.
Lemma read_marks lower mask_of t d : t_counts t <> None \/ t_rate t <> None -> let t' := fst (from_table lower mask_of t d) in
  look "time" (t_meta t') = Some (VArr (t_time t)) /\ look "skip_checks" (t_meta t') = Some (VBool true) /\
  (look "err_dist" (t_meta t) = None -> look "err_dist" (t_meta t') = Some (VText d)).
Proof.
  intros H. cbn zeta. unfold from_table. destruct (match t_counts t with Some c => Some (c, true) | None => option_map (fun r => (r, false)) (t_rate t) end) as [[c k]|] eqn:E.
  2:{ exfalso. destruct (t_counts t); [discriminate|]. destruct (t_rate t); [discriminate|]. tauto. }
  cbn [fst t_meta]. split; [|split].
  - destruct (look "err_dist" _); looks; reflexivity.
  - destruct (look "err_dist" _); looks; reflexivity.
  - intros N. looks. rewrite N. looks. reflexivity.
Qed.
(* reading once more *)
Lemma put_same k v d : look k d = Some v -> put k v d = d.
Proof.
  unfold look. induction d as [|[k' v'] d IH]; [discriminate|]. cbn [find fst put]. destruct (String.eqb k k') eqn:E; [|intros H; now rewrite IH].
  cbn. intros H. injection H as ->. apply String.eqb_eq in E. now subst.
Qed.
Lemma read_again lower mask_of t d : from_table lower mask_of (fst (from_table lower mask_of t d)) d = from_table lower mask_of t d.
Proof.
  unfold from_table at 2 3. destruct (match t_counts t with Some c => Some (c, true) | None => option_map (fun r => (r, false)) (t_rate t) end) as [[c k]|] eqn:E.
  2:{ cbn [fst]. unfold from_table. now rewrite E. }
  cbn [fst]. unfold from_table. cbn [t_time t_counts t_counts_err t_rate t_rate_err t_bin_lo t_bin_hi t_meta]. rewrite E.
  match goal with |- _ = ?rhs => match rhs with context [match look "err_dist" ?m with Some _ => ?m | None => put "err_dist" (VText d) ?m end] => set (m0 := m) end end.
  set (m1 := match look "err_dist" m0 with Some _ => m0 | None => put "err_dist" (VText d) m0 end).
  assert (L : forall k' v', k' <> "err_dist"%string -> look k' m0 = Some v' -> put k' v' m1 = m1).
  { intros k' v' N Hk. apply put_same. unfold m1. destruct (look "err_dist" m0); [exact Hk|]. now rewrite look_put_other. }
  rewrite (L "time"%string) by (try discriminate; unfold m0; looks; reflexivity). rewrite (L "counts"%string) by (try discriminate; unfold m0; looks; reflexivity).
  rewrite (L "err"%string) by (try discriminate; unfold m0; looks; reflexivity). rewrite (L "input_counts"%string) by (try discriminate; unfold m0; looks; reflexivity).
  rewrite (L "skip_checks"%string) by (try discriminate; unfold m0; looks; reflexivity).
  assert (M : (match look "err_dist" m1 with Some _ => m1 | None => put "err_dist" (VText d) m1 end) = m1).
  { destruct (look "err_dist" m1) eqn:F; [reflexivity|]. exfalso. unfold m1 in F. destruct (look "err_dist" m0) eqn:F0; [congruence|]. rewrite look_put in F. discriminate. }
  rewrite M. reflexivity.
Qed.

(* lightkurve *)
Lemma lk_out perr f c e : snd (get_counts (f_st f)) = Some c -> snd (get_counts_err perr (fst (get_counts (f_st f)))) = Ok e ->
  to_lightkurve perr f = Ok (mkLk (map (fun t => t / 86400 + f_mjdref f) (st_time (f_st f))) c e).
Proof. intros A B. unfold to_lightkurve. cbn zeta. now rewrite A, B. Qed.
Lemma lk_in lower mask_of k g : from_lightkurve lower mask_of k = Ok g ->
  List.length (st_time (f_st g)) = List.length (k_mjd k) /\
  (forall i m, nth_error (k_mjd k) i = Some m -> exists t, nth_error (st_time (f_st g)) i = Some t /\ t / 86400 + f_mjdref g == m) /\
  snd (get_countrate (f_st g)) = Some (k_flux k) /\ snd (get_counts (f_st g)) = Some (map (fun x => x * st_dt (f_st g)) (k_flux k)) /\
  snd (get_countrate_err (f_st g)) = k_flux_err k /\ f_gti g = None /\
  (f_mjdref g = 0 \/ get (k_mjd k) 0 = Ok (f_mjdref g)).
Proof.
  unfold from_lightkurve. destruct (forallb _ _) eqn:F.
  - destruct (get (k_mjd k) 0) as [ref|] eqn:G; [|discriminate]. cbn [bind]. unfold lc_init. destruct (negb _); [discriminate|]. destruct (negb _); [discriminate|].
    intros E. injection E as <-. cbn [f_st st_time f_mjdref st_dt f_gti]. rewrite map_length. split; [reflexivity|]. split; [|repeat split; now right].
    intros i m H. exists ((m - ref) * 86400). split; [now apply (map_nth_error (fun m => (m - ref) * 86400))|field].
  - cbn [bind]. unfold lc_init. destruct (negb _); [discriminate|]. destruct (negb _); [discriminate|].
    intros E. injection E as <-. cbn [f_st st_time f_mjdref st_dt f_gti]. rewrite map_length. split; [reflexivity|]. split; [|repeat split; now left].
    intros i m H. exists ((m - 0) * 86400). split; [now apply (map_nth_error (fun m => (m - 0) * 86400))|field].
Qed.
Lemma lk_round lower mask_of perr f k g c : to_lightkurve perr f = Ok k -> from_lightkurve lower mask_of k = Ok g -> snd (get_counts (f_st f)) = Some c ->
  (forall i t, nth_error (st_time (f_st f)) i = Some t -> exists t', nth_error (st_time (f_st g)) i = Some t' /\ t' / 86400 + f_mjdref g == t / 86400 + f_mjdref f) /\
  snd (get_countrate (f_st g)) = Some c.
Proof.
  intros E1 E2 C. unfold to_lightkurve in E1. cbn zeta in E1. rewrite C in E1. destruct (snd (get_counts_err perr (fst (get_counts (f_st f))))) as [e|]; [|discriminate]. cbn [bind] in E1. injection E1 as <-.
  destruct (lk_in _ _ _ _ E2) as (_ & T & R & _). split; [|exact R]. intros i t H. apply T. cbn [k_mjd].
  now apply (map_nth_error (fun t => t / 86400 + f_mjdref f)).
Qed.
(* the constructor *)
Lemma init_errors lower mask_of time counts err ic gti dist ref dt mission instr :
  lc_init lower mask_of time counts err ic gti dist ref dt mission instr = Err StingrayError <->
  List.length time <> List.length counts \/ (lower dist <> "poisson"%string /\ lower dist <> "gauss"%string).
Proof.
  unfold lc_init, valid_dist. destruct (Nat.eqb_spec (List.length time) (List.length counts)) as [E|E]; cbn [negb]; [|split; [now left|reflexivity]].
  destruct (String.eqb_spec (lower dist) "poisson") as [P|P]; [split; [discriminate|intros [H|[H _]]; congruence]|].
  destruct (String.eqb_spec (lower dist) "gauss") as [G|G]; [split; [discriminate|intros [H|[_ H]]; congruence]|]. split; [now right|reflexivity].
Qed.
Lemma init_ok lower mask_of time counts err ic gti dist ref dt mission instr g :
  lc_init lower mask_of time counts err ic gti dist ref dt mission instr = Ok g ->
  st_time (f_st g) = time /\ f_gti g = gti /\ st_mask (f_st g) = mask_of gti time /\ f_mjdref g = ref /\ f_mission g = mission /\ f_instr g = instr /\ f_dist g = dist /\
  (forall d, dt = Some d -> st_dt (f_st g) = d) /\ (forall t, dt = None -> time = [t] -> st_dt (f_st g) = 1) /\
  (forall d, dt = None -> median (diffs time) = Some d -> st_dt (f_st g) = d) /\
  (ic = true -> st_counts (f_st g) = Some counts /\ st_counts_err (f_st g) = err /\ st_rate (f_st g) = None /\ st_rate_err (f_st g) = None) /\
  (ic = false -> st_rate (f_st g) = Some counts /\ st_rate_err (f_st g) = err /\ st_counts (f_st g) = None /\ st_counts_err (f_st g) = None).
Proof.
  unfold lc_init. destruct (negb _); [discriminate|]. destruct (negb _); [discriminate|]. intros E. injection E as <-.
  cbn [f_st f_gti f_mjdref f_mission f_instr f_dist st_time st_mask st_dt st_counts st_counts_err st_rate st_rate_err].
  repeat match goal with |- _ /\ _ => split end; try reflexivity; intros.
  - now rewrite H.
  - rewrite H, H0. reflexivity.
  - now rewrite H, H0.
  - rewrite H. now repeat split.
  - rewrite H. now repeat split.
Qed.
Lemma read_values lower mask_of t d c : t_counts t = Some c \/ (t_counts t = None /\ t_rate t = Some c) ->
  look "counts" (t_meta (fst (from_table lower mask_of t d))) = Some (VArr c) /\
  look "input_counts" (t_meta (fst (from_table lower mask_of t d))) = Some (VBool (if t_counts t then true else false)).
Proof.
  intros H. unfold from_table. destruct H as [H|[H1 H2]]; [rewrite H|rewrite H1, H2]; cbn [option_map fst t_meta]; destruct (look "err_dist" _); split; looks; reflexivity.
Qed.
Lemma read_default lower mask_of t d g l : look "err_dist" (t_meta t) = None -> snd (from_table lower mask_of t d) = Ok (g, l) -> f_dist g = d.
Proof.
  intros N. unfold from_table. destruct (match t_counts t with Some c => Some (c, true) | None => _ end) as [[c k]|]; [|discriminate]. cbn [snd].
  match goal with |- context [look "err_dist" ?m] => assert (E : look "err_dist" m = None) by (looks; exact N); rewrite E end.
  destruct (as_gti _) as [x1|]; [|discriminate]. cbn [bind]. destruct (as_num _) as [x2|]; [|discriminate]. cbn [bind]. destruct (as_num _) as [x3|]; [|discriminate]. cbn [bind].
  destruct (as_text _) as [x4|]; [|discriminate]. cbn [bind]. destruct (as_text _) as [x5|]; [|discriminate]. cbn [bind]. rewrite look_put. cbn [as_text bind].
  destruct (lc_init _ _ _ _ _ _ _ _ _ _ _ _) as [g'|] eqn:G; [|discriminate]. cbn [bind]. intros E'. injection E' as <- <-.
  destruct (init_ok _ _ _ _ _ _ _ _ _ _ _ _ _ G) as (_ & _ & _ & _ & _ & _ & D & _). exact D.
Qed.
Lemma lk_empty perr f : st_counts (f_st f) = None -> st_rate (f_st f) = None -> to_lightkurve perr f = Err TypeError.
Proof. intros A B. unfold to_lightkurve, get_counts. now rewrite A, B. Qed.
Lemma lk_reference lower mask_of k g m : from_lightkurve lower mask_of k = Ok g -> nth_error (k_mjd k) 0 = Some m ->
  ((forall x, In x (k_mjd k) -> 10000 < x) -> f_mjdref g = m) /\ ((exists x, In x (k_mjd k) /\ x <= 10000) -> f_mjdref g = 0).
Proof.
  intros H M. unfold from_lightkurve in H. split.
  - intros A. assert (F : forallb (fun m => qlt 10000 m) (k_mjd k) = true) by (apply forallb_forall; intros x Hx; apply qlt_t; now apply A).
    rewrite F in H. unfold get in H. rewrite M in H. cbn [bind] in H. apply init_ok in H. tauto.
  - intros (x & Hx & Lx). destruct (forallb (fun m => qlt 10000 m) (k_mjd k)) eqn:F.
    + rewrite forallb_forall in F. specialize (F x Hx). apply qlt_t in F. exfalso. Lqa.lra.
    + cbn [bind] in H. apply init_ok in H. tauto.
Qed.
