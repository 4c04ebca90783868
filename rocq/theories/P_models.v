(* P_models.v: proofs about the shapes of simulated spectra and about the channels of a simulator. *)
From Coq Require Import String.
From Verif Require Import Np M_exvar P_exvar M_models S_models.
From Coq Require Import Reals List Bool Arith Lia Lra.
Import ListNotations.
Open Scope R_scope.

Lemma npow_pos x y : 0 < x -> npow x y = Some (Rpower x y).
Proof. intro H. unfold npow. destruct (Rlt_dec 0 x); [reflexivity|contradiction]. Qed.
Lemma npow_zero y : 0 < y -> npow 0 y = Some 0.
Proof. intro H. unfold npow. destruct (Rlt_dec 0 0); [lra|]. destruct (Req_EM_T 0 0); [|lra]. destruct (Rlt_dec 0 y); [reflexivity|contradiction]. Qed.
Lemma rpower_pos x y : 0 < Rpower x y.
Proof. apply exp_pos. Qed.
Lemma rpower_mono x y n : 0 < n -> 0 < x -> x < y -> Rpower x n < Rpower y n.
Proof. intros. apply Rlt_Rpower_l; lra. Qed.
(* ---------- the Lorentzian ---------- *)
Lemma same_model x x0 w v n : generalized_lorentzian x [x0; w; v; n] = lorentz1d x x0 w v n.
Proof. reflexivity. Qed.
Lemma lorentz_error x x0 w v n : n <= 0 -> lorentz1d x x0 w v n = Err AssertionError.
Proof. intro H. unfold lorentz1d. destruct (Rlt_dec 0 n); [lra|reflexivity]. Qed.
Lemma lorentz_value x x0 w v n : 0 < n -> 0 < w -> x <> x0 -> lorentz1d x x0 w v n = Ok (Some (lorentz v (w / 2) n (Rabs (x - x0)))).
Proof.
  intros N W X. unfold lorentz1d, lorentz. destruct (Rlt_dec 0 n); [|contradiction]. rewrite !npow_pos by (try lra; apply Rabs_pos_lt; lra).
  pose proof (rpower_pos (w / 2) n). pose proof (rpower_pos (Rabs (x - x0)) n). rewrite fdiv_some by lra. rewrite Rmult_1_r. reflexivity.
Qed.
Lemma lorentz_peak x0 w v n : 0 < n -> 0 < w -> lorentz1d x0 x0 w v n = Ok (Some v).
Proof.
  intros N W. unfold lorentz1d. destruct (Rlt_dec 0 n); [|contradiction]. replace (x0 - x0) with 0 by ring. rewrite Rabs_R0, npow_zero, npow_pos by lra.
  pose proof (rpower_pos (w / 2) n). rewrite fdiv_some by lra. do 2 f_equal. field. lra.
Qed.
Lemma lorentz_half x x0 w v n : 0 < n -> 0 < w -> Rabs (x - x0) = w / 2 -> lorentz1d x x0 w v n = Ok (Some (v / 2)).
Proof.
  intros N W H. rewrite lorentz_value; [|lra|lra|intros ->; replace (x0 - x0) with 0 in H by ring; rewrite Rabs_R0 in H; lra]. rewrite H. unfold lorentz.
  pose proof (rpower_pos (w / 2) n). do 2 f_equal. field. lra.
Qed.
Lemma lorentz_symmetric u x0 w v n : lorentz1d (x0 + u) x0 w v n = lorentz1d (x0 - u) x0 w v n.
Proof. unfold lorentz1d. replace (Rabs (x0 + u - x0)) with (Rabs (x0 - u - x0)); [reflexivity|]. rewrite <- Rabs_Ropp. f_equal. ring. Qed.
Lemma lorentz_falls x y x0 w v n : 0 < n -> 0 < w -> 0 < v -> Rabs (x - x0) < Rabs (y - x0) ->
  exists a b, lorentz1d x x0 w v n = Ok (Some a) /\ lorentz1d y x0 w v n = Ok (Some b) /\ 0 < b /\ b < a /\ a <= v.
Proof.
  intros N W V H. assert (Y : y <> x0) by (intros ->; replace (x0 - x0) with 0 in H by ring; rewrite Rabs_R0 in H; pose proof (Rabs_pos (x - x0)); lra).
  pose proof (rpower_pos (w / 2) n) as P. pose proof (rpower_pos (Rabs (y - x0)) n) as Py.
  assert (B : 0 < lorentz v (w / 2) n (Rabs (y - x0)) < v).
  { unfold lorentz. split; [apply Rdiv_lt_0_compat; [apply Rmult_lt_0_compat|]; lra|]. apply (Rmult_lt_reg_r (Rpower (Rabs (y - x0)) n + Rpower (w / 2) n)); [lra|].
    unfold Rdiv. rewrite Rmult_assoc, Rinv_l by lra. assert (0 < v * Rpower (Rabs (y - x0)) n) by (apply Rmult_lt_0_compat; lra). lra. }
  destruct (Req_dec x x0) as [-> |X].
  - do 2 eexists. split; [apply lorentz_peak; assumption|]. split; [apply lorentz_value; assumption|]. lra.
  - do 2 eexists. split; [apply lorentz_value; assumption|]. split; [apply lorentz_value; assumption|]. split; [lra|]. pose proof (rpower_pos (Rabs (x - x0)) n) as Px.
    assert (M : Rpower (Rabs (x - x0)) n < Rpower (Rabs (y - x0)) n) by (apply rpower_mono; [assumption|apply Rabs_pos_lt; lra|assumption]).
    unfold lorentz. assert (0 < v * Rpower (w / 2) n) by (apply Rmult_lt_0_compat; lra). split.
    + unfold Rdiv. apply Rmult_lt_compat_l; [lra|]. apply Rinv_lt_contravar; [apply Rmult_lt_0_compat|]; lra.
    + apply (Rmult_le_reg_r (Rpower (Rabs (x - x0)) n + Rpower (w / 2) n)); [lra|]. unfold Rdiv. rewrite (Rmult_assoc (v * _)), Rinv_l by lra.
      assert (0 < v * Rpower (Rabs (x - x0)) n) by (apply Rmult_lt_0_compat; lra). lra.
Qed.
(* the wings follow the power law v (h / u)^n, from below and within a factor of two *)
Lemma lorentz_wings x x0 w v n a : 0 < n -> 0 < w -> 0 < v -> w / 2 <= Rabs (x - x0) -> lorentz1d x x0 w v n = Ok (Some a) ->
  v / 2 * Rpower (w / 2 / Rabs (x - x0)) n <= a < v * Rpower (w / 2 / Rabs (x - x0)) n.
Proof.
  intros N W V H E. assert (U : 0 < Rabs (x - x0)) by lra. assert (X : x <> x0) by (intros ->; replace (x0 - x0) with 0 in U by ring; rewrite Rabs_R0 in U; lra).
  rewrite lorentz_value in E by assumption. assert (Ea : lorentz v (w / 2) n (Rabs (x - x0)) = a) by (injection E as E0; exact E0). subst a. unfold lorentz.
  set (u := Rabs (x - x0)) in *. assert (Q : Rpower (w / 2 / u) n = Rpower (w / 2) n / Rpower u n).
  { unfold Rpower. unfold Rdiv at 1. rewrite ln_mult by (try apply Rinv_0_lt_compat; lra). rewrite ln_Rinv by lra. rewrite Rmult_plus_distr_l, exp_plus, Ropp_mult_distr_r_reverse, exp_Ropp. reflexivity. }
  rewrite Q. pose proof (rpower_pos (w / 2) n) as P. pose proof (rpower_pos u n) as Pu.
  assert (M : Rpower (w / 2) n <= Rpower u n) by (destruct H as [H| H]; [left; apply rpower_mono; lra|rewrite H; apply Rle_refl]).
  set (p := Rpower (w / 2) n) in *. set (q := Rpower u n) in *. assert (Vp : 0 < v * p) by (apply Rmult_lt_0_compat; lra). split.
  - replace (v / 2 * (p / q)) with (v * p * / (2 * q)) by (field; lra). unfold Rdiv. apply Rmult_le_compat_l; [lra|]. apply Rinv_le_contravar; lra.
  - replace (v * (p / q)) with (v * p * / q) by (field; lra). unfold Rdiv. apply Rmult_lt_compat_l; [lra|]. apply Rinv_lt_contravar; [apply Rmult_lt_0_compat|]; lra.
Qed.
Lemma lorentz_no_width x x0 v n : 0 < n -> lorentz1d x x0 0 v n = Ok (if Req_EM_T x x0 then None else Some 0).
Proof.
  intro N. unfold lorentz1d. destruct (Rlt_dec 0 n); [|contradiction]. replace (0 / 2) with 0 by field. rewrite npow_zero by assumption. destruct (Req_EM_T x x0) as [-> |X].
  - replace (x0 - x0) with 0 by ring. rewrite Rabs_R0, npow_zero by assumption. replace (0 + 0) with 0 by ring; rewrite fdiv_none. reflexivity.
  - rewrite npow_pos by (apply Rabs_pos_lt; lra). pose proof (rpower_pos (Rabs (x - x0)) n). rewrite fdiv_some by lra. do 2 f_equal. field. lra.
Qed.

(* ---------- the broken power law ---------- *)
Lemma same_broken x a b c d : smoothbknpo x [a; b; c; d] = Ok (smooth_broken x a b c d).
Proof. reflexivity. Qed.
Lemma square_pos u : 0 < 1 + u ^ 2.
Proof. pose proof (pow2_ge_0 u). lra. Qed.
Lemma rpower_opp x y : Rpower x (- y) = / Rpower x y.
Proof. apply Rpower_Ropp. Qed.
Lemma broken_value x norm gl gh b : 0 < x -> b <> 0 -> smooth_broken x norm gl gh b = Some (norm * Rpower x (- gl) * Rpower (1 + (x / b) ^ 2) ((gl - gh) / 2)).
Proof.
  intros X B. unfold smooth_broken. rewrite npow_pos, fdiv_some by assumption. rewrite npow_pos by apply square_pos.
  pose proof (rpower_pos (1 + (x / b) ^ 2) (- (gl - gh) / 2)). rewrite fdiv_some by lra. f_equal. unfold Rdiv at 1. f_equal.
  replace (- (gl - gh) / 2) with (- ((gl - gh) / 2)) by field. rewrite rpower_opp. apply Rinv_inv.
Qed.
(* the same curve seen from infinity *)
Lemma broken_mirror x norm gl gh b : 0 < x -> 0 < b ->
  smooth_broken x norm gl gh b = Some (norm * Rpower b (gh - gl) * Rpower x (- gh) * Rpower (1 + (b / x) ^ 2) ((gl - gh) / 2)).
Proof.
  intros X B. rewrite broken_value by lra. f_equal.
  replace (1 + (x / b) ^ 2) with ((x / b) ^ 2 * (1 + (b / x) ^ 2)) by (field; lra).
  assert (U : 0 < x / b) by (apply Rdiv_lt_0_compat; assumption).
  rewrite <- Rpower_mult_distr by (try apply square_pos; apply pow_lt; exact U).
  replace ((x / b) ^ 2) with (Rpower (x / b) 2) by (change 2 with (INR 2) at 1; rewrite Rpower_pow; [reflexivity|exact U]). rewrite Rpower_mult.
  replace (2 * ((gl - gh) / 2)) with (gl - gh) by field.
  assert (D : Rpower (x / b) (gl - gh) = Rpower x (gl - gh) * Rpower b (gh - gl)).
  { unfold Rdiv. rewrite <- Rpower_mult_distr by (try apply Rinv_0_lt_compat; assumption). f_equal. unfold Rpower. rewrite ln_Rinv by assumption. f_equal. ring. }
  rewrite D. replace (- gh) with (- gl + (gl - gh)) by ring. rewrite Rpower_plus. ring.
Qed.
Lemma broken_one x norm g b : 0 < x -> b <> 0 -> smooth_broken x norm g g b = Some (norm * Rpower x (- g)).
Proof. intros X B. rewrite broken_value by assumption. f_equal. replace ((g - g) / 2) with 0 by field. rewrite Rpower_O by apply square_pos. ring. Qed.
Lemma broken_break norm gl gh b : 0 < b -> smooth_broken b norm gl gh b = Some (norm * Rpower b (- gl) * Rpower 2 ((gl - gh) / 2)).
Proof. intro B. rewrite broken_value by lra. do 3 f_equal. field. lra. Qed.
Lemma near_one k e : 0 < e -> exists d, 0 < d /\ forall u, 0 < u < d -> Rabs (Rpower (1 + u ^ 2) k - 1) < e.
Proof.
  intro E. assert (D : derivable_pt_lim (fun u => Rpower (1 + u ^ 2) k) 0 (k * Rpower (1 + 0 ^ 2) (k - 1) * (0 + 2 * 0 ^ 1))).
  { apply (derivable_pt_lim_comp (fun u => 1 + u ^ 2) (fun y => Rpower y k)).
    - apply derivable_pt_lim_plus; [apply derivable_pt_lim_const|]. apply (derivable_pt_lim_pow 0 2).
    - apply derivable_pt_lim_power. apply square_pos. }
  assert (C : continuity_pt (fun u => Rpower (1 + u ^ 2) k) 0) by (apply derivable_continuous_pt; eexists; exact D).
  destruct (C e E) as (d & Dp & H). exists d. split; [exact Dp|]. intros u U. specialize (H u). cbn beta in H.
  assert (O : Rpower (1 + 0 ^ 2) k = 1) by (replace (1 + 0 ^ 2) with 1 by ring; unfold Rpower; rewrite ln_1, Rmult_0_r; apply exp_0).
  unfold dist in H. cbn in H. unfold R_dist in H. cbn [pow] in O. rewrite O in H. apply H. split; [split; [exact I|lra]|]. rewrite Rminus_0_r, Rabs_pos_eq; lra.
Qed.
Lemma broken_low norm gl gh b : 0 < norm -> 0 < b ->
  tends_at_zero (fun x => match smooth_broken x norm gl gh b with Some f => f / (norm * Rpower x (- gl)) | None => 0 end) 1.
Proof.
  intros N B e E. destruct (near_one ((gl - gh) / 2) e E) as (d & D & H). exists (d * b). split; [apply Rmult_lt_0_compat; assumption|]. intros x X. rewrite broken_value by lra.
  pose proof (rpower_pos x (- gl)).
  replace (norm * Rpower x (- gl) * Rpower (1 + (x / b) ^ 2) ((gl - gh) / 2) / (norm * Rpower x (- gl))) with (Rpower (1 + (x / b) ^ 2) ((gl - gh) / 2)) by (field; lra).
  apply H. split; [apply Rdiv_lt_0_compat; lra|]. apply (Rmult_lt_reg_r b); [lra|]. unfold Rdiv. rewrite Rmult_assoc, Rinv_l by lra. lra.
Qed.
Lemma broken_high norm gl gh b : 0 < norm -> 0 < b ->
  tends_at_infinity (fun x => match smooth_broken x norm gl gh b with Some f => f / (norm * Rpower b (gh - gl) * Rpower x (- gh)) | None => 0 end) 1.
Proof.
  intros N B e E. destruct (near_one ((gl - gh) / 2) e E) as (d & D & H). exists (b / d). split; [apply Rdiv_lt_0_compat; assumption|]. intros x X.
  assert (X0 : 0 < x) by (apply Rlt_trans with (b / d); [apply Rdiv_lt_0_compat; assumption|exact X]). rewrite broken_mirror by assumption.
  pose proof (rpower_pos x (- gh)). pose proof (rpower_pos b (gh - gl)).
  match goal with |- Rabs (?f - 1) < e => replace f with (Rpower (1 + (b / x) ^ 2) ((gl - gh) / 2)) by (field; repeat split; lra) end.
  apply H. split; [apply Rdiv_lt_0_compat; lra|]. apply (Rmult_lt_reg_r x); [lra|]. unfold Rdiv. rewrite Rmult_assoc, Rinv_l by lra.
  apply (Rmult_lt_compat_r d) in X; [|exact D]. unfold Rdiv in X. rewrite Rmult_assoc, Rinv_l in X by lra. lra.
Qed.
(* the local slope runs from gl to gh *)
Lemma broken_slope x norm gl gh b : 0 < x -> 0 < b -> exists f, (forall y, 0 < y -> smooth_broken y norm gl gh b = Some (f y)) /\
  derivable_pt_lim f x (- ((gl + gh * (x / b) ^ 2) / (1 + (x / b) ^ 2)) * f x / x).
Proof.
  intros X B. exists (fun y => norm * Rpower y (- gl) * Rpower (1 + (y / b) ^ 2) ((gl - gh) / 2)). split; [intros y Y; apply broken_value; lra|].
  set (k := (gl - gh) / 2).
  assert (D1 : derivable_pt_lim (fun y => norm * Rpower y (- gl)) x (norm * (- gl * Rpower x (- gl - 1)))) by (apply derivable_pt_lim_scal, derivable_pt_lim_power, X).
  assert (D2 : derivable_pt_lim (fun y => Rpower (1 + (y / b) ^ 2) k) x (k * Rpower (1 + (x / b) ^ 2) (k - 1) * (0 + INR 2 * (x / b) ^ 1 * / b))).
  { apply (derivable_pt_lim_comp (fun y => 1 + (y / b) ^ 2) (fun z => Rpower z k)); [|apply derivable_pt_lim_power, square_pos].
    apply derivable_pt_lim_plus; [apply derivable_pt_lim_const|]. apply (derivable_pt_lim_comp (fun y => y / b) (fun z => z ^ 2)); [|apply (derivable_pt_lim_pow (x / b) 2)].
    replace (/ b) with (1 * / b + x * 0) by ring. apply (derivable_pt_lim_mult (fun y => y) (fun _ => / b)); [apply derivable_pt_lim_id|apply derivable_pt_lim_const]. }
  pose proof (derivable_pt_lim_mult _ _ x _ _ D1 D2) as D. cbn beta in D.
  assert (E1 : Rpower x (- gl - 1) = Rpower x (- gl) / x) by (unfold Rminus; rewrite Rpower_plus, (rpower_opp _ 1), Rpower_1 by exact X; reflexivity).
  assert (E2 : Rpower (1 + (x / b) ^ 2) (k - 1) = Rpower (1 + (x / b) ^ 2) k / (1 + (x / b) ^ 2)) by (unfold Rminus; rewrite Rpower_plus, (rpower_opp _ 1), Rpower_1 by apply square_pos; reflexivity).
  rewrite E1, E2 in D. change (INR 2) with 2 in D. pose proof (square_pos (x / b)) as Sq.
  match type of D with derivable_pt_lim _ _ ?v => replace (- ((gl + gh * (x / b) ^ 2) / (1 + (x / b) ^ 2)) * (norm * Rpower x (- gl) * Rpower (1 + (x / b) ^ 2) k) / x) with v end; [exact D|].
  unfold k in *. set (p := Rpower x (- gl)) in *. set (q := Rpower (1 + (x / b) ^ 2) ((gl - gh) / 2)) in *. clearbody p q. field; repeat split; try lra; pose proof (pow2_ge_0 x); assert (0 < b ^ 2) by (apply pow_lt; exact B); nra.
Qed.
Lemma slope_between gl gh u : Rmin gl gh <= (gl + gh * u ^ 2) / (1 + u ^ 2) <= Rmax gl gh.
Proof.
  pose proof (square_pos u) as Sq. pose proof (pow2_ge_0 u). split.
  - apply (Rmult_le_reg_r (1 + u ^ 2)); [exact Sq|]. unfold Rdiv. rewrite Rmult_assoc, Rinv_l by lra. pose proof (Rmin_l gl gh). pose proof (Rmin_r gl gh). nra.
  - apply (Rmult_le_reg_r (1 + u ^ 2)); [exact Sq|]. unfold Rdiv. rewrite Rmult_assoc, Rinv_l by lra. pose proof (Rmax_l gl gh). pose proof (Rmax_r gl gh). nra.
Qed.
Lemma broken_no_break x norm gl gh : smooth_broken x norm gl gh 0 = None.
Proof. unfold smooth_broken. destruct (npow x (- gl)); [|reflexivity]. rewrite fdiv_none. reflexivity. Qed.
Lemma broken_zero norm gl gh b : 0 < gl -> smooth_broken 0 norm gl gh b = None.
Proof.
  intro G. unfold smooth_broken, npow. destruct (Rlt_dec 0 0); [lra|]. destruct (Req_EM_T 0 0); [|lra]. destruct (Rlt_dec 0 (- gl)); [lra|].
  destruct (Req_EM_T (- gl) 0); [lra|]. reflexivity.
Qed.

(* ---------- channels ---------- *)
Section Channels.
Context {L : Type}.
Notation chans := (list (string * L)).
Lemma named_iff n (c : string * L) : named n c = true <-> fst c = n.
Proof. apply String.eqb_eq. Qed.
Lemma exists_named n (cs : chans) : existsb (named n) cs = true <-> In n (map fst cs).
Proof. rewrite existsb_exists, in_map_iff. split; intros (c & H & K); exists c; [apply named_iff in K|apply named_iff in H]; split; assumption. Qed.
Lemma channel_new (cs : chans) n l : ~ In n (map fst cs) -> simulate_channel cs n (Ok l) = Ok (cs ++ [(n, l)]).
Proof. intro H. unfold simulate_channel. destruct (existsb (named n) cs) eqn:E; [apply exists_named in E; contradiction|reflexivity]. Qed.
Lemma channel_taken (cs : chans) n lc : In n (map fst cs) -> simulate_channel cs n lc = Err KeyError.
Proof. intro H. apply exists_named in H. unfold simulate_channel. rewrite H. reflexivity. Qed.
Lemma channel_distinct (cs cs' : chans) n lc : NoDup (map fst cs) -> simulate_channel cs n lc = Ok cs' -> NoDup (map fst cs').
Proof.
  intros N H. unfold simulate_channel in H. destruct (existsb (named n) cs) eqn:E; [discriminate|]. destruct lc as [l|x]; [|discriminate]. cbn in H. injection H as <-.
  rewrite map_app. cbn.
  assert (X : ~ In n (map fst cs)) by (intro I; apply exists_named in I; congruence). clear E.
  induction (map fst cs) as [|a t IH]; [constructor; [intros []|constructor]|]. inversion N as [|? ? A B]; subst. cbn. constructor; [|apply IH; [exact B|intro I; apply X; right; exact I]].
  rewrite in_app_iff. intros [I|[I|[]]]; [contradiction|]. apply X. left. symmetry. exact I.
Qed.
Lemma filter_one (cs : chans) n l : NoDup (map fst cs) -> In (n, l) cs -> filter (named n) cs = [(n, l)].
Proof.
  induction cs as [|c cs IH]; intros N H; [destruct H|]. cbn in N |- *. inversion N as [|? ? A B]; subst. destruct H as [-> |H].
  - unfold named at 1. cbn. rewrite String.eqb_refl. f_equal. destruct (filter (named n) cs) as [|d t] eqn:E; [reflexivity|].
    assert (D : In d (filter (named n) cs)) by (rewrite E; left; reflexivity). apply filter_In in D. destruct D as (D & K). apply named_iff in K. cbn in A. rewrite <- K in A. exfalso. apply A, in_map, D.
  - destruct (named n c) eqn:E; [|apply IH; assumption]. apply named_iff in E. exfalso. apply A. rewrite E. change n with (fst (n, l)). apply in_map, H.
Qed.
Lemma channel_get (cs : chans) n l : NoDup (map fst cs) -> keeps cs n l -> get_channel cs n = Ok l.
Proof. intros N H. unfold get_channel. rewrite (filter_one _ _ l N H). reflexivity. Qed.
Lemma channel_get_missing (cs : chans) n : ~ In n (map fst cs) -> get_channel cs n = Err IndexError.
Proof.
  intro H. unfold get_channel. destruct (filter (named n) cs) as [|d t] eqn:E; [reflexivity|]. exfalso. apply H.
  assert (D : In d (filter (named n) cs)) by (rewrite E; left; reflexivity). apply filter_In in D. destruct D as (D & K). apply named_iff in K. rewrite <- K. apply in_map, D.
Qed.
Lemma del_S i (c : string * L) t : del (S i) (c :: t) = c :: del i t.
Proof. reflexivity. Qed.
Lemma fold_S idx (c : string * L) t : fold_left (fun cs i => del i cs) (map S idx) (c :: t) = c :: fold_left (fun cs i => del i cs) idx t.
Proof. revert t. induction idx as [|i idx IH]; intro t; [reflexivity|]. cbn [map fold_left]. rewrite del_S. apply IH. Qed.
Lemma index_later (c d : string * L) t : fst d <> fst c -> index_of (fst d) (c :: t) = S (index_of (fst d) t).
Proof. intro H. cbn. destruct (named (fst d) c) eqn:E; [|reflexivity]. apply named_iff in E. congruence. Qed.
Lemma delete_at_filter (p : string * L -> bool) cs : NoDup (map fst cs) -> delete_at (map (fun c => index_of (fst c) cs) (filter p cs)) cs = filter (fun c => negb (p c)) cs.
Proof.
  unfold delete_at. induction cs as [|c t IH]; intro N; [reflexivity|]. cbn in N. inversion N as [|? ? A B]; subst. specialize (IH B).
  assert (M : map (fun d => index_of (fst d) (c :: t)) (filter p t) = map S (map (fun d => index_of (fst d) t) (filter p t))).
  { rewrite map_map. apply map_ext_in. intros d D. apply filter_In in D. apply index_later. intro E. apply A. rewrite <- E. apply in_map, D. }
  cbn [filter]. destruct (p c) eqn:Pc; cbn [negb].
  - cbn [map]. rewrite M. cbn [rev]. rewrite fold_left_app, <- map_rev, fold_S, IH. replace (index_of (fst c) (c :: t)) with 0%nat by (cbn; unfold named; rewrite String.eqb_refl; reflexivity). reflexivity.
  - rewrite M, <- map_rev, fold_S, IH. reflexivity.
Qed.
Lemma filter_none (p : string * L -> bool) cs : (forall c, In c cs -> p c = false) -> filter p cs = [].
Proof. induction cs as [|c cs IH]; intro H; [reflexivity|]. cbn. rewrite (H c) by (left; reflexivity). apply IH. intros d D. apply H. right. exact D. Qed.
Lemma channel_delete (cs : chans) n : NoDup (map fst cs) -> In n (map fst cs) -> delete_channel cs n = Ok (filter (fun c => negb (String.eqb (fst c) n)) cs).
Proof.
  intros N H. apply in_map_iff in H. destruct H as ((m & l) & Em & H). cbn in Em. subst m. unfold delete_channel. rewrite (filter_one _ _ l N H). f_equal.
  pose proof (delete_at_filter (named n) cs N) as D. rewrite (filter_one _ _ l N H) in D. cbn in D. exact D.
Qed.
Lemma channel_delete_missing (cs : chans) n : ~ In n (map fst cs) -> delete_channel cs n = Err KeyError.
Proof.
  intro H. unfold delete_channel. rewrite filter_none; [reflexivity|]. intros c C. destruct (named n c) eqn:E; [|reflexivity]. apply named_iff in E. exfalso. apply H. rewrite <- E. apply in_map, C.
Qed.
Lemma any_of_iff l (c : string * L) : any_of l c = true <-> In (fst c) l.
Proof. unfold any_of. rewrite existsb_exists. split; [intros (n & H & E); apply String.eqb_eq in E; rewrite E; exact H|intro H; exists (fst c); split; [exact H|apply String.eqb_refl]]. Qed.
(* as many found as asked for: all of them, each once *)
Lemma found_count (cs : chans) l : NoDup (map fst cs) -> (List.length (filter (any_of l) cs) = List.length l <-> (NoDup l /\ forall n, In n l -> In n (map fst cs))).
Proof.
  intro N. assert (F : NoDup (map fst (filter (any_of l) cs)) /\ incl (map fst (filter (any_of l) cs)) l).
  { split.
    - clear -N. induction cs as [|c t IH]; [constructor|]. cbn in N. inversion N as [|? ? A B]; subst. cbn. destruct (any_of l c); [|apply IH, B]. cbn. constructor; [|apply IH, B].
      intro I. apply A. apply in_map_iff in I. destruct I as (d & E & D). apply filter_In in D. rewrite <- E. apply in_map, D.
    - intros n I. apply in_map_iff in I. destruct I as (d & E & D). apply filter_In in D. destruct D as (_ & D). apply any_of_iff in D. rewrite <- E. exact D. }
  destruct F as (F & G). split.
  - intro H. assert (Ln : (List.length l <= List.length (map fst (filter (any_of l) cs)))%nat) by (rewrite map_length; lia). split; [exact (NoDup_incl_NoDup F Ln G)|].
    intros n I. pose proof (NoDup_length_incl F Ln G n I) as J. apply in_map_iff in J. destruct J as (d & E & D). apply filter_In in D. rewrite <- E. apply in_map, D.
  - intros (Nl & S). apply Nat.le_antisymm; rewrite <- (map_length fst (filter (any_of l) cs)); [apply NoDup_incl_length; assumption|].
    apply NoDup_incl_length; [exact Nl|]. intros n I. specialize (S n I). apply in_map_iff in S. destruct S as (d & E & D). rewrite <- E. apply in_map, filter_In. split; [exact D|]. apply any_of_iff. rewrite E. exact I.
Qed.
Lemma channels_delete (cs : chans) l : NoDup (map fst cs) -> NoDup l -> (forall n, In n l -> In n (map fst cs)) ->
  exists cs', delete_channels cs l = Ok cs' /\ cs' = filter (fun c => negb (existsb (String.eqb (fst c)) l)) cs /\ count_channels cs = (count_channels cs' + List.length l)%nat.
Proof.
  intros N Nl S. eexists. unfold delete_channels. pose proof (proj2 (found_count cs l N) (conj Nl S)) as F. rewrite F, Nat.eqb_refl. cbn [negb]. split; [reflexivity|]. split; [apply delete_at_filter, N|].
  rewrite delete_at_filter by exact N. rewrite <- F. unfold count_channels. clear. induction cs as [|c t IH]; [reflexivity|]. cbn. destruct (any_of l c); cbn; lia.
Qed.
Lemma channels_delete_error (cs : chans) l : NoDup (map fst cs) -> ~ (NoDup l /\ forall n, In n l -> In n (map fst cs)) -> delete_channels cs l = Err KeyError.
Proof.
  intros N H. unfold delete_channels. destruct (Nat.eqb (List.length (filter (any_of l) cs)) (List.length l)) eqn:E; [|reflexivity]. apply Nat.eqb_eq in E. exfalso. apply H, found_count; assumption.
Qed.
(* the curves of the names, in the order of the simulations *)
Lemma channels_get (cs : chans) l x : In x (get_channels cs l) <-> exists n, In n l /\ keeps cs n x.
Proof.
  unfold get_channels, keeps. rewrite in_map_iff. split.
  - intros ((n & y) & E & I). cbn in E. subst y. apply filter_In in I. destruct I as (I & K). apply any_of_iff in K. exists n. split; assumption.
  - intros (n & I & K). exists (n, x). split; [reflexivity|]. apply filter_In. split; [exact K|]. apply any_of_iff. exact I.
Qed.
Lemma channels_all (cs : chans) : get_channels cs (map fst cs) = get_all_channels cs.
Proof.
  unfold get_channels, get_all_channels. f_equal. assert (H : forall c, In c cs -> any_of (map fst cs) c = true) by (intros c C; apply any_of_iff, in_map, C).
  revert H. generalize (map fst cs). intros l H. induction cs as [|c t IH]; [reflexivity|]. cbn. rewrite (H c) by (left; reflexivity). f_equal. apply IH. intros d D. apply H. right. exact D.
Qed.
End Channels.
Lemma channels_order : exists (cs : list (string * nat)) l, NoDup (map fst cs) /\ (forall n, In n l -> In n (map fst cs)) /\
  map (fun n => get_channel cs n) l <> map Ok (get_channels cs l).
Proof.
  exists [("a"%string, 1%nat); ("b"%string, 2%nat)], ["b"%string; "a"%string]. split; [repeat constructor; cbn; intuition discriminate|]. split; [cbn; intuition|]. cbn. discriminate.
Qed.
Lemma channels_dropped : exists (cs : list (string * nat)) l, NoDup (map fst cs) /\ get_channels cs l = [] /\ l <> [] /\ delete_channels cs l = Err KeyError.
Proof. exists [("a"%string, 1%nat)], ["b"%string]. split; [repeat constructor; intros []|]. repeat split. discriminate. Qed.
(* zero to the power of zero, lists that are too short, no channels *)
Lemma broken_flat_zero norm gh b : b <> 0 -> smooth_broken 0 norm 0 gh b = Some norm.
Proof.
  intros B. unfold smooth_broken, npow. rewrite fdiv_some by exact B. destruct (Rlt_dec 0 0); [lra|]. destruct (Req_EM_T 0 0); [|lra]. destruct (Rlt_dec 0 (- 0)); [lra|].
  destruct (Req_EM_T (- 0) 0) as [_|N]; [|exfalso; apply N; ring]. replace (1 + (0 / b) ^ 2) with 1 by (field; exact B). destruct (Rlt_dec 0 1); [|lra].
  rewrite fdiv_some; [f_equal|]; unfold Rpower; rewrite ln_1, Rmult_0_r, exp_0; [field|lra].
Qed.
Lemma lorentzian_few x p : (List.length p < 4)%nat -> generalized_lorentzian x p = Err IndexError.
Proof. destruct p as [|a [|b [|c [|d p]]]]; cbn [List.length]; intros H; try reflexivity. lia. Qed.
Lemma broken_few x p : (List.length p < 4)%nat -> smoothbknpo x p = Err IndexError.
Proof. destruct p as [|a [|b [|c [|d p]]]]; cbn [List.length]; intros H; try reflexivity. lia. Qed.
Lemma count_none (L : Type) : count_channels (@nil (string * L)) = 0%nat.
Proof. reflexivity. Qed.
