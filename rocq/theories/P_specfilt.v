(* P_specfilt.v: filters for spectra: proofs. *)
From Verif Require Import Np Lib M_specfilt S_specfilt.
From Coq Require Import QArith Qabs List Bool Lia Lqa.
Import ListNotations.
Open Scope Q_scope.

Lemma window_map x0 fwhm x : window1d x0 fwhm x = map (fun a => if qle (Qabs (a - x0)) (fwhm / 2) then 1 else 0) x.
Proof. unfold window1d. induction x as [|a x IH]; [reflexivity|]. cbn [length repeat window_loop map]. now rewrite IH. Qed.
Lemma inside_iff x0 fwhm a : qle (Qabs (a - x0)) (fwhm / 2) = true <-> inside x0 fwhm a.
Proof.
  rewrite qle_t. unfold inside. rewrite Qabs_Qle_condition. set (h := fwhm / 2). split; intros [A B]; split; Lqa.lra.
Qed.
Lemma window_ok x0 fwhm x : Forall2 (fun a y => (inside x0 fwhm a -> y = 1) /\ (~ inside x0 fwhm a -> y = 0)) x (window1d x0 fwhm x).
Proof.
  rewrite window_map. induction x as [|a x IH]; constructor; [|exact IH]. destruct (qle _ _) eqn:E.
  - apply inside_iff in E. split; [reflexivity|contradiction].
  - split; [|reflexivity]. intros H. apply inside_iff in H. congruence.
Qed.
Lemma window_negative x0 fwhm x : fwhm < 0 -> Forall (fun y => y = 0) (window1d x0 fwhm x).
Proof.
  intros H. rewrite window_map. apply Forall_forall. intros y Hy. apply in_map_iff in Hy. destruct Hy as (a & <- & _). destruct (qle _ _) eqn:E; [|reflexivity].
  exfalso. apply qle_t in E. pose proof (Qabs_nonneg (a - x0)) as P. assert (D : fwhm / 2 == fwhm * (1 # 2)) by reflexivity. rewrite D in E. Lqa.lra.
Qed.
Lemma total_nonneg model x : no_negative model x -> 0 <= total model x.
Proof. intros H. induction H as [|f l F H IH]; [apply Qle_refl|]. cbn [total fold_right]. fold (total l x). Lqa.lra. Qed.
Lemma optimal_ok f rest x : exists r, optimal1d (f :: rest) x = Ok r /\
  Forall2 (fun a w => (f a + total rest a == 0 -> w = None) /\ (~ f a + total rest a == 0 -> exists v, w = Some v /\ v * (f a + total rest a) == f a)) x r.
Proof.
  eexists. split; [reflexivity|]. induction x as [|a x IH]; constructor; [|exact IH]. cbn [total fold_right]. fold (total rest a). unfold ratio.
  destruct (qeq (f a + total rest a) 0) eqn:E.
  - apply qeq_t in E. split; [reflexivity|contradiction].
  - split; [intros H; apply qeq_t in H; congruence|]. intros H. eexists. split; [reflexivity|]. field. exact H.
Qed.
Lemma optimal_range f rest x a r w : optimal1d (f :: rest) x = Ok r -> In (a, w) (combine x r) -> no_negative (f :: rest) a -> 0 < f a + total rest a -> exists v, w = Some v /\ 0 <= v <= 1.
Proof.
  intros E I N P. destruct (optimal_ok f rest x) as (r' & E' & F). rewrite E in E'. injection E' as <-.
  assert (G : forall p, In p (combine x r) -> (f (fst p) + total rest (fst p) == 0 -> snd p = None) /\ (~ f (fst p) + total rest (fst p) == 0 -> exists v, snd p = Some v /\ v * (f (fst p) + total rest (fst p)) == f (fst p))).
  { clear - F. induction F as [|b u x r H F IH]; [intros p []|]. intros p [<-|I]; [exact H|now apply IH]. }
  destruct (G _ I) as [_ G']. cbn [fst snd] in G'. destruct G' as (v & -> & V); [Lqa.lra|]. exists v. split; [reflexivity|].
  inversion N as [|? ? N1 N2]; subst. pose proof (total_nonneg rest a N2) as T. split.
  - destruct (Qlt_le_dec v 0) as [C|C]; [exfalso|exact C]. assert (v * (f a + total rest a) < 0) by nra. Lqa.lra.
  - destruct (Qlt_le_dec 1 v) as [C|C]; [exfalso|exact C]. assert (f a + total rest a < v * (f a + total rest a)) by nra. Lqa.lra.
Qed.
Lemma optimal_best s n v w : 0 <= s -> 0 <= n -> 0 < s + n -> v * (s + n) == s -> mean_error s n v <= mean_error s n w.
Proof.
  intros S N P V. unfold mean_error. assert (E : (w - 1) * (w - 1) * s + w * w * n == (v - 1) * (v - 1) * s + v * v * n + (w - v) * (w - v) * (s + n)).
  { assert (H : (w - v) * (v * (s + n) - s) == 0) by (rewrite V; ring). nra. }
  rewrite E. assert (Q0 : 0 <= (w - v) * (w - v) * (s + n)); [|Lqa.lra]. apply Qmult_le_0_compat; [|Lqa.lra].
  clear. set (d := w - v). clearbody d. destruct (Qlt_le_dec d 0) as [D|D]; [|now apply Qmult_le_0_compat]. assert (E : d * d == (- d) * (- d)) by ring. rewrite E. apply Qmult_le_0_compat; Lqa.lra.
Qed.
Lemma no_model x : optimal1d [] x = Err IndexError.
Proof. reflexivity. Qed.
