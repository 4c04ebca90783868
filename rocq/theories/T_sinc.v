(* T_sinc.v: property theorems about the sinc squared curve of pulsation searches (C168, C169). *)
From Verif Require Import Np M_sinc S_sinc P_sinc.
From Coq Require Import Reals List String Lra Lia.
Import ListNotations.
Open Scope R_scope.

(* ---------- C168: curve and partial derivatives ---------- *)
Theorem C168_model : forall x a m w,
  w <> 0 -> exists v, sinc_square_model x a m w = Some (a * v) /\ sinc2 ((x - m) / w) v.
Proof. exact model_spec. Qed.
Print Assumptions C168_model.
Theorem C168_shape_unique : forall z v w,
  sinc2 z v -> sinc2 z w -> v = w.
Proof. exact sinc2_unique. Qed.
Print Assumptions C168_shape_unique.
Theorem C168_slope_unique : forall f x d d',
  slope_at f x d -> slope_at f x d' -> d = d'.
Proof. exact slope_unique. Qed.
Print Assumptions C168_slope_unique.
Theorem C168_amplitude : forall x a m w,
  w <> 0 -> exists d1 d2 d3, sinc_square_deriv x a m w = Some (d1, d2, d3) /\ slope_at (fun a => sinc_square_model x a m w) a d1.
Proof. exact deriv_amplitude. Qed.
Print Assumptions C168_amplitude.
Theorem C168_peak : forall a m w,
  w <> 0 -> exists d, sinc_square_deriv m a m w = Some d /\ partials m a m w d.
Proof. exact deriv_peak. Qed.
Print Assumptions C168_peak.
Theorem C168_standard : forall x a,
  exists d, sinc_square_deriv x a 0 1 = Some d /\ partials x a 0 1 d.
Proof. exact deriv_standard. Qed.
Print Assumptions C168_standard.
(* all other cases: right only if ... *)
Theorem C168_iff : forall x a m w,
  w <> 0 -> x <> m ->
  exists d, sinc_square_deriv x a m w = Some d /\
    (partials x a m w d <-> a = 0 \/ sin ((x - m) / w) = 0 \/ cos ((x - m) / w) = 0 \/ x = (x - m) / w).
Proof. exact deriv_iff. Qed.
Print Assumptions C168_iff.
Theorem C168_deriv_refuted : 
  exists x a m w d, w <> 0 /\ sinc_square_deriv x a m w = Some d /\ ~ partials x a m w d.
Proof. exact deriv_wrong. Qed.
Print Assumptions C168_deriv_refuted.
Example C168_example : (2 : R) <> 0 /\ (5 : R) <> 1 /\ sinc2 0 1 /\ sinc2 (PI / 2) (4 / (PI * PI)).
Proof.
  pose proof PI_RGT_0. split; [lra|]. split; [lra|]. split; [now left|]. right. split; [lra|]. rewrite sin_PI2. field. lra.
Qed.

(* ---------- C169: start of the fit ---------- *)
Theorem C169_obs_length : forall dflt fixed amp mean width o,
  o <> 0 -> exists d, fit_sinc_setup dflt fixed amp mean width (Some o) = Ok ((amp, mean, 1 / (PI * o), d), d) /\
  is_fixed d "width" = true /\ forall n, n <> "width"%string -> is_fixed d n = is_fixed (match fixed with Some d => d | None => dflt end) n.
Proof. exact setup_obs. Qed.
Print Assumptions C169_obs_length.
Theorem C169_plain : forall dflt fixed amp mean width,
  fit_sinc_setup dflt fixed amp mean width None = Ok ((amp, mean, width, match fixed with Some d => d | None => dflt end), match fixed with Some d => d | None => dflt end).
Proof. exact setup_plain. Qed.
Print Assumptions C169_plain.
Theorem C169_leak_refuted : exists amp mean width o a d a' d',
  fit_sinc_setup [] None amp mean width (Some o) = Ok (a, d) /\ fit_sinc_setup d None amp mean width None = Ok (a', d') /\
  fit_sinc_setup [] None amp mean width None <> Ok (a', d') /\ is_fixed (snd a') "width" = true.
Proof.
  destruct (setup_leaks 1 0 1 1 1 0 1 ltac:(lra)) as (a & d & a' & d' & E & F & G & _).
  exists 1, 0, 1, 1, a, d, a', d'. split; [exact E|]. split; [exact F|]. split; [|exact G]. intros X. injection X as <- <-. discriminate.
Qed.
Print Assumptions C169_leak_refuted.
Example C169_example : is_fixed [("width", false); ("mean", true)]%string "mean" = true /\ is_fixed [("width", true); ("width", false)]%string "width" = false.
Proof. split; reflexivity. Qed.

