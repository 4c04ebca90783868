(* S_norm.v: what changing the normalization should do.  From the model only the record types are used. *)
From Verif Require Import Np Cplx M_fourier M_norm S_fourier.
Open Scope R_scope.

(* counts, mean flux and variance of a spectrum: geometric means over the two channels of a cross spectrum *)
Definition counts_of (s : spectrum) : R := if sp_power_type s then sp_nph1 s else gmean (sp_nph1 s) (sp_nph2 s).
Definition variance_of (s : spectrum) : option R :=
  if sp_gauss s then if sp_power_type s then sp_var1 s else gmean_opt (sp_var1 s) (sp_var2 s) else None.
Definition channel_variance (s : spectrum) (v : option R) : option R := if (sp_gauss s && negb (sp_power_type s))%bool then v else None.
(* the powers u in the normalization of s *)
Definition scaled (s : spectrum) (norm : normt) (nph : R) (var : option R) (u : list cx) : list cx :=
  map (fun z => as_type (sp_ptype s) (cscal z (fac norm var (sp_dt s) (sp_n s) (nph / INR (sp_n s)) nph))) u.
(* h has the powers of a channel in the given normalization *)
Definition half_ok (s : spectrum) (norm : normt) (nph : R) (var : option R) (h : half) : Prop :=
  h_norm h = norm /\
  (sp_unnorm s <> None -> h_power h = scaled s norm nph var (h_unnorm h)) /\
  (sp_unnorm_err s <> None -> h_err h = option_map (scaled s norm nph var) (h_unnorm_err h)).
(* all powers and errors of s are the raw ones in the normalization sp_norm s *)
Definition consistent (s : spectrum) : Prop :=
  (forall u, sp_unnorm s = Some u -> sp_power s = Some (scaled s (sp_norm s) (counts_of s) (variance_of s) u)) /\
  (forall u, sp_unnorm_err s = Some u -> sp_err s = Some (scaled s (sp_norm s) (counts_of s) (variance_of s) u)) /\
  (forall h1 h2, sp_halves s = Some (h1, h2) ->
     half_ok s (sp_norm s) (sp_nph1 s) (channel_variance s (sp_var1 s)) h1 /\
     half_ok s (sp_norm s) (sp_nph2 s) (channel_variance s (sp_var2 s)) h2).
(* a normalization can be computed for s: known names, variances present and not zero *)
Definition computable (s : spectrum) (norm : normt) : Prop :=
  refused norm (variance_of s) = false /\ bad_type (sp_ptype s) = false /\
  (sp_gauss s = true -> sp_power_type s = false -> sp_var1 s <> None /\ sp_var2 s <> None) /\
  (sp_halves s <> None -> refused norm (channel_variance s (sp_var1 s)) = false /\ refused norm (channel_variance s (sp_var2 s)) = false).
(* the channels have raw errors if the spectrum has *)
Definition complete (s : spectrum) : Prop :=
  forall h1 h2, sp_halves s = Some (h1, h2) -> sp_power_type s = false /\ (sp_unnorm_err s <> None -> h_unnorm_err h1 <> None /\ h_unnorm_err h2 <> None).
(* the attributes that a change of normalization must not touch *)
Definition same_raw_half (a b : half) : Prop := h_unnorm a = h_unnorm b /\ h_unnorm_err a = h_unnorm_err b.
Definition same_raw (s t : spectrum) : Prop :=
  sp_power_type s = sp_power_type t /\ sp_unnorm s = sp_unnorm t /\ sp_unnorm_err s = sp_unnorm_err t /\ sp_dt s = sp_dt t /\ sp_n s = sp_n t /\
  sp_nph1 s = sp_nph1 t /\ sp_nph2 s = sp_nph2 t /\ sp_gauss s = sp_gauss t /\ sp_var1 s = sp_var1 t /\ sp_var2 s = sp_var2 t /\
  sp_ptype s = sp_ptype t /\
  match sp_halves s, sp_halves t with
  | None, None => True
  | Some (a, b), Some (c, d) => same_raw_half a c /\ same_raw_half b d
  | _, _ => False
  end.
(* errors that cannot be recomputed are kept *)
Definition same_errors (s t : spectrum) : Prop :=
  sp_unnorm_err s = None -> sp_err s = sp_err t /\
  match sp_halves s, sp_halves t with Some (a, b), Some (c, d) => h_err a = h_err c /\ h_err b = h_err d | _, _ => True end.
