(* M_norm.v: model of Crossspectrum.to_norm and of the spectra it acts on.  Real powers are complex numbers with zero
   imaginary part. *)
From Verif Require Import Np Cplx M_fourier.
Open Scope R_scope.

(* attributes of pds1 and pds2 that to_norm reads and writes *)
Record half := mkHalf { h_norm : normt; h_power : list cx; h_err : option (list cx); h_unnorm : list cx; h_unnorm_err : option (list cx) }.
(* attributes of a spectrum; sp_power_type is self.type == "powerspectrum", sp_gauss is self.err_dist != "poisson".  For a
   power spectrum sp_nph1 and sp_var1 are nphots and variance. *)
Record spectrum := mkSpec {
  sp_power_type : bool; sp_norm : normt; sp_power : option (list cx); sp_err : option (list cx);
  sp_unnorm : option (list cx); sp_unnorm_err : option (list cx); sp_dt : R; sp_n : nat; sp_nph1 : R; sp_nph2 : R;
  sp_gauss : bool; sp_var1 : option R; sp_var2 : option R; sp_ptype : ptype; sp_halves : option (half * half) }.

Definition normt_eqb (a b : normt) : bool :=
  match a, b with Frac, Frac | AbsNorm, AbsNorm | Leahy, Leahy | NoNorm, NoNorm => true | _, _ => false end.

Definition with_power (norm : normt) (p : list cx) (hs : option (half * half)) (s : spectrum) : spectrum :=
  mkSpec (sp_power_type s) norm (Some p) (sp_err s) (sp_unnorm s) (sp_unnorm_err s) (sp_dt s) (sp_n s) (sp_nph1 s) (sp_nph2 s)
    (sp_gauss s) (sp_var1 s) (sp_var2 s) (sp_ptype s) hs.
Definition with_err (norm : normt) (p : list cx) (hs : option (half * half)) (s : spectrum) : spectrum :=
  mkSpec (sp_power_type s) norm (sp_power s) (Some p) (sp_unnorm s) (sp_unnorm_err s) (sp_dt s) (sp_n s) (sp_nph1 s) (sp_nph2 s)
    (sp_gauss s) (sp_var1 s) (sp_var2 s) (sp_ptype s) hs.
Definition half_power (norm : normt) (p : list cx) (h : half) : half := mkHalf norm p (h_err h) (h_unnorm h) (h_unnorm_err h).
Definition half_err (norm : normt) (p : list cx) (h : half) : half := mkHalf norm (h_power h) (Some p) (h_unnorm h) (h_unnorm_err h).

(* crossspectrum.py:812-900 to_norm.  An unknown name is not the name of the current normalization.  The result is the
   spectrum returned (with inplace=True, also self after the call). *)
Definition to_norm (norm : normt) (s : spectrum) : result spectrum :=
  if normt_eqb norm (sp_norm s) then Ok s
  else
    let n := INR (sp_n s) in
    let nph := if sp_power_type s then sp_nph1 s else sqrt (sp_nph1 s * sp_nph2 s) in
    let mean := nph / n in
    let mean1 := sp_nph1 s / n in
    let mean2 := if sp_power_type s then sp_nph1 s / n else sp_nph2 s / n in
    let! vars := if sp_gauss s then
                   if sp_power_type s then Ok (sp_var1 s, None, None)
                   else match sp_var1 s, sp_var2 s with
                        | Some v1, Some v2 => Ok (Some (sqrt (v1 * v2)), Some v1, Some v2)
                        | _, _ => Err TypeError
                        end
                 else Ok (None, None, None) in
    let '(variance, variance1, variance2) := vars in
    let one := fun u mean nph variance =>
      with_ptype creal cabsl (sp_ptype s) (normalize cmulr u (sp_dt s) (sp_n s) (Some mean) (Some nph) variance 0 norm) in
    let! s1 := match sp_unnorm s with
               | None => Ok s
               | Some u =>
                 let! p := one u mean nph variance in
                 let! hs := match sp_halves s with
                            | None => Ok None
                            | Some (h1, h2) =>
                              let! p1 := one (h_unnorm h1) mean1 (sp_nph1 s) variance1 in
                              let! p2 := one (h_unnorm h2) mean2 (sp_nph2 s) variance2 in
                              Ok (Some (half_power norm p1 h1, half_power norm p2 h2))
                            end in
                 Ok (with_power norm p hs s)
               end in
    match sp_unnorm_err s1 with
    | None => Ok s1
    | Some u =>
      let! p := one u mean nph variance in
      let! hs := match sp_halves s1 with
                 | None => Ok None
                 | Some (h1, h2) =>
                   let! u1 := match h_unnorm_err h1 with Some u1 => Ok u1 | None => Err AttributeError end in
                   let! p1 := one u1 mean1 (sp_nph1 s) variance1 in
                   let! u2 := match h_unnorm_err h2 with Some u2 => Ok u2 | None => Err AttributeError end in
                   let! p2 := one u2 mean2 (sp_nph2 s) variance2 in
                   Ok (Some (half_err norm p1 h1, half_err norm p2 h2))
                 end in
      Ok (with_err norm p hs s1)
    end.

Definition some {A} (o : option A) : bool := match o with Some _ => true | None => false end.
Definition rl (l : list R) : list cx := map rtoc l.
Definition over (l : list R) (r : R) : list R := map (fun x => x / r) l.

(* powerspectrum.py:1574-1618 _create_powerspectrum_from_result_table *)
Definition spectrum_of_pds (t : pds_table) : spectrum :=
  let r := sqrt (INR (p_m t)) in
  mkSpec true (p_norm t) (Some (rl (p_power t))) (Some (rl (over (p_power t) r))) (Some (rl (p_unnorm t))) (Some (rl (over (p_unnorm t) r)))
    (p_dt t) (p_n t) (p_nphots t) (p_nphots t) (some (p_variance t)) (p_variance t) None PAll None.

(* the errors of the raw cross powers: fourier.py:1159-1165 (real and imaginary part, different channels) and
   crossspectrum.py:1809-1827, where an invalid value (a negative number under the root) is replaced in both parts *)
Definition raw_cross_errors (cross : list cx) (pds1 pds2 : list R) (m : nat) (rate1 rate2 nph1 nph2 : R) : list cx :=
  map (fun q : cx * (R * R) =>
         let '(z, (seg, ref)) := q in
         let a := ref * seg + re z * re z - im z * im z in
         let b := ref * seg - re z * re z + im z * im z in
         let default := sqrt (2 / INR m) * sqrt (nph1 * nph2) / 2 in
         if Rlt_dec a 0 then (default, default)
         else if Rlt_dec b 0 then (default, default)
         else (sqrt (a / (2 * INR m)), sqrt (b / (2 * INR m))))
      (combine cross (combine pds1 pds2)).

(* crossspectrum.py:3133-3222 _create_crossspectrum_from_result_table with 1784-1843 _calculate_errors; the table has the
   power spectra pds1 and pds2 (KeyError otherwise).  The error of the raw cross powers is a function of raw powers and
   counts: cs_errors, given the raw cross powers, the raw pds1 and pds2, m, mean1/dt, mean2/dt, nphots1, nphots2. *)
Definition spectrum_of_cs (cs_errors : list cx -> list R -> list R -> nat -> R -> R -> R -> R -> list cx) (pt : ptype) (t : cs_table)
  : result spectrum :=
  match c_auxil t with
  | None => Err KeyError
  | Some (p1, p2, (u1, u2)) =>
    let unnorm_err := cs_errors (c_unnorm t) u1 u2 (c_m t) (c_mean1 t / c_dt t) (c_mean2 t / c_dt t) (c_nphots1 t) (c_nphots2 t) in
    let! power_err := normalize cmulr unnorm_err (c_dt t) (c_n t) (Some (c_mean t)) (Some (sqrt (c_nphots1 t * c_nphots2 t))) (c_variance t) 0 (c_norm t) in
    let r := sqrt (INR (c_m t)) in
    Ok (mkSpec false (c_norm t) (Some (c_power t)) (Some power_err) (Some (c_unnorm t)) (Some unnorm_err) (c_dt t) (c_n t)
          (c_nphots1 t) (c_nphots2 t) (some (c_variance t)) (c_variance1 t) (c_variance2 t) pt
          (Some (mkHalf (c_norm t) (rl p1) (Some (rl (over p1 r))) (rl u1) (Some (rl (over u1 r))),
                 mkHalf (c_norm t) (rl p2) (Some (rl (over p2 r))) (rl u2) (Some (rl (over u2 r))))))
  end.
