(* S_fourier.v: what the periodogram functions should compute.  From the model only the types of
   the arguments are used (normt, ptype, seg). *)
From Verif Require Import Np Cplx M_fourier.
Open Scope R_scope.

(* j-th value of an array *)
Definition val (x : list R) (j : nat) : R := nth j x 0.

(* discrete Fourier transform at bin k: sum_j x_j exp(-2 pi i j k / n) *)
Definition dft (x : list R) (k : nat) : cx :=
  let n := length x in
  (rs n (fun j => val x j * cos (2 * PI * INR (j * k) / INR n)),
   - rs n (fun j => val x j * sin (2 * PI * INR (j * k) / INR n))).

(* periodogram |X_k|^2 *)
Definition power_at (x : list R) (k : nat) : R :=
  re (dft x k) * re (dft x k) + im (dft x k) * im (dft x k).

(* cross spectrum conj(X_k) Y_k *)
Definition cross_at (x y : list R) (k : nat) : cx :=
  (re (dft x k) * re (dft y k) + im (dft x k) * im (dft y k),
   re (dft x k) * im (dft y k) - im (dft x k) * re (dft y k)).

(* frequency of bin k of a transform of n bins of width d: bins beyond the middle are the negative
   frequencies *)
Definition bin_freq (n : nat) (d : R) (k : nat) : R :=
  (INR k - (if Nat.ltb (2 * k) n then 0 else INR n)) / (INR n * d).

(* number of strictly positive frequencies *)
Definition n_pos (n : nat) : nat := ((n - 1) / 2)%nat.

(* arithmetic mean of a quantity over a list *)
Definition avg {A} (f : A -> R) (l : list A) : R := rlsum (map f l) / INR (length l).

(* population variance of an array *)
Definition variance (x : list R) : R :=
  rlsum (map (fun v => (v - avg (fun y => y) x) * (v - avg (fun y => y) x)) x) / INR (length x).

(* positive number test *)
Definition posb (x : R) : bool := if Rlt_dec 0 x then true else false.
Definition nonnegb (x : R) : bool := if Rle_dec 0 x then true else false.

(* z has modulus r and argument th *)
Definition polar (z : cx) (r th : R) : Prop := re z = r * cos th /\ im z = r * sin th.

(* the real factor by which each normalization multiplies the raw powers; None where the
   normalization is undefined.  mean and nph are the mean flux per bin and the number of photons. *)
Inductive knorm := KFrac | KAbs | KLeahyPoisson | KLeahyVar (v : R) | KNone.
Definition factor (kn : knorm) (dt : R) (n : nat) (mean nph : R) : R :=
  match kn with
  | KFrac => 2 * dt / (mean * mean * INR n)
  | KAbs => 2 / (INR n * dt)
  | KLeahyPoisson => 2 / nph
  | KLeahyVar v => 2 / (v * INR n)
  | KNone => 1
  end.

(* which factor the arguments norm and variance select; None: the call must be refused *)
Definition kind (norm : normt) (var : option R) : option knorm :=
  match norm with
  | Frac => Some KFrac
  | AbsNorm => Some KAbs
  | NoNorm => Some KNone
  | Leahy => match var with
             | None => Some KLeahyPoisson
             | Some v => if Req_EM_T v 0 then None else Some (KLeahyVar v)
             end
  | OtherNorm => None
  end.

(* a segment with at least one non-zero flux *)
Definition nonzero (s : seg) : bool :=
  existsb (fun x => if Req_EM_T x 0 then false else true) (s_flux s).
(* the segments that can be used *)
Definition usable (segs : list (option seg)) : list seg :=
  flat_map (fun o => match o with Some s => if nonzero s then [s] else [] | None => [] end) segs.
(* the pairs of simultaneous segments that can be used *)
Definition usable2 (segs1 segs2 : list (option seg)) : list (seg * seg) :=
  flat_map (fun o => match o with
                     | (Some s1, Some s2) => if nonzero s1 && nonzero s2 then [(s1, s2)] else []
                     | _ => []
                     end) (combine segs1 segs2).

(* photons in a segment *)
Definition photons (s : seg) : R := rlsum (s_flux s).
(* squared mean error bar of a segment that has error bars *)
Definition err2 (s : seg) : option R :=
  option_map (fun e => (avg (fun x => x) e) * (avg (fun x => x) e)) (s_err s).
(* the values present in a list of optional values *)
Definition present {A} (l : list (option A)) : list A :=
  flat_map (fun o => match o with Some a => [a] | None => [] end) l.
(* sum of the present values over the number n of segments; None if there is none *)
Definition mean_present (l : list (option R)) : option R :=
  match present l with [] => None | vs => Some (rlsum vs / INR (length l)) end.
(* the variances of a pair are only used when both segments have error bars *)
Definition err2_pair (p : seg * seg) : option (R * R) :=
  match err2 (fst p), err2 (snd p) with Some a, Some b => Some (a, b) | _, _ => None end.

(* power_type *)
Definition as_type (pt : ptype) (z : cx) : cx :=
  match pt with PAll => z | PReal => (re z, 0) | PAbs => (cabs z, 0) | POther => z end.

(* factor selected by norm and variance (0 where it is undefined) *)
Definition fac (norm : normt) (var : option R) (dt : R) (n : nat) (mean nph : R) : R :=
  match kind norm var with Some kn => factor kn dt n mean nph | None => 0 end.
(* mean of a complex quantity *)
Definition cavg {A} (f : A -> cx) (l : list A) : cx := (avg (fun a => re (f a)) l, avg (fun a => im (f a)) l).
(* power_type for real powers *)
Definition as_type_r (pt : ptype) (x : R) : R := match pt with PAbs => Rabs x | _ => x end.
Definition refused (norm : normt) (var : option R) : bool :=
  match kind norm var with None => true | Some _ => false end.
(* geometric mean *)
Definition gmean (a b : R) : R := sqrt (a * b).
Definition gmean_opt (a b : option R) : option R :=
  match a, b with Some x, Some y => Some (gmean x y) | _, _ => None end.
Definition bad_type (pt : ptype) : bool := match pt with POther => true | _ => false end.

(* variances of a usable pair, for the first and second channel and their geometric mean *)
Definition pvar1 (p : seg * seg) : option R := option_map fst (err2_pair p).
Definition pvar2 (p : seg * seg) : option R := option_map snd (err2_pair p).
Definition pvar (p : seg * seg) : option R := option_map (fun v => gmean (fst v) (snd v)) (err2_pair p).
(* geometric mean of the photons in the two channels of a pair *)
Definition pph (p : seg * seg) : R := gmean (photons (fst p)) (photons (snd p)).
(* powers of a pair at bin k *)
Definition cpower (p : seg * seg) (k : nat) : cx := cross_at (s_flux (fst p)) (s_flux (snd p)) k.
Definition pow1 (p : seg * seg) (k : nat) : R := power_at (s_flux (fst p)) k.
Definition pow2 (p : seg * seg) (k : nat) : R := power_at (s_flux (snd p)) k.
(* the bins of the result *)
Definition bins (fullspec : bool) (n : nat) : list nat := if fullspec then seq 0 n else seq 1 (n_pos n).
(* the arrays of a pair come with error bars only where there is some flux *)
Definition tuples_nonzero (segs : list (option seg)) : Prop :=
  forall s, In (Some s) segs -> s_err s <> None -> nonzero s = true.

(* y is x delayed by d bins, cyclically *)
Definition delayed (d : nat) (x y : list R) : Prop :=
  length y = length x /\ forall j, (j < length x)%nat -> val y ((j + d) mod length x) = val x j.
(* fluxes of two equally long lists of segments are pairwise delayed *)
Definition delayed_seg (d : nat) (p : seg * seg) : Prop := delayed d (s_flux (fst p)) (s_flux (snd p)).

(* the table of a cross spectrum of a series with itself agrees with its power spectrum *)
Definition same_table (t : pds_table) (c : cs_table) : Prop :=
  c_freq c = p_freq t /\ c_power c = map rtoc (p_power t) /\ c_unnorm c = map rtoc (p_unnorm t) /\
  c_n c = p_n t /\ c_m c = p_m t /\ c_dt c = p_dt t /\ c_norm c = p_norm t /\ c_df c = p_df t /\
  c_segment_size c = p_segment_size t /\
  c_nphots c = p_nphots t /\ c_nphots1 c = p_nphots t /\ c_nphots2 c = p_nphots t /\
  c_mean c = p_mean t /\ c_mean1 c = p_mean t /\ c_mean2 c = p_mean t /\
  c_variance c = p_variance t /\ c_variance1 c = p_variance t /\ c_variance2 c = p_variance t /\
  option_map fst (c_subcs c) = option_map (map (map rtoc)) (p_subcs t) /\
  option_map snd (c_subcs c) = option_map (map (map rtoc)) (p_unnorm_subcs t).

(* bias of |C|^2 in an average over m segments (Ingram 2019), ignored above 500 segments *)
Definition expected_bias (p1 p2 noise1 noise2 : R) (m : nat) (coherence : R) : R :=
  if Nat.ltb 500 m then 0 else (p1 * p2 - coherence * ((p1 - noise1) * (p2 - noise2))) / INR m.
