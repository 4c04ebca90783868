(* M_spec.v: model of the power spectrum objects: linear and logarithmic rebinning of the object and integrated rms
   (stingray/powerspectrum.py, stingray/crossspectrum.py, stingray/fourier.py).  Numbers are exact rationals; square
   roots are avoided by returning squares. *)
From Verif Require Import Np M_gti M_seg M_utils.
Open Scope Q_scope.

(* An attribute that is either a number or an array with one entry per frequency (m, k, df * k). *)
Inductive perbin := One (v : Q) | Each (l : list Q).
(* The norm attribute. *)
Inductive pnorm := NFrac | NAbs | NLeahy | NNone | NOther.

(* The attributes of a Powerspectrum used below.  None in freq, power and unnorm stands for nan (empty bins of a
   logarithmic rebinning).  The error arrays, cs_all, pds1 and pds2 are left out. *)
Record pspec := { ps_freq : list (option Q); ps_power : list (option Q); ps_unnorm : list (option Q);
                  ps_df : Q; ps_m : perbin; ps_k : perbin; ps_nphots : Q; ps_nphots1 : Q;
                  ps_segment : Q; ps_dt : Q; ps_n : nat; ps_norm : pnorm }.

(* a * b for attributes: numpy broadcasting of a number or of arrays of the same length (an array of length one is also
   repeated). *)
Fixpoint zip_mul (a b : list Q) : list Q :=
  match a, b with x :: a', y :: b' => (x * y) :: zip_mul a' b' | _, _ => [] end.
Definition mul_each (a b : list Q) : result (list Q) :=
  if Nat.eqb (length a) (length b) then Ok (zip_mul a b)
  else match a, b with
       | [x], _ => Ok (map (Qmult x) b)
       | _, [y] => Ok (map (fun x => x * y) a)
       | _, _ => Err ValueError
       end.
Definition mul_perbin (a b : perbin) : result perbin :=
  match a, b with
  | One x, One y => Ok (One (x * y))
  | One x, Each l => Ok (Each (map (Qmult x) l))
  | Each l, One y => Ok (Each (map (fun x => x * y) l))
  | Each l, Each l' => let! r := mul_each l l' in Ok (Each r)
  end.
Definition map_perbin (f : Q -> Q) (a : perbin) : perbin := match a with One x => One (f x) | Each l => Each (map f l) end.
(* Array without nan. *)
Fixpoint all_some {A} (l : list (option A)) : option (list A) :=
  match l with
  | [] => Some []
  | Some a :: l' => option_map (cons a) (all_some l')
  | None :: _ => None
  end.
(* a[mask] with a boolean array: the lengths must agree. *)
Definition bool_index {A} (l : list A) (mask : list bool) : result (list A) :=
  if Nat.eqb (length l) (length mask) then Ok (select l mask) else Err IndexError.

(* ---------- rms ---------- *)
(* stingray/fourier.py:868-876: an array whose entries are all equal is replaced by its first entry. *)
Definition simplify (a : perbin) : perbin :=
  match a with Each (v :: l) => if forallb (qeq v) l then One v else a | _ => a end.
(* stingray/fourier.py:914: the sum of power^2 df^2 / M for arrays (same length). *)
Fixpoint err_sum (p d m : list Q) : Q :=
  match p, d, m with x :: p', y :: d', z :: m' => x * x * (y * y) / z + err_sum p' d' m' | _, _, _ => 0 end.
(* stingray/fourier.py:918: the sum of power * df for arrays. *)
Definition dot (p d : list Q) : Q := qsum (zip_mul p d).
(* stingray/fourier.py:843-930 get_rms_from_rms_norm_periodogram, low_M_buffer_size = 4.  Returns the square of the rms
   and the square of its error; the error is None (nan or inf) when the subtracted power is 0.  The warnings are left
   out; arrays df and M have the length of the powers (a shape mismatch raises ValueError). *)
Definition rms_norm (powers : list Q) (noise : Q) (df M : perbin) : result (Q * option Q) :=
  let df := simplify df in
  let M := simplify M in
  let finish (err2 total : Q) := Ok (if qlt total 0 then (0, Some 0) else
                                     (total, if qeq total 0 then None else Some (err2 / (4 * total)))) in
  match df, M with
  | One d, One m =>
    let! err2 :=
      (if (qeq m 1 && Nat.ltb 4 (length powers))%bool then
         let! r := rebin_data (fun v => v) (fun v => v)
                     (map (fun i => inject_Z (Z.of_nat i) * d) (seq 0 (length powers))) powers (d * 4) None MMean (DxScalar d) in
         match r_step r with
         | StepScalar lm =>
           let ld := d * lm in
           let tl := lm * inject_Z (Z.of_nat (length (r_y r))) in
           let w := inject_Z (Z.of_nat (length powers)) / tl in
           Ok (qsum (map (fun p => p * p * (ld * ld) / lm) (r_y r)) * (w * w))
         | StepArray _ => Err ValueError
         end
       else Ok (qsum (map (fun p => p * p * (d * d) / m) powers))) in
    finish err2 (qsum (map (fun p => (p - noise) * d) powers))
  | Each ds, Each ms =>
    if (Nat.eqb (length ds) (length powers) && Nat.eqb (length ms) (length powers))%bool then
      finish (err_sum powers ds ms) (dot (map (fun p => p - noise) powers) ds)
    else Err ValueError
  | _, _ => Err ValueError
  end.
(* stingray/fourier.py:933-997 get_rms_from_unnorm_periodogram, kind = "frac", segment_size and noise given. *)
Definition rms_unnorm (unnorm : list Q) (nphots : Q) (df M : perbin) (noise segment : Q) : result (Q * option Q) :=
  let meanrate := nphots / segment in
  let to_frac p := p * 2 / nphots / meanrate in
  rms_norm (map to_frac unnorm) (to_frac noise) df M.
(* stingray/fourier.py:588-666 unnormalize_periodograms of a number, as called by compute_rms: no variance, no
   background. *)
Definition unnorm_level (level dt : Q) (n : nat) (nphots : Q) (norm : pnorm) : result Q :=
  match norm with
  | NLeahy => Ok (level * nphots / 2)
  | NFrac => Ok (level * (nphots * nphots / inject_Z (Z.of_nat n)) / (2 * dt))
  | NAbs => Ok (level * dt * inject_Z (Z.of_nat n) / 2)
  | NNone => Ok level
  | NOther => Err ValueError
  end.
Definition in_limits (lo hi : Q) (f : option Q) : bool :=
  match f with Some v => (qle lo v && qle v hi)%bool | None => false end.
(* stingray/powerspectrum.py:149-213 compute_rms.  None as result: a selected power is nan. *)
Definition compute_rms (s : pspec) (lo hi : Q) (level : option Q) : result (option (Q * option Q)) :=
  let good := map (in_limits lo hi) (ps_freq s) in
  let! K := match ps_k s with One v => Ok (One v) | Each l => let! r := bool_index l good in Ok (Each r) end in
  let! M := match ps_m s with One v => Ok (One v) | Each l => let! r := bool_index l good in Ok (Each r) end in
  let! noise := match level with
                | None => Ok (ps_nphots s)
                | Some v => unnorm_level v (ps_dt s) (ps_n s) (ps_nphots s) (ps_norm s)
                end in
  let! u := bool_index (ps_unnorm s) good in
  match all_some u with
  | None => Ok None
  | Some u => let! r := rms_unnorm u (ps_nphots s) (map_perbin (Qmult (ps_df s)) K) M noise (ps_segment s) in Ok (Some r)
  end.

(* ---------- rebinning of the object ---------- *)
(* stingray/crossspectrum.py:739-808 Crossspectrum.rebin and stingray/powerspectrum.py:124-147 Powerspectrum.rebin, for a
   spectrum without nan (with nan: OutOfFuel, not modelled).  The attribute k is copied unchanged. *)
Definition ps_rebin (s : pspec) (df f : option Q) (method : rebin_method) : result pspec :=
  let! df := match f, df with
             | Some f, _ => Ok (f * ps_df s)
             | None, Some d => Ok d
             | None, None => Err ValueError
             end in
  match all_some (ps_freq s), all_some (ps_power s), all_some (ps_unnorm s) with
  | Some fr, Some pw, Some un =>
    let! r := rebin_data (fun v => v) (fun v => v) fr pw df None method (DxScalar (ps_df s)) in
    let! ru := rebin_data (fun v => v) (fun v => v) fr un df None method (DxScalar (ps_df s)) in
    let! m := mul_perbin (match r_step r with StepScalar v => One v | StepArray l => Each l end) (ps_m s) in
    Ok {| ps_freq := map Some (r_x r); ps_power := map Some (r_y r); ps_unnorm := map Some (r_y ru);
          ps_df := df; ps_m := map_perbin (fun v => inject_Z (rint v)) m; ps_k := ps_k s;
          ps_nphots := ps_nphots1 s; ps_nphots1 := ps_nphots1 s;
          ps_segment := ps_segment s; ps_dt := ps_dt s; ps_n := ps_n s; ps_norm := ps_norm s |}
  | _, _, _ => Err OutOfFuel
  end.
(* stingray/crossspectrum.py:936-999 rebin_log (fuel: see rebin_data_log). *)
Definition ps_rebin_log (fuel : nat) (s : pspec) (f : Q) : result pspec :=
  match all_some (ps_freq s), all_some (ps_power s), all_some (ps_unnorm s) with
  | Some fr, Some pw, Some un =>
    let! r := rebin_data_log fuel fr pw f None (Some (ps_df s)) in
    let '(_, (bx, bp, _, ns)) := r in
    let! m := mul_perbin (Each (map (fun n => inject_Z (Z.of_nat n)) ns)) (ps_m s) in
    let! ru := rebin_data_log fuel fr un f None (Some (ps_df s)) in
    let '(_, (_, bu, _, _)) := ru in
    Ok {| ps_freq := bx; ps_power := bp; ps_unnorm := bu;
          ps_df := ps_df s; ps_m := m; ps_k := Each (map (fun n => inject_Z (Z.of_nat n)) ns);
          ps_nphots := ps_nphots s; ps_nphots1 := ps_nphots1 s;
          ps_segment := ps_segment s; ps_dt := ps_dt s; ps_n := ps_n s; ps_norm := ps_norm s |}
  | _, _, _ => Err OutOfFuel
  end.
