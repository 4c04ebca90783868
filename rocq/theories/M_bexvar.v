(* M_bexvar.v: model of the Bayesian excess variance, stingray/bexvar.py. *)
From Verif Require Import Np M_utils Cplx M_exvar M_espec.
From Coq Require Import Reals List Arith ZArith Bool Lia Lra.
Import ListNotations.
Open Scope R_scope.

(* scipy.special.gammaincinv(a, p), the value of x where the regularized lower incomplete gamma function is p (library), is the
   parameter [ginv]; scipy.stats.poisson.pmf(k, mu) is [pmf]; scipy.stats.norm.pdf(x, m, s) is [npdf].  The counts, areas and rate
   conversions of a bin are a record. *)
Record bin := mkBin { b_src : R; b_bkg : R; b_area : R; b_conv : R }.
(* min and max of a list *)
Definition rmin_list (l : list R) : result R := match l with [] => Err ValueError | x :: r => Ok (fold_left Rmin r x) end.
Definition rmax_list (l : list R) : result R := match l with [] => Err ValueError | x :: r => Ok (fold_left Rmax r x) end.
(* int(np.ceil(x)) *)
Definition rceil (x : R) : Z := (1 - up (- x))%Z.
(* bexvar.py:30-86 _lscg_gen; rate conversions and areas are positive *)
Definition lscg_gen (ginv : R -> R -> R) (bins : list bin) (density_gp : R) : result (list R) :=
  let a := map (fun b => ginv (b_src b + 1) (1 / 1000) / b_conv b) bins in
  let b := map (fun b => ginv (b_bkg b + 1) (999 / 1000) / (b_conv b * b_area b)) bins in
  let! mindiff := rmin_list (map (fun p => fst p - snd p) (combine a b)) in
  let m0 := if Rlt_dec 0 mindiff then log10 mindiff else -1 in
  let c := map (fun b => ginv (b_src b + 1) (999 / 1000) / b_conv b) bins in
  let! cmax := rmax_list c in
  let m1 := log10 cmax in
  let lo := m0 - 5 / 100 * (m1 - m0) in
  let hi := m1 + 5 / 100 * (m1 - m0) in
  let span := hi - lo in
  if Rlt_dec lo (-1) then linspace (-1) hi (rceil (density_gp * (hi + 1)))
  else linspace lo hi (rceil (density_gp * (105 / 100) * span)).

(* bexvar.py:89-138 _estimate_source_cr_marginalised: N = 1000 quantiles without both ends *)
Definition quantiles : list R := map (fun i => INR i / 999) (seq 1 998).
Definition prob (ginv pmf : R -> R -> R) (b : bin) (log_src_cr : R) : R :=
  let bkg_cr := map (fun u => ginv (b_bkg b + 1) u / b_area b) quantiles in
  let src_cr := Rpower 10 log_src_cr * b_conv b in
  rlsum (map (fun r => pmf (b_src b) (src_cr + r)) bkg_cr) / INR (length bkg_cr).
Definition estimate_source_cr (ginv pmf : R -> R -> R) (grid : list R) (b : bin) : list (option R) :=
  let weights := map (prob ginv pmf b) grid in
  map (fun w => fdiv w (rlsum weights)) weights.

(* bexvar.py:168-172 transform; grid[-1] and grid[0] of an empty grid are IndexError *)
Definition transform (grid : list R) (cube : R * R) : result (R * R) :=
  match grid with
  | [] => Err IndexError
  | g0 :: _ => Ok (fst cube * (last grid 0 - g0) + g0, Rpower 10 (snd cube * 4 - 2))
  end.
(* bexvar.py:174-184 loglike; the likelihood of real numbers is finite.  Rows of pdfs are as long as the grid, which is not empty. *)
Definition loglike (npdf : R -> R -> R -> R) (grid : list R) (pdfs : list (list R)) (params : R * R) : R :=
  let variance_pdf := map (fun g => npdf g (fst params) (snd params)) grid in
  rlsum (map (fun row => ln (rlsum (map (fun p => fst p * snd p) (combine variance_pdf row)) / INR (length grid) + / 10 ^ 100)) pdfs).

(* bexvar.py:236-270 bexvar: the bins that are used.  None stands for the default values.  All arrays have the same length. *)
Definition default_to (d : R) (n : nat) (o : option (list R)) : list R := match o with Some l => l | None => repeat d n end.
Definition used {A} (frac_exp : list R) (l : list A) : list A :=
  map snd (filter (fun p => if Rlt_dec (1 / 10) (fst p) then true else false) (combine frac_exp l)).
Fixpoint bins_of (time_del src bg ratio frac : list R) : list bin :=
  match time_del, src, bg, ratio, frac with
  | t :: time_del', s :: src', b :: bg', r :: ratio', f :: frac' => mkBin s b (1 / r) (f * t) :: bins_of time_del' src' bg' ratio' frac'
  | _, _, _, _, _ => []
  end.
Definition select_bins (time_del src_counts : list R) (bg_counts bg_ratio frac_exp : option (list R)) : list bin :=
  let n := length src_counts in
  let bg := default_to 0 n bg_counts in
  let ratio := default_to 1 n bg_ratio in
  let frac := default_to 1 n frac_exp in
  bins_of (used frac time_del) (used frac src_counts) (used frac bg) (used frac ratio) (used frac frac).
(* bexvar.py:193-276 bexvar without the sampler: the grid and the posteriors of the bins given to it *)
Definition bexvar_input (ginv pmf : R -> R -> R) (time_del src_counts : list R) (bg_counts bg_ratio frac_exp : option (list R))
    : result (list R * list (list (option R))) :=
  let bins := select_bins time_del src_counts bg_counts bg_ratio frac_exp in
  let! grid := lscg_gen ginv bins 100 in
  Ok (grid, map (estimate_source_cr ginv pmf grid) bins).
