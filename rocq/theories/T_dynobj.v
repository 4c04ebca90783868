(* T_dynobj.v: property theorems about shift_and_add, power_colors and compute_rms of dynamical spectra (C145 - C147). *)
From Coq Require Import Reals Qreals.
From Coq Require Import Lqa Lia.
From Verif Require Import Np Lib S_utils S_spec S_lc S_fold S_dyn M_gti M_seg M_utils M_power M_espec M_fourier M_pcolor M_spec P_rms P_shift P_dyn2 P_pcolor P_pcolor2 M_dynobj S_dynobj P_dynobj.
Open Scope Q_scope.

(* ---------- C145: fractional rms of each column ---------- *)
Theorem C145_rms : forall d lo hi level,
  (forall col, In col (o_cols d) -> length (o_freq d) = length col) -> 0 < o_df d -> 0 < o_m d -> 0 < o_nphots d -> 0 < o_segment d -> ~ o_conv d == 0 ->
  exists l, dyn_compute_rms d lo hi level = Ok l /\
  Forall2 (fun col r => let u := in_range_powers lo hi (o_freq d) col in let g := frac_norm (o_nphots d) (o_segment d) / o_conv d in
    exists V, finished (total (map (fun p => g * (p - level) * o_df d) u)) V (fst r) (snd r) /\
    (~ o_m d == 1 \/ (length u <= 4)%nat -> V == total (map (fun p => (g * p) * (g * p) * (o_df d * o_df d) / o_m d) u)) /\
    ((4 < length u)%nat -> o_m d == 1 -> V == grouped_var (o_df d) (map (fun p => g * p) u))) (o_cols d) l.
Proof. exact dyn_rms. Qed.
Print Assumptions C145_rms.
Theorem C145_rms_frac : forall d lo hi level l,
  (forall col, In col (o_cols d) -> length (o_freq d) = length col) -> 0 < o_df d -> 0 < o_m d -> 0 < o_nphots d -> 0 < o_segment d ->
  o_conv d == frac_norm (o_nphots d) (o_segment d) -> dyn_compute_rms d lo hi level = Ok l ->
  Forall2 (fun col r => let I := total (map (fun p => (p - level) * o_df d) (in_range_powers lo hi (o_freq d) col)) in (0 <= I -> fst r == I) /\ (I < 0 -> fst r == 0)) (o_cols d) l.
Proof. exact dyn_rms_frac. Qed.
Print Assumptions C145_rms_frac.
Theorem C145_lengths : forall d lo hi level col,
  In col (o_cols d) -> length (o_freq d) <> length col -> exists e, dyn_compute_rms d lo hi level = Err e.
Proof. exact dyn_rms_lengths. Qed.
Print Assumptions C145_lengths.
Definition c145_ex : dynobj := mkDynobj [1; 2; 3; 4] [[5; 6; 7; 8]; [1; 1; 1; 1]] 1 1 (2 # 100) 10 1.
Example C145_nonvacuous : exists l, dyn_compute_rms c145_ex 2 3 1 = Ok l /\ Forall2 Qeq (map fst l) [11; 0] /\
  (forall col, In col (o_cols c145_ex) -> length (o_freq c145_ex) = length col) /\ o_conv c145_ex == frac_norm (o_nphots c145_ex) (o_segment c145_ex).
Proof.
  eexists. split; [vm_compute; reflexivity|]. split; [repeat constructor|]. split; [|reflexivity]. intros col [<-|[<-|[]]]; reflexivity.
Qed.
(* ---------- C146: power colors of each column ---------- *)
Theorem C146_columns : forall d edges excl noise cs after,
  dyn_power_colors d edges excl noise = Ok (cs, after) ->
  length cs = length (o_cols d) /\ length after = length (o_cols d) /\
  forall i col c a, nth_error (o_cols d) i = Some col -> nth_error cs i = Some c -> nth_error after i = Some a ->
  exists rows, power_color (column_rows d noise col) edges (Some (o_m d)) excl = Ok (c, rows) /\ a = map b_p rows.
Proof. exact dyn_colors. Qed.
Print Assumptions C146_columns.
Theorem C146_kept : forall d edges noise cs after,
  (forall col, In col (o_cols d) -> length (o_freq d) = length col /\ length noise = length col) ->
  dyn_power_colors d edges [] noise = Ok (cs, after) -> after = o_cols d.
Proof. exact dyn_colors_kept. Qed.
Print Assumptions C146_kept.
Theorem C146_changed_refuted : 
  exists d edges excl noise cs after, dyn_power_colors d edges excl noise = Ok (cs, after) /\ after <> o_cols d.
Proof. exact dyn_colors_refuted. Qed.
Print Assumptions C146_changed_refuted.
Example C146_nonvacuous : exists cs after, dyn_power_colors dyn_ex [1; 3; 5; 6; 8] [] [0; 0; 0; 0; 0; 0; 0; 0] = Ok (cs, after) /\ length cs = 1%nat /\ after = o_cols dyn_ex.
Proof.
  assert (H : exists c rows, power_color (column_rows dyn_ex [0; 0; 0; 0; 0; 0; 0; 0] [1; 9; 1; 1; 1; 1; 1; 1]) [1; 3; 5; 6; 8] (Some 1) [] = Ok (c, rows)).
  { eexists _, _. apply power_color_eval; vm_compute; reflexivity. }
  destruct H as (c & rows & E). pose proof (no_exclusion _ _ _ _ _ E) as K.
  assert (M : map_result (fun col => power_color (column_rows dyn_ex [0; 0; 0; 0; 0; 0; 0; 0] col) [1; 3; 5; 6; 8] (Some (o_m dyn_ex)) []) (o_cols dyn_ex) = Ok [(c, rows)]).
  { change (o_cols dyn_ex) with [[1; 9; 1; 1; 1; 1; 1; 1]]. change (o_m dyn_ex) with 1. cbn [map_result]. rewrite E. reflexivity. }
  exists [c], [map b_p rows]. unfold dyn_power_colors. rewrite M. split; [reflexivity|]. split; [reflexivity|]. rewrite K. reflexivity.
Qed.
(* ---------- C147: shift and add ---------- *)
Theorem C147_plain : forall d f0s nbins a,
  o_cols d <> [] -> (0 < nbins)%nat -> dyn_shift_and_add d f0s nbins None = Ok a ->
  exists f p n, shift_and_add (o_freq d) (o_cols d) f0s nbins (map (fun _ => o_m d) (o_cols d)) (Some (o_df d)) = Ok (f, p, n) /\ length f = nbins /\
  (let ix := filter (fun j => match nth j p None with Some _ => true | None => false end) (seq 0 nbins) in
   a_freq a = map (fun j => nth j f 0) ix /\ a_m a = map (fun j => nth j n 0) ix /\ map Some (a_power a) = map (fun j => nth j p None) ix) /\
  a_df a = o_df d /\ (forall j, (S j < nbins)%nat -> nth (S j) f 0 - nth j f 0 == a_df a).
Proof. exact dyn_shift_plain. Qed.
Print Assumptions C147_plain.
Theorem C147_rebin : forall d f0s nbins m k f v n,
  o_cols d <> [] -> (2 <= nbins)%nat -> 0 < o_df d ->
  shift_and_add (o_freq d) (o_cols d) f0s nbins (map (fun _ => o_m d) (o_cols d)) (Some (o_df d)) = Ok (f, map Some v, n) ->
  (0 < m)%nat -> (0 < k)%nat -> (k * m <= nbins < (k + 1) * m)%nat ->
  exists a, dyn_shift_and_add d f0s nbins (Some (inject_Z (Z.of_nat m))) = Ok a /\ length (a_freq a) = k /\ length (a_power a) = k /\ length (a_m a) = k /\ a_df a = o_df d /\
  forall i, (i < k)%nat -> let q := inject_Z (Z.of_nat m) in
    nth i (a_freq a) 0 == group_sum m i f / q /\ nth i (a_power a) 0 == group_sum m i v / q /\ nth i (a_m a) 0 == group_sum m i n.
Proof. exact dyn_shift_rebin. Qed.
Print Assumptions C147_rebin.
Theorem C147_spacing : forall d f0s nbins m k f v n a,
  o_cols d <> [] -> (2 <= nbins)%nat -> 0 < o_df d ->
  shift_and_add (o_freq d) (o_cols d) f0s nbins (map (fun _ => o_m d) (o_cols d)) (Some (o_df d)) = Ok (f, map Some v, n) ->
  (0 < m)%nat -> (0 < k)%nat -> (k * m <= nbins < (k + 1) * m)%nat -> dyn_shift_and_add d f0s nbins (Some (inject_Z (Z.of_nat m))) = Ok a ->
  forall i, (S i < k)%nat -> nth (S i) (a_freq a) 0 - nth i (a_freq a) 0 == inject_Z (Z.of_nat m) * a_df a.
Proof. exact dyn_shift_spacing. Qed.
Print Assumptions C147_spacing.
Theorem C147_width_refuted : 
  exists d f0s a f0 f1, o_df d == 1 /\ dyn_shift_and_add d f0s 4 (Some 2) = Ok a /\ a_freq a = [f0; f1] /\ f1 - f0 == 2 /\ a_df a == 1.
Proof. exact dyn_shift_width_refuted. Qed.
Print Assumptions C147_width_refuted.
Example C147_nonvacuous : exists a f v n b, dyn_shift_and_add dyn_ex2 [4; 3] 4 None = Ok a /\ length (a_freq a) = 4%nat /\ o_cols dyn_ex2 <> [] /\
  shift_and_add (o_freq dyn_ex2) (o_cols dyn_ex2) [4; 3] 4 (map (fun _ => o_m dyn_ex2) (o_cols dyn_ex2)) (Some (o_df dyn_ex2)) = Ok (f, map Some v, n) /\
  dyn_shift_and_add dyn_ex2 [4; 3] 4 (Some 2) = Ok b /\ Forall2 Qeq (a_power a) [1; 1; 6; 1] /\ Forall2 Qeq (a_m a) [2; 2; 2; 2] /\ Forall2 Qeq (a_power b) [1; 7 # 2] /\ Forall2 Qeq (a_m b) [4; 4].
Proof.
  eexists _, _, [_; _; _; _], _, _. split; [vm_compute; reflexivity|]. split; [reflexivity|]. split; [discriminate|]. split; [vm_compute; reflexivity|]. split; [vm_compute; reflexivity|].
  split; [|split; [|split]]; repeat constructor.
Qed.

