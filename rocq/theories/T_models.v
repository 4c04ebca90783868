(* T_models.v: theorems about the shapes of simulated spectra and the channels of a simulator, stingray/simulator/models.py and
   stingray/simulator/simulator.py. *)
From Coq Require Import String.
From Verif Require Import Np M_exvar M_models S_models P_models.
From Coq Require Import Reals List Bool Arith Lia Lra.
Import ListNotations.
Open Scope R_scope.

(* ---------- C197: generalized Lorentzian ---------- *)
Theorem C197_same : forall x x0 w v n : R, generalized_lorentzian x [x0; w; v; n] = lorentz1d x x0 w v n.
Proof. exact @same_model. Qed.
Print Assumptions C197_same.
Theorem C197_value : forall x x0 w v n : R, 0 < n -> 0 < w -> x <> x0 -> lorentz1d x x0 w v n = Ok (Some (lorentz v (w / 2) n (Rabs (x - x0)))).
Proof. exact @lorentz_value. Qed.
Print Assumptions C197_value.
Theorem C197_peak : forall x0 w v n : R, 0 < n -> 0 < w -> lorentz1d x0 x0 w v n = Ok (Some v).
Proof. exact @lorentz_peak. Qed.
Print Assumptions C197_peak.
Theorem C197_half : forall x x0 w v n : R, 0 < n -> 0 < w -> Rabs (x - x0) = w / 2 -> lorentz1d x x0 w v n = Ok (Some (v / 2)).
Proof. exact @lorentz_half. Qed.
Print Assumptions C197_half.
Theorem C197_symmetric : forall u x0 w v n : R, lorentz1d (x0 + u) x0 w v n = lorentz1d (x0 - u) x0 w v n.
Proof. exact @lorentz_symmetric. Qed.
Print Assumptions C197_symmetric.
Theorem C197_falls : forall x y x0 w v n : R, 0 < n -> 0 < w -> 0 < v -> Rabs (x - x0) < Rabs (y - x0) -> exists a b : R, lorentz1d x x0 w v n = Ok (Some a) /\ lorentz1d
  y x0 w v n = Ok (Some b) /\ 0 < b /\ b < a <= v.
Proof. exact @lorentz_falls. Qed.
Print Assumptions C197_falls.
Theorem C197_wings : forall x x0 w v n a : R, 0 < n -> 0 < w -> 0 < v -> w / 2 <= Rabs (x - x0) -> lorentz1d x x0 w v n = Ok (Some a) -> v / 2 * Rpower (w / 2 / Rabs (x -
  x0)) n <= a < v * Rpower (w / 2 / Rabs (x - x0)) n.
Proof. exact @lorentz_wings. Qed.
Print Assumptions C197_wings.
Theorem C197_order_error : forall x x0 w v n : R, n <= 0 -> lorentz1d x x0 w v n = Err AssertionError.
Proof. exact @lorentz_error. Qed.
Print Assumptions C197_order_error.
Theorem C197_no_width : forall x x0 v n : R, 0 < n -> lorentz1d x x0 0 v n = Ok (if Req_EM_T x x0 then None else Some 0).
Proof. exact @lorentz_no_width. Qed.
Print Assumptions C197_no_width.
Example C197_nonvacuous : lorentz1d 3 5 4 7 (1 / 3) = Ok (Some (7 / 2)) /\ generalized_lorentzian 5 [5; 4; 7; 2] = Ok (Some 7) /\ 4 / 2 <= Rabs (9 - 5) /\ Rabs (6 - 5) < Rabs (9 - 5).
Proof.
  split; [apply lorentz_half; try lra; replace (3 - 5) with (- 2) by ring; rewrite Rabs_left; lra|]. split; [rewrite same_model; apply lorentz_peak; lra|].
  rewrite !Rabs_pos_eq by lra. lra.
Qed.

(* ---------- C198: smooth broken power law ---------- *)
Theorem C198_same : forall x a b c d : R, smoothbknpo x [a; b; c; d] = Ok (smooth_broken x a b c d).
Proof. exact @same_broken. Qed.
Print Assumptions C198_same.
Theorem C198_value : forall x norm gl gh b : R, 0 < x -> b <> 0 -> smooth_broken x norm gl gh b = Some (norm * Rpower x (- gl) * Rpower (1 + (x / b) ^ 2) ((gl - gh) /
  2)).
Proof. exact @broken_value. Qed.
Print Assumptions C198_value.
Theorem C198_mirror : forall x norm gl gh b : R, 0 < x -> 0 < b -> smooth_broken x norm gl gh b = Some (norm * Rpower b (gh - gl) * Rpower x (- gh) * Rpower (1 + (b / x)
  ^ 2) ((gl - gh) / 2)).
Proof. exact @broken_mirror. Qed.
Print Assumptions C198_mirror.
Theorem C198_one : forall x norm g b : R, 0 < x -> b <> 0 -> smooth_broken x norm g g b = Some (norm * Rpower x (- g)).
Proof. exact @broken_one. Qed.
Print Assumptions C198_one.
Theorem C198_break : forall norm gl gh b : R, 0 < b -> smooth_broken b norm gl gh b = Some (norm * Rpower b (- gl) * Rpower 2 ((gl - gh) / 2)).
Proof. exact @broken_break. Qed.
Print Assumptions C198_break.
Theorem C198_low : forall norm gl gh b : R, 0 < norm -> 0 < b -> tends_at_zero (fun x : R => match smooth_broken x norm gl gh b with | Some f => f / (norm * Rpower x (-
  gl)) | None => 0 end) 1.
Proof. exact @broken_low. Qed.
Print Assumptions C198_low.
Theorem C198_high : forall norm gl gh b : R, 0 < norm -> 0 < b -> tends_at_infinity (fun x : R => match smooth_broken x norm gl gh b with | Some f => f / (norm * Rpower b
  (gh - gl) * Rpower x (- gh)) | None => 0 end) 1.
Proof. exact @broken_high. Qed.
Print Assumptions C198_high.
Theorem C198_slope : forall x norm gl gh b : R, 0 < x -> 0 < b -> exists f : R -> R, (forall y : R, 0 < y -> smooth_broken y norm gl gh b = Some (f y)) /\
  derivable_pt_lim f x (- ((gl + gh * (x / b) ^ 2) / (1 + (x / b) ^ 2)) * f x / x).
Proof. exact @broken_slope. Qed.
Print Assumptions C198_slope.
Theorem C198_between : forall gl gh u : R, Rmin gl gh <= (gl + gh * u ^ 2) / (1 + u ^ 2) <= Rmax gl gh.
Proof. exact @slope_between. Qed.
Print Assumptions C198_between.
Theorem C198_no_break : forall x norm gl gh : R, smooth_broken x norm gl gh 0 = None.
Proof. exact @broken_no_break. Qed.
Print Assumptions C198_no_break.
Theorem C198_zero : forall norm gl gh b : R, 0 < gl -> smooth_broken 0 norm gl gh b = None.
Proof. exact @broken_zero. Qed.
Print Assumptions C198_zero.
Example C198_nonvacuous : smooth_broken 4 3 1 1 2 = Some (3 / 4) /\ smooth_broken 2 3 1 3 2 = Some (3 / 4).
Proof.
  split.
  - rewrite broken_one by lra. f_equal. rewrite Rpower_Ropp, Rpower_1 by lra. reflexivity.
  - rewrite broken_break by lra. f_equal. replace ((1 - 3) / 2) with (- (1)) by field. rewrite !Rpower_Ropp, !Rpower_1 by lra. field.
Qed.

(* ---------- C199: channels ---------- *)
Theorem C199_new : forall (L : Type) (cs : list (string * L)) (n : string) (l : L), ~ In n (map fst cs) -> simulate_channel cs n (Ok l) = Ok (cs ++ [(n, l)]).
Proof. exact @channel_new. Qed.
Print Assumptions C199_new.
Theorem C199_taken_error : forall (L : Type) (cs : list (string * L)) (n : string) (lc : result L), In n (map fst cs) -> simulate_channel cs n lc = Err KeyError.
Proof. exact @channel_taken. Qed.
Print Assumptions C199_taken_error.
Theorem C199_distinct : forall (L : Type) (cs cs' : list (string * L)) (n : string) (lc : result L), NoDup (map fst cs) -> simulate_channel cs n lc = Ok cs' -> NoDup (map
  fst cs').
Proof. exact @channel_distinct. Qed.
Print Assumptions C199_distinct.
Theorem C199_get : forall (L : Type) (cs : list (string * L)) (n : string) (l : L), NoDup (map fst cs) -> keeps cs n l -> get_channel cs n = Ok l.
Proof. exact @channel_get. Qed.
Print Assumptions C199_get.
Theorem C199_get_error : forall (L : Type) (cs : list (string * L)) (n : string), ~ In n (map fst cs) -> get_channel cs n = Err IndexError.
Proof. exact @channel_get_missing. Qed.
Print Assumptions C199_get_error.
Theorem C199_delete : forall (L : Type) (cs : list (string * L)) (n : string), NoDup (map fst cs) -> In n (map fst cs) -> delete_channel cs n = Ok (filter (fun c : string
  * L => negb (fst c =? n)%string) cs).
Proof. exact @channel_delete. Qed.
Print Assumptions C199_delete.
Theorem C199_delete_error : forall (L : Type) (cs : list (string * L)) (n : string), ~ In n (map fst cs) -> delete_channel cs n = Err KeyError.
Proof. exact @channel_delete_missing. Qed.
Print Assumptions C199_delete_error.
Theorem C199_delete_many : forall (L : Type) (cs : list (string * L)) (l : list string), NoDup (map fst cs) -> NoDup l -> (forall n : string, In n l -> In n (map fst cs))
  -> exists cs' : list (string * L), delete_channels cs l = Ok cs' /\ cs' = filter (fun c : string * L => negb (existsb (String.eqb (fst c)) l)) cs /\ count_channels cs =
  (count_channels cs' + List.length l)%nat.
Proof. exact @channels_delete. Qed.
Print Assumptions C199_delete_many.
Theorem C199_delete_many_error : forall (L : Type) (cs : list (string * L)) (l : list string), NoDup (map fst cs) -> ~ (NoDup l /\ (forall n : string, In n l -> In n (map
  fst cs))) -> delete_channels cs l = Err KeyError.
Proof. exact @channels_delete_error. Qed.
Print Assumptions C199_delete_many_error.
Theorem C199_get_many : forall (L : Type) (cs : list (string * L)) (l : list string) (x : L), In x (get_channels cs l) <-> (exists n : string, In n l /\ keeps cs n x).
Proof. exact @channels_get. Qed.
Print Assumptions C199_get_many.
Theorem C199_get_all : forall (L : Type) (cs : list (string * L)), get_channels cs (map fst cs) = get_all_channels cs.
Proof. exact @channels_all. Qed.
Print Assumptions C199_get_all.
Theorem C199_order_refuted : exists (cs : list (string * nat)) (l : list string), NoDup (map fst cs) /\ (forall n : string, In n l -> In n (map fst cs)) /\ map (fun n :
  string => get_channel cs n) l <> map Ok (get_channels cs l).
Proof. exact @channels_order. Qed.
Print Assumptions C199_order_refuted.
Theorem C199_missing_refuted : exists (cs : list (string * nat)) (l : list string), NoDup (map fst cs) /\ get_channels cs l = [] /\ l <> [] /\ delete_channels cs l = Err
  KeyError.
Proof. exact @channels_dropped. Qed.
Print Assumptions C199_missing_refuted.
Example C199_nonvacuous : simulate_channel [("3-5"%string, 1%nat)] "5-8" (Ok 2%nat) = Ok [("3-5"%string, 1%nat); ("5-8"%string, 2%nat)] /\
  delete_channels [("a"%string, 1%nat); ("b"%string, 2%nat); ("c"%string, 3%nat)] ["c"%string; "a"%string] = Ok [("b"%string, 2%nat)] /\
  NoDup (map fst [("a"%string, 1%nat); ("b"%string, 2%nat); ("c"%string, 3%nat)]).
Proof. split; [reflexivity|]. split; [reflexivity|]. repeat constructor; cbn; intuition discriminate. Qed.
Theorem C198_flat : forall norm gh b : R, b <> 0 -> smooth_broken 0 norm 0 gh b = Some norm.
Proof. exact @broken_flat_zero. Qed.
Print Assumptions C198_flat.
Theorem C197_few_error : forall (x : R) (p : list R), (List.length p < 4)%nat -> generalized_lorentzian x p = Err IndexError.
Proof. exact @lorentzian_few. Qed.
Print Assumptions C197_few_error.
Theorem C198_few_error : forall (x : R) (p : list R), (List.length p < 4)%nat -> smoothbknpo x p = Err IndexError.
Proof. exact @broken_few. Qed.
Print Assumptions C198_few_error.
Theorem C199_none : forall L : Type, count_channels (@nil (string * L)) = 0%nat.
Proof. exact @count_none. Qed.
Print Assumptions C199_none.
