(* T_varen.v: property theorems about reference bands (C46). *)
From Verif Require Import Np Lib S_gti M_utils M_gti M_varen P_helpers P_gti_cross P_gti_ops P_gti_final P_varen.
From Coq Require Import Lqa.
Open Scope Q_scope.

(* ---------- C46 ---------- *)
Theorem C46_reference_band_partial : forall srt c ref,
  sorts_by t_end srt -> good ref -> (forall iv, In iv ref -> 0 <= fst iv) ->
  0 < fst c < snd c -> (forall iv, In iv ref -> ~ fst iv == fst c /\ ~ snd iv == snd c) ->
  exists r, get_non_overlapping_ref_band srt c ref = Ok r /\ forall t, covered r t <-> covered ref t /\ ~ (fst c <= t < snd c).
Proof. exact band_main. Qed.
Print Assumptions C46_reference_band_partial.
Theorem C46_single_interval_partial : forall srt c r0 r1,
  sorts_by t_end srt -> 0 <= r0 -> r0 < r1 -> 0 <= fst c -> fst c < snd c ->
  ~ (fst c == r0 /\ r1 <= snd c) ->
  exists r, get_non_overlapping_ref_band srt c [(r0, r1)] = Ok r /\ forall t, covered r t <-> r0 <= t < r1 /\ ~ (fst c <= t < snd c).
Proof. exact band_single. Qed.
Print Assumptions C46_single_interval_partial.
Theorem C46_touching_refuted : 
  exists c ref r t, good ref /\ (forall iv, In iv ref -> 0 <= fst iv) /\ 0 < fst c < snd c /\
  get_non_overlapping_ref_band (isort_by t_end) c ref = Ok r /\ covered r t /\ fst c <= t < snd c.
Proof. exact band_refuted. Qed.
Print Assumptions C46_touching_refuted.

Example C46_nonvacuous : exists r, good [(1, 4); (5, 9)] /\ (forall iv, In iv [(1, 4); (5, 9)] -> 0 <= fst iv) /\ 0 < fst (2, 6) < snd (2, 6) /\
  (forall iv, In iv [(1, 4); (5, 9)] -> ~ fst iv == fst (2, 6) /\ ~ snd iv == snd (2, 6)) /\
  get_non_overlapping_ref_band (isort_by t_end) (2, 6) [(1, 4); (5, 9)] = Ok r /\ r = [(1, 2); (6, 9)].
Proof.
  eexists. split; [apply good_dec; reflexivity|]. split; [intros iv [<-|[<-|[]]]; cbn; lra|]. split; [cbn; lra|].
  split; [intros iv [<-|[<-|[]]]; cbn; lra|]. split; vm_compute; reflexivity.
Qed.

