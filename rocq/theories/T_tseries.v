(* T_tseries.v: property theorems about the conversion of time series to and from astropy (C224). *)
From Coq Require Import String Ascii.
From Verif Require Import Np Lib M_io M_object M_tseries S_tseries P_tseries.
From Coq Require Import ZArith QArith List Bool Lia Lqa.
Import ListNotations.
Open Scope Q_scope.
Theorem C224_round_trip_partial : forall s : series, even_columns s -> from_ts (to_ts s) = Ok s.
Proof. exact @round_trip. Qed.
Print Assumptions C224_round_trip_partial.
Theorem C224_table : forall (s : series) (x : Q) (t : list Q), s_time s = Some (x :: t) -> a_time (to_ts s) = Some (Elapsed (x :: t)) /\ a_mjdref (to_ts s) = Some
  (s_mjdref s) /\ a_meta (to_ts s) = s_meta s /\ (forall (k : str) (v : list Q), In (k, v) (a_cols (to_ts s)) <-> In (k, v) (s_cols s) /\ List.length v = List.length (x ::
  t)).
Proof. exact @table_columns. Qed.
Print Assumptions C224_table.
Theorem C224_empty_error : forall s : series, s_time s = None \/ s_time s = Some [] -> a_cols (to_ts s) = [] /\ a_meta (to_ts s) = s_meta s /\ from_ts (to_ts s) = Err
  KeyError.
Proof. exact @empty_error. Qed.
Print Assumptions C224_empty_error.
Theorem C224_elapsed : forall (x : Q) (t : list Q) (cols : list (str * list Q)) (ref : option Q) (meta : list (str * Q)), from_ts {| a_time := Some (Elapsed (x :: t));
  a_cols := cols; a_mjdref := ref; a_meta := meta |} = Ok {| s_time := Some (x :: t); s_mjdref := match ref with | Some r => r | None => 0 end; s_cols := cols; s_meta :=
  meta |}.
Proof. exact @from_elapsed. Qed.
Print Assumptions C224_elapsed.
Theorem C224_moments_partial : forall (x : Q) (m : list Q) (cols : list (str * list Q)) (ref : Q) (meta : list (str * Q)), ~ ref == 0 \/ Exists (fun v : Q => v <= 10000)
  (x :: m) -> exists s : series, from_ts {| a_time := Some (Absolute (x :: m)); a_cols := cols; a_mjdref := Some ref; a_meta := meta |} = Ok s /\ s_cols s = cols /\ s_meta
  s = meta /\ s_mjdref s = ref /\ same_moments (moments s) (x :: m).
Proof. exact @absolute_kept. Qed.
Print Assumptions C224_moments_partial.
Theorem C224_zero_error : forall (x : Q) (m : list Q) (cols : list (str * list Q)) (ref : Q) (meta : list (str * Q)), ref == 0 -> Forall (fun v : Q => 10000 < v) (x :: m)
  -> exists s : series, from_ts {| a_time := Some (Absolute (x :: m)); a_cols := cols; a_mjdref := Some ref; a_meta := meta |} = Ok s /\ s_mjdref s == 0 /\ same_moments
  (moments s) (map (fun v : Q => v - x) (x :: m)).
Proof. exact @zero_lost. Qed.
Print Assumptions C224_zero_error.
Theorem C224_no_reference_error : forall (m : list Q) (cols : list (str * list Q)) (meta : list (str * Q)), from_ts {| a_time := Some (Absolute m); a_cols := cols;
  a_mjdref := None; a_meta := meta |} = Err TypeError.
Proof. exact @no_reference. Qed.
Print Assumptions C224_no_reference_error.
(* an empty series cannot be read back; a table of MJDs without a reference cannot be read; with the reference 0, two moments of
   MJD 55000 become moments of MJD 0 *)
Theorem C224_round_trip_refuted : exists s, s_cols s = [] /\ from_ts (to_ts s) <> Ok s.
Proof. exists (mkSeries None 55000 [] []). split; [reflexivity|discriminate]. Qed.
Print Assumptions C224_round_trip_refuted.
Theorem C224_moments_refuted : exists m s, from_ts (mkAtable (Some (Absolute m)) [] (Some 0) []) = Ok s /\ ~ same_moments (moments s) m.
Proof.
  exists [55000; 55001]. destruct (zero_lost 55000 [55001] [] 0 []) as (s & E & _ & H); [reflexivity|repeat constructor|].
  exists s. split; [exact E|]. intros G. inversion G as [|a b la lb Eab Gl]; subst. rewrite <- H0 in H. inversion H as [|c d lc ld Ecd Gc]; subst.
  rewrite Eab in Ecd. discriminate Ecd.
Qed.
Print Assumptions C224_moments_refuted.
Example C224_example : even_columns (mkSeries (Some [1; 2]) 55000 [(% "pi", [3; 4])] [(% "dt", 1)]) /\
  from_ts (to_ts (mkSeries (Some [1; 2]) 55000 [(% "pi", [3; 4]); (% "odd", [3])] [])) = Ok (mkSeries (Some [1; 2]) 55000 [(% "pi", [3; 4])] []) /\
  Exists (fun v => v <= 10000) [20000; 5] /\ Forall (fun v => 10000 < v) [55000; 55001].
Proof.
  split; [exists 1, [2]; split; [reflexivity|constructor; [reflexivity|constructor]]|]. split; [reflexivity|].
  split; [apply Exists_cons_tl, Exists_cons_hd; discriminate|repeat constructor].
Qed.
