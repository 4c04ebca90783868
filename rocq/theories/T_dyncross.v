(* T_dyncross.v: property theorems about the matrix of dynamical cross spectra (C227). *)
From Verif Require Import Np Lib M_dyncross S_dyncross P_dyncross.
From Coq Require Import QArith List Bool Lia.
Import ListNotations.
Open Scope Q_scope.

Theorem C227_matrix_partial : forall (C : Type) (spectrum : flux -> flux -> C) (seg : Q) (segs : list (Q * flux * flux)) (l : list (C * Q)) (cols : list C) (times : list
  Q), columns spectrum seg segs l -> make_cross_matrix spectrum seg (map (fun t : Q * flux * flux => fst (fst t)) segs) (map (fun t : Q * flux * flux => snd (fst t)) segs)
  (map snd segs) = Some (cols, times) -> cols = map fst l /\ length times = length segs /\ (length cols = length times <-> Forall (fun t : Q * flux * flux => has_signal
  (snd (fst t)) /\ has_signal (snd t)) segs) /\ (Forall (fun t : Q * flux * flux => has_signal (snd (fst t)) /\ has_signal (snd t)) segs -> combine cols times = l).
Proof. exact @matrix_result. Qed.
Print Assumptions C227_matrix_partial.
Theorem C227_none : forall (C : Type) (spectrum : flux -> flux -> C) (seg : Q) (segs : list (Q * flux * flux)) (l : list (C * Q)), columns spectrum seg segs l ->
  make_cross_matrix spectrum seg (map (fun t : Q * flux * flux => fst (fst t)) segs) (map (fun t : Q * flux * flux => snd (fst t)) segs) (map snd segs) = None <-> l = [].
Proof. exact @matrix_none. Qed.
Print Assumptions C227_none.
Theorem C227_columns : forall (C : Type) (spectrum : flux -> flux -> C) (seg : Q) (segs : list (Q * flux * flux)), exists l : list (C * Q), columns spectrum seg segs l.
Proof. exact @columns_all. Qed.
Print Assumptions C227_columns.
(* the second of three segments has no photons in the second band: two columns, three times, and the second column, that of the
   segment at 20, stands beside the time 15 *)
Theorem C227_times_refuted : exists segs cols times,
  make_cross_matrix (fun a b => (a, b)) 10 (map (fun t => fst (fst t)) segs) (map (fun t => snd (fst t)) segs) (map snd segs) = Some (cols, times) /\
  length cols = 2%nat /\ length times = 3%nat /\
  nth_error segs 2 = Some (20, Plain [3], Plain [4]) /\ nth_error cols 1 = Some (Plain [3], Plain [4]) /\ exists t, nth_error times 1 = Some t /\ t == 15.
Proof.
  exists [(0, Plain [1], Plain [1]); (10, Plain [2], Plain [0]); (20, Plain [3], Plain [4])]. eexists _, _.
  split; [reflexivity|]. split; [reflexivity|]. split; [reflexivity|]. split; [reflexivity|]. split; [reflexivity|]. eexists. split; reflexivity.
Qed.
Print Assumptions C227_times_refuted.
Example C227_example : Forall (fun t : Q * flux * flux => has_signal (snd (fst t)) /\ has_signal (snd t)) [(0, Plain [0; 1], WithErr [0] [0])] /\ ~ has_signal (Plain [0; 0]) /\
  make_cross_matrix (fun a b => (a, b)) 10 [0] [Plain [0; 1]] [WithErr [0] [0]] = Some ([(Plain [0; 1], WithErr [0] [0])], [0 + (1 # 2) * 10]).
Proof.
  split; [constructor; [|constructor]; split; [exists 1; split; [right; now left|discriminate]|exact I]|].
  split; [intros (v & [<-|[<-|[]]] & N); now apply N|reflexivity].
Qed.
