(* T_specfilt.v: property theorems about the filters for spectra (C222). *)
From Verif Require Import Np Lib M_specfilt S_specfilt P_specfilt.
From Coq Require Import QArith Qabs List Bool Lia Lqa.
Import ListNotations.
Open Scope Q_scope.
Theorem C222_window : forall (x0 fwhm : Q) (x : list Q), Forall2 (fun a y : Q => (inside x0 fwhm a -> y = 1) /\ (~ inside x0 fwhm a -> y = 0)) x (window1d x0 fwhm x).
Proof. exact @window_ok. Qed.
Print Assumptions C222_window.
Theorem C222_negative_width : forall (x0 fwhm : Q) (x : list Q), fwhm < 0 -> Forall (fun y : Q => y = 0) (window1d x0 fwhm x).
Proof. exact @window_negative. Qed.
Print Assumptions C222_negative_width.
Theorem C222_optimal : forall (f : Q -> Q) (rest : list (Q -> Q)) (x : list Q), exists r : list (option Q), optimal1d (f :: rest) x = Ok r /\ Forall2 (fun (a : Q) (w :
  option Q) => (f a + total rest a == 0 -> w = None) /\ (~ f a + total rest a == 0 -> exists v : Q, w = Some v /\ v * (f a + total rest a) == f a)) x r.
Proof. exact @optimal_ok. Qed.
Print Assumptions C222_optimal.
Theorem C222_range : forall (f : Q -> Q) (rest : list (Q -> Q)) (x : list Q) (a : Q) (r : list (option Q)) (w : option Q), optimal1d (f :: rest) x = Ok r -> In (a, w)
  (combine x r) -> no_negative (f :: rest) a -> 0 < f a + total rest a -> exists v : Q, w = Some v /\ 0 <= v <= 1.
Proof. exact @optimal_range. Qed.
Print Assumptions C222_range.
Theorem C222_best : forall s n v w : Q, 0 <= s -> 0 <= n -> 0 < s + n -> v * (s + n) == s -> mean_error s n v <= mean_error s n w.
Proof. exact @optimal_best. Qed.
Print Assumptions C222_best.
Theorem C222_no_model_error : forall x : list Q, optimal1d [] x = Err IndexError.
Proof. exact @no_model. Qed.
Print Assumptions C222_no_model_error.
Example C222_example : window1d 3 2 [1; 2; 3; 4; 5] = [0; 1; 1; 1; 0] /\ inside 3 2 4 /\ ~ inside 3 2 5 /\
  (exists v, optimal1d [(fun x => x); (fun _ => 1)] [1; -1] = Ok [Some v; None] /\ v == 1 # 2) /\ no_negative [(fun x => x); (fun _ => 1)] 1 /\
  mean_error 1 1 (1 # 2) < mean_error 1 1 1.
Proof.
  split; [reflexivity|]. split; [split; apply Qle_bool_iff; reflexivity|]. split; [intros [_ H]; apply Qle_bool_iff in H; vm_compute in H; discriminate|].
  split; [eexists; split; [vm_compute; reflexivity|reflexivity]|]. split; [repeat constructor; discriminate|reflexivity].
Qed.
