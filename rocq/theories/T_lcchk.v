(* T_lcchk.v: property theorems about checks of light curves, negation and reports (C209 - C212). *)
From Coq Require Import String Ascii.
From Verif Require Import Np Lib S_gti M_gti M_seg M_utils M_lc M_base M_io M_mission M_object S_seg S_object S_lcchk M_lcchk P_gti_cross P_mission P_object P_lcchk.
From Coq Require Import ZArith QArith Qabs List Bool Lia Lqa.
Import ListNotations.
Open Scope Q_scope.
Theorem C209_check_partial : forall (time : list Q) (d : Q) (g : gtis), g <> [] -> well_formed g -> nondecreasing time -> exists w : bool, check_lightcurve time (OneDt d)
  g = Ok w /\ (w = true <-> (exists (a b : Q) (k : nat) (x y : Q), In (a, b) g /\ pair_inside time a b k x y /\ (S (S k) < List.length time)%nat /\ ~ regular d (y - x))).
Proof. exact @check_ok. Qed.
Print Assumptions C209_check_partial.
Theorem C209_regular : forall (time : list Q) (d : Q) (g : gtis), g <> [] -> well_formed g -> nondecreasing time -> (forall (a b : Q) (k : nat) (x y : Q), In (a, b) g ->
  pair_inside time a b k x y -> regular d (y - x)) -> check_lightcurve time (OneDt d) g = Ok false.
Proof. exact @check_regular. Qed.
Print Assumptions C209_regular.
Theorem C209_bin_times : forall (time l : list Q) (g : gtis), g <> [] -> well_formed g -> check_lightcurve time (ManyDt l) g = Ok true.
Proof. exact @check_many. Qed.
Print Assumptions C209_bin_times.
Theorem C209_bad_gtis : forall (time : list Q) (d : bin_time) (g : gtis), ~ (g <> [] /\ well_formed g) -> check_lightcurve time d g = Err ValueError.
Proof. exact @check_bad. Qed.
Print Assumptions C209_bad_gtis.
(* the spacing of the last two bins is never looked at *)
Theorem C209_last_bin_refuted : exists time d a b k x y,
  check_lightcurve time (OneDt d) [(a, b)] = Ok false /\ pair_inside time a b k x y /\ ~ regular d (y - x).
Proof.
  exists [0; 1; 2; 5], 1, (-(1 # 2)), (11 # 2), 2%nat, 2, 5. split; [vm_compute; reflexivity|]. split.
  - split; [reflexivity|split; [reflexivity|split; Lqa.lra]].
  - intros H. apply Qle_bool_iff in H. vm_compute in H. discriminate.
Qed.
Print Assumptions C209_last_bin_refuted.
Example C209_example : check_lightcurve [0; 1; 2; 4; 5; 9] (OneDt 1) [(0, 3); (3, 5)] = Ok false /\
  check_lightcurve [0; 1; 2; 4; 5; 9] (OneDt 1) [(0, 5)] = Ok true /\
  check_lightcurve [0; 1; 2; 4; 5; 9] (OneDt 1) [(0, 3); (2, 5)] = Err ValueError /\ well_formed [(0, 3); (3, 5)].
Proof. repeat match goal with |- _ /\ _ => split end; try (vm_compute; reflexivity). apply (check_gtis_iff [(0, 3); (3, 5)]). reflexivity. Qed.
Example C209_example_sorted : nondecreasing [0; 1; 2; 4; 5; 9].
Proof.
  intros i j x y H Hi Hj. assert (j < 6)%nat by (apply (nth_error_Some [0; 1; 2; 4; 5; 9]); congruence).
  destruct i as [|[|[|[|[|[|i]]]]]]; destruct j as [|[|[|[|[|[|j]]]]]]; try lia; cbn in Hi, Hj; injection Hi as <-; injection Hj as <-; apply Qle_bool_iff; reflexivity.
Qed.
Theorem C210_neg : forall (c : cls) (o : obj) (n : nat), proper o -> long c o n -> (c_gti c = true -> In (list_ascii_of_string "gti") (c_not_array c)) -> exists r : obj,
  obj_neg c o = Ok r /\ map fst r = map fst o /\ (forall (x : str) (s : list nat) (d : list (option Q)), column c o n x -> ~ err_name x -> In (x, VArr s d) o -> exists d' :
  list (option Q), In (x, VArr s d') r /\ Forall2 opposite d d') /\ (forall (x : str) (v : value), In (x, v) o -> (column c o n x -> err_name x) -> In (x, v) r).
Proof. exact @neg_ok. Qed.
Print Assumptions C210_neg.
Theorem C210_twice : forall (c : cls) (o : obj) (n : nat) (r : obj), proper o -> long c o n -> (c_gti c = true -> In (list_ascii_of_string "gti") (c_not_array c)) ->
  obj_neg c o = Ok r -> obj_neg c r = Ok o.
Proof. exact @neg_twice. Qed.
Print Assumptions C210_twice.
Theorem C210_empty : forall (c : cls) (o : obj), attr o (c_main c) = Some VNone -> obj_neg c o = Ok o.
Proof. exact @neg_empty. Qed.
Print Assumptions C210_empty.
Definition ex_cls : cls := mkCls (% "time") [% "gti"] [] true [(% "time", VNone)].
Definition ex_obj : obj := [(% "time", VArr [2%nat] [Some 1; Some 2]); (% "rate", VArr [2%nat] [Some 3; None]);
  (% "rate_err", VArr [2%nat] [Some 1; Some 1]); (% "_x", VArr [2%nat] [Some 3; Some 4]); (% "dt", VNum (Some 1)); (% "gti", VArr [2%nat; 2%nat] [Some 0; Some 1; Some 2; Some 3])].
Example C210_example : proper ex_obj /\ long ex_cls ex_obj 2 /\ (c_gti ex_cls = true -> In (% "gti") (c_not_array ex_cls)) /\
  obj_neg ex_cls ex_obj = Ok [(% "time", VArr [2%nat] [Some 1; Some 2]); (% "rate", VArr [2%nat] [Some (-3); None]);
  (% "rate_err", VArr [2%nat] [Some 1; Some 1]); (% "_x", VArr [2%nat] [Some 3; Some 4]); (% "dt", VNum (Some 1)); (% "gti", VArr [2%nat; 2%nat] [Some 0; Some 1; Some 2; Some 3])].
Proof.
  split; [|split; [|split; [intros _; now left|vm_compute; reflexivity]]].
  - unfold proper. cbn. repeat constructor; cbn; intuition discriminate.
  - exists [], [Some 1; Some 2]. now left.
Qed.
Theorem C211_neg : forall s : lcobj, l_time (lc_neg s) = l_time s /\ l_err (lc_neg s) = l_err s /\ l_gti (lc_neg s) = l_gti s /\ l_mjdref (lc_neg s) = l_mjdref s /\ l_dt
  (lc_neg s) = l_dt s /\ Forall2 (fun a b : Q => a + b == 0) (l_counts s) (l_counts (lc_neg s)) /\ Forall2 Qeq (l_counts s) (l_counts (lc_neg (lc_neg s))).
Proof. exact @lc_neg_ok. Qed.
Print Assumptions C211_neg.
(* what else the light curve carried is lost *)
Theorem C211_rest_refuted : exists s v, In (% "mission", v) (l_rest s) /\ ~ In (% "mission", v) (l_rest (lc_neg s)) /\ ~ In (% "mission", v) (l_rest (lc_neg (lc_neg s))).
Proof.
  exists (mkLco [1; 2] [3; 4] [1; 1] None 0 (OneDt 1) [(% "mission", VText (% "nustar"))]), (VText (% "nustar")).
  split; [now left|]. split; cbn; intuition discriminate.
Qed.
Print Assumptions C211_rest_refuted.
Theorem C211_rest_error : forall s, l_rest (lc_neg s) = lc_defaults.
Proof. reflexivity. Qed.
Print Assumptions C211_rest_error.
Example C211_example : l_counts (lc_neg (mkLco [1; 2] [3; 4] [1; 1] None 0 (OneDt 1) lc_defaults)) = [-3; -4].
Proof. reflexivity. Qed.
Theorem C212_one : forall n : nat, warns_n_ave (OneN n) = true <-> (n < 30)%nat.
Proof. exact @warns_one. Qed.
Print Assumptions C212_one.
Theorem C212_many_error : forall l : list nat, warns_n_ave (ManyN l) = true.
Proof. exact @warns_many. Qed.
Print Assumptions C212_many_error.
(* an array of large numbers of averages is warned about *)
Theorem C212_many_refuted : exists l, l <> [] /\ (forall n, In n l -> (30 <= n)%nat) /\ warns_n_ave (ManyN l) = true.
Proof. exists [100%nat; 200%nat]. split; [discriminate|]. split; [|reflexivity]. intros n [<-|[<-|[]]]; lia. Qed.
Print Assumptions C212_many_refuted.
Example C212_example : warns_n_ave (OneN 29) = true /\ warns_n_ave (OneN 30) = false.
Proof. split; reflexivity. Qed.
Theorem C212_fine : forall (v1 v2 : list Q) (rtol atol : Q), check_allclose_and_print v1 v2 rtol atol = Fine <-> Forall2 (close rtol atol) v1 v2.
Proof. exact @print_fine. Qed.
Print Assumptions C212_fine.
Theorem C212_lengths : forall (v1 v2 : list Q) (rtol atol : Q), List.length v1 <> List.length v2 -> check_allclose_and_print v1 v2 rtol atol = Broken ValueError.
Proof. exact @print_lengths. Qed.
Print Assumptions C212_lengths.
Theorem C212_values : forall (v1 v2 : list Q) (rtol atol : Q), List.length v1 = List.length v2 -> ~ Forall2 (close rtol atol) v1 v2 -> exists (b1 b2 : list Q) (p1 p2 :
  list nat), check_allclose_and_print v1 v2 rtol atol = Differ b1 b2 p1 p2 /\ b1 = map fst (filter (fun p : ivl => qle (atol + rtol * Qabs (snd p)) (Qabs (fst p - snd p)))
  (combine v1 v2)) /\ b2 = map snd (filter (fun p : ivl => qle (atol + rtol * Qabs (snd p)) (Qabs (fst p - snd p))) (combine v1 v2)) /\ (forall x y : Q, In (x, y) (combine
  v1 v2) -> ~ close rtol atol x y -> In (x, y) (combine b1 b2)) /\ (forall x y : Q, In (x, y) (combine b1 b2) -> In (x, y) (combine v1 v2) /\ (~ close rtol atol x y \/ Qabs
  (x - y) == atol + rtol * Qabs y)).
Proof. exact @print_values. Qed.
Print Assumptions C212_values.
(* the indices in the text are not the places of the values that differ *)
Theorem C212_places_refuted : exists v1 v2 b1 b2 p1 p2 i, check_allclose_and_print v1 v2 (1 # 100000) (1 # 100000000) = Differ b1 b2 p1 p2 /\
  In i p1 /\ In i p2 /\ exists x, nth_error v1 i = Some x /\ nth_error v2 i = Some x.
Proof.
  exists [1; 2; 3; 4], [1; 2; 9; 4], [3], [9], [0%nat], [0%nat], 0%nat. split; [vm_compute; reflexivity|].
  split; [now left|]. split; [now left|]. exists 1. now split.
Qed.
Print Assumptions C212_places_refuted.
Example C212_example_print : check_allclose_and_print [1; 2; 3] [1; 2; 3] (1 # 100000) (1 # 100000000) = Fine /\
  check_allclose_and_print [1; 0; 5] [2; 1; 5] (1 # 10) (0) = Differ [1; 0] [2; 1] [0%nat] [0%nat; 1%nat].
Proof. split; vm_compute; reflexivity. Qed.
Theorem C210_error_attrs : forall (c : cls) (o : obj) (n : nat), proper o -> long c o n -> exists l : list str, default_error_attrs c o = Ok l /\ (forall x : str, In x l
  <-> column c o n x /\ err_name x).
Proof. exact @error_attrs. Qed.
Print Assumptions C210_error_attrs.
Theorem C211_rest_names_error : forall s : lcobj, attr (l_rest (lc_neg s)) (list_ascii_of_string "mission") = Some VNone /\ attr (l_rest (lc_neg s)) (list_ascii_of_string
  "instr") = Some VNone /\ attr (l_rest (lc_neg s)) (list_ascii_of_string "header") = Some VNone /\ attr (l_rest (lc_neg s)) (list_ascii_of_string "bg_counts") = Some VNone
  /\ attr (l_rest (lc_neg s)) (list_ascii_of_string "bg_ratio") = Some VNone /\ attr (l_rest (lc_neg s)) (list_ascii_of_string "frac_exp") = Some VNone /\ attr (l_rest
  (lc_neg s)) (list_ascii_of_string "err_dist") = Some (VText (list_ascii_of_string "poisson")).
Proof. exact @rest_names. Qed.
Print Assumptions C211_rest_names_error.
