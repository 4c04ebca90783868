(* P_segan4.v: cases in which the methods of M_segan.v do not do what their documentation says. *)
From Verif Require Import Np Lib S_gti S_seg S_base S_flux S_segan M_gti M_seg M_merge M_utils M_lc M_base M_segan P_gti_cross P_gti_final P_seg_cut P_segan.
From Coq Require Import Lqa Lia.
Open Scope Q_scope.
Definition ev (times : list Q) (g : gtis) : series := mkSeries times [] [] 0 (Some g) 0 None None.
Definition srt0 := isort_by t_end.

Fixpoint incr_b (l : list Q) : bool := match l with [] => true | a :: l' => (forallb (qlt a) l' && incr_b l')%bool end.
Lemma incr_dec l : incr_b l = true -> increasing l.
Proof.
  unfold increasing. rewrite <- (ss_nth Qlt l). induction l as [|a l IH]; [constructor|]. cbn [incr_b]. intros H. apply andb_true_iff in H. destruct H as [H H'].
  constructor; [auto|]. rewrite forallb_forall in H. apply Forall_forall. intros x Hx. now apply qlt_t, H.
Qed.
(* a segment with one sample has a start time but no result *)
Lemma analyze_misaligned : exists s st en res,
  analyze_segments false srt0 (fun s => Ok (length (s_time s))) s (Some 10) 1 = Ok (st, en, res) /\ length st = 3%nat /\ length res = 2%nat.
Proof. exists (ev [1; 2; 3; 12; 21; 22; 23] [(0, 30)]). eexists _, _, _. split; [vm_compute; reflexivity|]. split; reflexivity. Qed.
(* binned data: the stop time of a segment lies after the start of the next *)
Lemma analyze_overlap : exists s st en (res : list nat) a b, s_dt s == 1 /\ gti_of s = Some [(1 # 2, 9 # 2)] /\
  analyze_segments false srt0 (fun s => Ok (length (s_time s))) s (Some 2) 1 = Ok (st, en, res) /\
  nth_error en 0 = Some a /\ nth_error st 1 = Some b /\ a == b + 1 /\ exists c, nth_error en 1 = Some c /\ (9 # 2) < c.
Proof.
  exists (mkSeries [1; 2; 3; 4] [] [] 1 (Some [(1 # 2, 9 # 2)]) 0 None None). eexists _, _, _, _, _. split; [reflexivity|]. split; [reflexivity|].
  split; [vm_compute; reflexivity|]. split; [reflexivity|]. split; [reflexivity|]. split; [reflexivity|]. eexists. split; [reflexivity|]. reflexivity.
Qed.
(* the first list equal to the GTIs: one series comes out, whatever the other lists, and its GTIs are not the list *)
Lemma apply_lists_single lc srt s g l : gti_of s = Some g -> close_lists g g = true ->
  apply_gti_lists lc srt s (g :: l) = apply_gti_lists lc srt s [g].
Proof. intros Hg C. unfold apply_gti_lists. cbn [get nth_error bind]. rewrite Hg, C. reflexivity. Qed.
Lemma close_refl g : close_lists g g = true.
Proof.
  unfold close_lists. rewrite Nat.eqb_refl. cbn [andb]. generalize (flatten g). intros l. induction l as [|a l IH]; [reflexivity|]. cbn [zip_with forallb].
  rewrite IH, andb_true_r. apply qlt_t. assert (E : a - a == 0) by ring. rewrite E. reflexivity.
Qed.
Lemma apply_lists_dropped : exists s l out, gti_of s = Some [(0, 30)] /\ l = [[(0, 30)]; [(0, 10)]] /\
  apply_gti_lists false srt0 s l = Ok out /\ length out = 1%nat /\ forall x, In x out -> s_gti x <> Some [(0, 30)].
Proof.
  exists (ev [1; 2; 3; 12; 21; 22; 23] [(0, 30)]). eexists _, _. split; [reflexivity|]. split; [reflexivity|]. split; [vm_compute; reflexivity|]. split; [reflexivity|].
  intros x [<-|[]]. discriminate.
Qed.
(* two samples at the end of the interval: one is lost *)
Lemma apply_lists_ties : exists s out x, gti_of s = Some [(0, 30)] /\ nondecreasing (s_time s) /\
  apply_gti_lists false srt0 s [[(0, 2)]] = Ok out /\ out = [x] /\ length (filter (in_closed 0 2) (s_time s)) = 3%nat /\ length (s_time x) = 2%nat.
Proof.
  exists (ev [1; 2; 2; 3] [(0, 30)]). eexists _, _. split; [reflexivity|]. split; [apply is_sorted_iff; reflexivity|]. split; [vm_compute; reflexivity|]. split; [reflexivity|]. split; reflexivity.
Qed.
Lemma apply_lists_empty : exists s, gti_of s = Some [(0, 30)] /\ good [(0, 30)] /\ increasing (s_time s) /\ apply_gti_lists false srt0 s [[(13, 14)]] = Err TypeError.
Proof.
  exists (ev [1; 2; 3; 12; 21; 22; 23] [(0, 30)]). split; [reflexivity|]. split; [apply good_dec; reflexivity|]. split; [|vm_compute; reflexivity].
  apply incr_dec. reflexivity.
Qed.
(* segments with one sample are not checked *)
Lemma estimate_unchecked : exists s size st a, good [(0, 10)] /\ gti_of s = Some [(0, 10)] /\ s_dt s == 0 /\ nondecreasing (s_time s) /\
  estimate_segment_size 10 false false srt0 0 s (Some 3) (Some 5) None = Ok size /\
  time_intervals_from_gtis [(0, 10)] size 1 (1 # 100000) = Ok (st, map (fun x => x + size) st) /\ In a st /\ window_sum 0 s a (a + size) < 3.
Proof.
  exists (ev [1; 2; 5 # 2; 3; 4; 7] [(0, 10)]), 5, [0 + inject_Z 0 * (5 * 1); 0 + inject_Z 1 * (5 * 1)], (0 + inject_Z 1 * (5 * 1)).
  split; [apply good_dec; reflexivity|]. split; [reflexivity|]. split; [reflexivity|]. split; [apply is_sorted_iff; reflexivity|].
  split; [vm_compute; reflexivity|]. split; [vm_compute; reflexivity|]. split; [right; now left|]. vm_compute. reflexivity.
Qed.
(* the minimum number of samples is used as a number of seconds *)
Lemma estimate_samples : exists s size, good [(0, 8)] /\ gti_of s = Some [(0, 8)] /\ s_dt s == 0 /\ increasing (s_time s) /\
  estimate_segment_size 10 false false srt0 0 s (Some 2) (Some 4) None = Ok size /\ samples_in (s_time s) 0 size = 2%nat.
Proof.
  exists (ev [1; 3; 5; 7] [(0, 8)]), 4. split; [apply good_dec; reflexivity|]. split; [reflexivity|]. split; [reflexivity|]. split; [apply incr_dec; reflexivity|].
  split; vm_compute; reflexivity.
Qed.
