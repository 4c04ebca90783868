(* P_ls4.v: grid of frequencies, symmetric spectra, Lomb-Scargle cross and power spectra. *)
From Verif Require Import Np M_utils Cplx M_fourier M_norm M_ls S_fourier S_ls P_pcolor2 P_lag P_timmer P_norm P_dft P_seg_cut P_helpers Lib P_ls P_ls2 P_ls3.
From Coq Require Import QArith Qreals Lqa Reals List Arith ZArith Lra Lia.
Import ListNotations.
Open Scope R_scope.

(* ---- frequencies ---- *)
Lemma auto_eval mi ma df dt len nf d s top : spacing df len d -> from_freq mi d s -> to_freq ma dt nf top ->
  autofrequency mi ma df dt len nf = Ok (arange s (top + d) d).
Proof.
  intros D S T. unfold autofrequency.
  assert (E1 : match not_positive df, len with
             | true, None => Err ValueError
             | true, Some l => if qeq l 0 then Err ZeroDivisionError else Ok (1 / l)%Q
             | false, _ => match df with Some d => Ok d | None => Err ValueError end
             end = Ok d).
  { destruct D as [(x & -> & P & ->)|([->|(x & -> & P)] & l & -> & Q & ->)]; cbn [not_positive].
    - rewrite (proj2 (qle_f _ _) P). reflexivity.
    - unfold qeq. destruct (Qeq_bool l 0) eqn:E; [|reflexivity]. apply Qeq_bool_iff in E. exfalso. rewrite E in Q. apply (Qlt_irrefl 0). exact Q.
    - rewrite (proj2 (qle_t _ _) P). unfold qeq. destruct (Qeq_bool l 0) eqn:E; [|reflexivity]. apply Qeq_bool_iff in E. exfalso. rewrite E in Q. apply (Qlt_irrefl 0). exact Q. }
  rewrite E1. cbn [bind].
  assert (E2 : match ma with
              | Some f => Ok f
              | None => match dt with
                        | None => Err ValueError
                        | Some d => if qeq d 0 then Err ValueError else Ok (nf * (1 # 2) / d)%Q
                        end
              end = Ok top).
  { destruct T as [->|(-> & x & -> & N & ->)]; [reflexivity|]. unfold qeq. destruct (Qeq_bool x 0) eqn:E; [apply Qeq_bool_iff in E; contradiction|reflexivity]. }
  rewrite E2. cbn [bind]. do 2 f_equal.
  destruct S as [(x & -> & P & ->)|([->|(x & -> & P)] & ->)]; [rewrite (proj2 (qle_f _ _) P)|..|rewrite (proj2 (qle_t _ _) P)]; reflexivity.
Qed.
Lemma spacing_pos df len d : spacing df len d -> (0 < d)%Q.
Proof. intros [(x & _ & P & ->)|(_ & l & _ & Q & ->)]; [exact P|]. apply Qlt_shift_div_l; [exact Q|]. rewrite Qmult_0_l. reflexivity. Qed.
Theorem auto_values mi ma df dt len nf d s top : spacing df len d -> from_freq mi d s -> to_freq ma dt nf top ->
  exists l, autofrequency mi ma df dt len nf = Ok l /\
    (forall i x, nth_error l i = Some x <-> x = (s + inject_Z (Z.of_nat i) * d)%Q /\ (s + inject_Z (Z.of_nat i) * d < top + d)%Q) /\
    ((s < top + d)%Q -> exists x, In x l /\ (top <= x < top + d)%Q).
Proof.
  intros D S T. exists (arange s (top + d) d). split; [now apply auto_eval with (1 := D)|]. pose proof (spacing_pos _ _ _ D) as P. split.
  - intros i x. split.
    + intros H. destruct (nth_arange _ _ _ _ _ P H) as [-> L]. split; [reflexivity|]. now apply arange_len_spec.
    + intros [-> H]. apply arange_len_spec in H; [|exact P]. unfold arange. exact (nth_seq_map (fun i => (s + inject_Z (Z.of_nat i) * d)%Q) _ _ H).
  - intros H. set (n := arange_len s (top + d) d).
    assert (N0 : (0 < n)%nat) by (apply arange_len_spec; [exact P|]; change (inject_Z (Z.of_nat 0)) with 0%Q; Lqa.lra).
    exists (s + inject_Z (Z.of_nat (n - 1)) * d)%Q.
    assert (A : (s + inject_Z (Z.of_nat (n - 1)) * d < top + d)%Q) by (apply arange_len_spec; [exact P|]; fold n; lia).
    assert (B : ~ (s + inject_Z (Z.of_nat n) * d < top + d)%Q) by (intros C; apply arange_len_spec in C; [fold n in C; lia|exact P]).
    split; [apply in_arange; [exact P|]; exists (n - 1)%nat; auto|]. split; [|exact A]. apply Qnot_lt_le in B.
    replace (Z.of_nat n) with (Z.of_nat (n - 1) + 1)%Z in B by lia. rewrite inject_Z_plus in B. change (inject_Z 1) with 1%Q in B. Lqa.lra.
Qed.
Theorem auto_errors mi ma df dt len nf :
  (df = None \/ exists x, df = Some x /\ (x <= 0)%Q) -> len = None -> autofrequency mi ma df dt len nf = Err ValueError.
Proof. intros [->|(x & -> & P)] ->; unfold autofrequency; cbn [not_positive]; [reflexivity|]. now rewrite (proj2 (qle_t _ _) P). Qed.
Theorem auto_errors2 mi df dt len nf d : spacing df len d -> (dt = None \/ exists x, dt = Some x /\ (x == 0)%Q) -> autofrequency mi None df dt len nf = Err ValueError.
Proof.
  intros D T. unfold autofrequency.
  assert (E1 : match not_positive df, len with
             | true, None => Err ValueError
             | true, Some l => if qeq l 0 then Err ZeroDivisionError else Ok (1 / l)%Q
             | false, _ => match df with Some d => Ok d | None => Err ValueError end
             end = Ok d).
  { destruct D as [(x & -> & P & ->)|([->|(x & -> & P)] & l & -> & Q & ->)]; cbn [not_positive].
    - rewrite (proj2 (qle_f _ _) P). reflexivity.
    - unfold qeq. destruct (Qeq_bool l 0) eqn:E; [|reflexivity]. apply Qeq_bool_iff in E. exfalso. rewrite E in Q. apply (Qlt_irrefl 0). exact Q.
    - rewrite (proj2 (qle_t _ _) P). unfold qeq. destruct (Qeq_bool l 0) eqn:E; [|reflexivity]. apply Qeq_bool_iff in E. exfalso. rewrite E in Q. apply (Qlt_irrefl 0). exact Q. }
  rewrite E1. cbn [bind]. destruct T as [->|(x & -> & Z)]; [reflexivity|]. rewrite (proj2 (qeq_t _ _) Z). reflexivity.
Qed.
Lemma auto_exceeds : exists mi ma df l x, autofrequency (Some mi) (Some ma) (Some df) None None 1 = Ok l /\ (0 < mi)%Q /\ (mi < ma)%Q /\ (0 < df)%Q /\ In x l /\ (ma < x)%Q.
Proof.
  exists (3 # 20)%Q, (1 # 2)%Q, (1 # 10)%Q. eexists. exists ((3 # 20) + inject_Z 4 * (1 # 10))%Q.
  split; [vm_compute; reflexivity|]. repeat split; try reflexivity. vm_compute. tauto.
Qed.

(* ---- symmetric spectra ---- *)
Lemma nth_error_rev {A} (l : list A) i : (i < length l)%nat -> nth_error (rev l) (length l - 1 - i) = nth_error l i.
Proof.
  intros H. destruct l as [|d l0] eqn:E; [cbn in H; lia|]. rewrite <- E in *.
  rewrite (nth_error_nth' (rev l) d) by (rewrite rev_length; lia). rewrite (nth_error_nth' l d) by exact H. f_equal. rewrite rev_nth by lia. f_equal. lia.
Qed.
Theorem both_sides ft freqs : length ft = length freqs -> let N := length freqs in
  length (fst (impose_symmetry ft freqs)) = (2 * N + 1)%nat /\ length (snd (impose_symmetry ft freqs)) = (2 * N + 1)%nat /\
  nth_error (fst (impose_symmetry ft freqs)) N = Some (Some c0) /\ nth_error (snd (impose_symmetry ft freqs)) N = Some 0 /\
  forall i z f, nth_error ft i = Some z -> nth_error freqs i = Some f ->
    nth_error (fst (impose_symmetry ft freqs)) (N + 1 + i) = Some z /\ nth_error (snd (impose_symmetry ft freqs)) (N + 1 + i) = Some f /\
    nth_error (fst (impose_symmetry ft freqs)) (N - 1 - i) = Some (oconj z) /\ nth_error (snd (impose_symmetry ft freqs)) (N - 1 - i) = Some (- f).
Proof.
  intros L N. unfold impose_symmetry. cbn [fst snd]. fold N in L.
  assert (L1 : length (map oconj (rev ft)) = N) by (now rewrite map_length, rev_length).
  assert (L2 : length (rev (map Ropp freqs)) = N) by (now rewrite rev_length, map_length).
  split; [rewrite !app_length; cbn [length]; lia|]. split; [rewrite !app_length; cbn [length]; fold N; lia|].
  split; [rewrite nth_error_app2 by lia; now rewrite L1, Nat.sub_diag|]. split; [rewrite nth_error_app2 by lia; now rewrite L2, Nat.sub_diag|].
  intros i z f HZ HF. assert (I : (i < N)%nat) by (apply nth_error_Some; unfold N; congruence).
  repeat split.
  - rewrite nth_error_app2 by lia. rewrite L1. replace (N + 1 + i - N)%nat with (S i) by lia. exact HZ.
  - rewrite nth_error_app2 by lia. rewrite L2. replace (N + 1 + i - N)%nat with (S i) by lia. exact HF.
  - rewrite nth_error_app1 by lia. rewrite nth_error_map, <- L, nth_error_rev by lia. now rewrite HZ.
  - rewrite nth_error_app1 by lia. replace N with (length (map Ropp freqs)) by (apply map_length). rewrite nth_error_rev by (rewrite map_length; exact I). now rewrite nth_error_map, HF.
Qed.

(* ---- cross spectra ---- *)
Lemma combine_nth2 {A B} (l : list A) (l' : list B) i a b : nth_error l i = Some a -> nth_error l' i = Some b -> nth_error (combine l l') i = Some (a, b).
Proof. apply combine_nth_map. Qed.
Theorem cross_full lsft lc1 lc2 freq f1 f2 : lsft (counts_of lc1) (times_of lc1) freq = Ok f1 -> lsft (counts_of lc2) (times_of lc2) freq = Ok f2 ->
  length f1 = length freq -> length f2 = length freq -> let N := length freq in
  exists half full fr, ls_cross lsft lc1 lc2 freq false = Ok (freq, half) /\ ls_cross lsft lc1 lc2 freq true = Ok (fr, full) /\
    length half = N /\ length full = (2 * N + 1)%nat /\ length fr = (2 * N + 1)%nat /\ nth_error fr N = Some 0 /\ nth_error full N = Some (Some c0) /\
    forall i z f, nth_error half i = Some z -> nth_error freq i = Some f ->
      nth_error full (N + 1 + i) = Some z /\ nth_error fr (N + 1 + i) = Some f /\
      nth_error full (N - 1 - i) = Some (oconj z) /\ nth_error fr (N - 1 - i) = Some (- f).
Proof.
  intros E1 E2 L1 L2 N. unfold ls_cross. rewrite E1, E2. cbn [bind].
  do 3 eexists. split; [reflexivity|]. split; [reflexivity|].
  destruct (both_sides f1 freq L1) as (A1 & A2 & A3 & A4 & A5). destruct (both_sides f2 freq L2) as (B1 & B2 & B3 & B4 & B5). fold N in L1, L2, A1, A2, A3, A4, A5, B1, B2, B3, B4, B5.
  split; [rewrite map_length, combine_length; lia|]. split; [rewrite map_length, combine_length, A1, B1; lia|]. split; [exact B2|]. split; [exact B4|].
  split; [rewrite nth_error_map, (combine_nth2 _ _ _ _ _ A3 B3); cbn; do 2 f_equal; apply cx_eq; unfold cmul, cconj, c0, re, im; cbn; ring|].
  intros i z f HZ HF. assert (I : (i < N)%nat) by (apply nth_error_Some; unfold N; congruence).
  destruct (nth_error f1 i) as [a|] eqn:Ha; [|apply nth_error_None in Ha; lia]. destruct (nth_error f2 i) as [b|] eqn:Hb; [|apply nth_error_None in Hb; lia].
  assert (z = cross_of (a, b)) as -> by (rewrite nth_error_map, (combine_nth2 _ _ _ _ _ Ha Hb) in HZ; cbn [option_map] in HZ; congruence).
  destruct (A5 i a f Ha HF) as (C1 & _ & C3 & _). destruct (B5 i b f Hb HF) as (D1 & D2 & D3 & D4).
  repeat split; [|exact D2| |exact D4].
  - rewrite nth_error_map, (combine_nth2 _ _ _ _ _ C1 D1). reflexivity.
  - rewrite nth_error_map, (combine_nth2 _ _ _ _ _ C3 D3). cbn [option_map]. f_equal. destruct a as [a|], b as [b|]; try reflexivity. cbn. f_equal. apply cx_eq; unfold cmul, cconj, re, im; cbn; ring.
Qed.
Theorem cross_even lc1 lc2 freqs t0 dt n : times_of lc1 = even t0 dt n -> times_of lc2 = even t0 dt n -> length (lc_counts lc1) = n -> length (lc_counts lc2) = n ->
  (0 < n)%nat -> dt <> 0 -> (forall f, In f freqs -> 0 <= f) ->
  exists l, ls_cross (lsft_slow 1) lc1 lc2 freqs false = Ok (freqs, l) /\ length l = length freqs /\
    forall i k, (0 < k < n)%nat -> (2 * k <> n)%nat -> nth_error freqs i = Some (INR k / (INR n * dt)) ->
      nth_error l i = Some (Some (cross_at (counts_of lc1) (counts_of lc2) k)).
Proof.
  intros T1 T2 L1 L2 P D F. unfold ls_cross. assert (NE : even t0 dt n <> []) by (destruct n; [lia|discriminate]).
  assert (C1 : length (counts_of lc1) = n) by (unfold counts_of; now rewrite map_length). assert (C2 : length (counts_of lc2) = n) by (unfold counts_of; now rewrite map_length).
  rewrite T1, T2, !slow_list by (try exact NE; try exact F; rewrite even_len; assumption). cbn [bind].
  eexists. split; [reflexivity|]. split; [rewrite map_length, combine_length, !map_length; lia|].
  intros i k K K2 H. rewrite nth_error_map. erewrite combine_nth2 by (rewrite nth_error_map, H; reflexivity). cbn [option_map].
  rewrite !(even_pos n k dt K K2 D) by (try lra; assumption). cbn [cross_of]. do 2 f_equal. unfold cross_at.
  set (a := dft (counts_of lc1) k). set (b := dft (counts_of lc2) k). set (th := 2 * _). pose proof (sin2_cos2 th) as U. unfold Rsqr in U.
  apply cx_eq; unfold cmul, cconj, re, im; cbn [fst snd].
  - transitivity ((sin th * sin th + cos th * cos th) * (fst a * fst b + snd a * snd b)); [ring|rewrite U; ring].
  - transitivity ((sin th * sin th + cos th * cos th) * (fst a * snd b - snd a * fst b)); [ring|rewrite U; ring].
Qed.
