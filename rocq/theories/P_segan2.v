(* P_segan2.v: more proofs about M_segan.v: binned data, lists of GTIs, estimate of the segment size. *)
From Coq Require Import Lqa Lia Permutation.
From Verif Require Import Np Lib S_gti S_seg S_base S_flux S_segan M_gti M_seg M_merge M_utils M_lc M_base M_segan P_gti_cross P_gti_final P_seg_cut P_seg_regions P_base2 P_base3 P_helpers P_flux P_seg_bins P_segan.
Open Scope Q_scope.

(* ---- binned data ---- *)
Lemma increasing_nondec l : increasing l -> nondecreasing l.
Proof. intros H i j x y Hij Hx Hy. pose proof (H i j x y Hij Hx Hy). lra. Qed.
Lemma analyze_ranges {A} lc srt (f : series -> A) s g segs : sorts_by t_end srt -> good g -> gti_of s = Some g ->
  nondecreasing (s_time s) -> 0 <= s_dt s -> regular s -> forall n,
  (forall i j iv, In (i, j, iv) segs -> j = (i + n)%nat /\ (j <= length (s_time s))%nat) ->
  analyze_loop lc srt (fun x => Ok (f x)) s segs =
  Ok (if Nat.ltb n 2 then [] else map (fun p => f (piece_of lc (range_flags (length (s_time s)) (fst (fst p)) (fst (fst p) + n)) [snd p] s)) segs).
Proof.
  intros Hs G Hg Ht Hd R n. induction segs as [|[[i j] [a b]] segs IH]; intros H; [destruct (Nat.ltb n 2); reflexivity|]. cbn [analyze_loop].
  destruct (H i j (a, b) (or_introl eq_refl)) as [-> Hj]. rewrite IH by (intros i' j' iv Hin; apply (H i' j' iv); now right). clear IH.
  destruct (Nat.ltb_spec n 2) as [L|L].
  - destruct (Z.leb_spec (Z.of_nat (i + n) - Z.of_nat i) 1); [reflexivity|lia].
  - destruct (Z.leb_spec (Z.of_nat (i + n) - Z.of_nat i) 1); [lia|].
    destruct (item_piece lc srt s i (i + n) g (range_flags (length (s_time s)) i (i + n)) [(a, b)] Hs G Hg Ht Hd R ltac:(lia) Hj) as (x & Ex & Px).
    + unfold range_flags. now rewrite map_length, seq_length.
    + intros k c. apply range_flags_nth.
    + rewrite Ex. cbn [bind]. rewrite Px. cbn [bind map fst snd]. reflexivity.
Qed.
Lemma zget_nat {A} (l : list A) i a : zget l (Z.of_nat i) = Ok a <-> nth_error l i = Some a.
Proof. unfold zget. destruct (Z.leb_spec 0 (Z.of_nat i)); [|lia]. rewrite Nat2Z.id. apply get_nth. Qed.
Lemma analyze_binned {A} lc srt (f : series -> A) s g seg starts stops res : sorts_by t_end srt -> good g -> gti_of s = Some g ->
  increasing (s_time s) -> 0 < s_dt s -> regular s ->
  analyze_segments lc srt (fun x => Ok (f x)) s (Some seg) 1 = Ok (starts, stops, res) ->
  let n := Z.to_nat (rint (seg / s_dt s)) in
  exists segs : list (nat * (Q * Q)),
    starts = map (fun p => fst (snd p)) segs /\ stops = map (fun p => snd (snd p)) segs /\
    res = (if Nat.ltb n 2 then [] else map (fun p => f (piece_of lc (range_flags (length (s_time s)) (fst p) (fst p + n)) [snd p] s)) segs) /\
    (forall i a b, In (i, (a, b)) segs -> exists t t', nth_error (s_time s) i = Some t /\ nth_error (s_time s) (i + n - 1) = Some t' /\
       a == t - s_dt s / 2 /\ b == t' + s_dt s / 2 + s_dt s) /\
    (forall i, In i (map fst segs) -> exists a b, In (a, b) g /\
       forall k, (i <= k < i + n)%nat -> exists t, nth_error (s_time s) k = Some t /\ bin_inside t (s_dt s) ((1 # 1000) * s_dt s) a b) /\
    (forall p q i j, (p < q)%nat -> nth_error (map fst segs) p = Some i -> nth_error (map fst segs) q = Some j -> (i + n <= j)%nat) /\
    (forall a b p, In (a, b) g -> seg <= b - a + 3 * (1 # 1000) * s_dt s ->
       (forall k, (p <= k < p + n)%nat -> exists t, nth_error (s_time s) k = Some t /\ bin_inside t (s_dt s) ((1 # 1000) * s_dt s) a b) ->
       exists i, In i (map fst segs) /\ (i <= p < i + n)%nat).
Proof.
  intros Hs G Hg Hi Hd R E n. unfold analyze_segments in E. rewrite Hg in E.
  assert (Z : qlt 0 (s_dt s) = true) by (apply qlt_t; exact Hd). rewrite Z in E.
  apply bind_ok in E. destruct E as (segs & E1 & E). apply bind_ok in E1. destruct E1 as ([st en] & Eb & E1). cbn [fst snd] in E1.
  apply bind_ok in E. destruct E as (r & Er & E).
  destruct G as (G1 & G2 & G3). assert (G : good g) by (split; [assumption|split; assumption]).
  destruct (bin_intervals_main g seg (s_time s) (s_dt s) (1 # 1000) st en Hd ltac:(lra) ltac:(lra) G2 Hi Eb) as (A1 & A2 & A3 & A4 & A5 & A6).
  fold n in A1, A3, A4, A5, A6.
  assert (S1 : map (fun x : nat * nat * (Q * Q) => fst (fst x)) segs = st /\ forall i j a b, In (i, j, (a, b)) segs ->
     j = (i + n)%nat /\ exists t t', nth_error (s_time s) i = Some t /\ nth_error (s_time s) (i + n - 1) = Some t' /\ a == t - s_dt s / 2 /\ b == t' + s_dt s / 2 + s_dt s).
  { clear Er E Eb A2 A4 A5 A6. subst en. revert segs E1. induction st as [|i st IH]; intros segs E1; [injection E1 as <-; split; [reflexivity|intros ? ? ? ? []]|].
    cbn [map combine map_result] in E1. apply bind_ok in E1. destruct E1 as (x & Ex & E1). apply bind_ok in E1. destruct E1 as (rest & Erest & E1). injection E1 as <-.
    apply bind_ok in Ex. destruct Ex as (ta & Ea & Ex). apply bind_ok in Ex. destruct Ex as (tz & Ez & Ex). injection Ex as <-. cbn [fst snd] in *.
    apply zget_nat in Ea. replace (Z.of_nat (i + n) - 1)%Z with (Z.of_nat (i + n - 1)) in Ez by lia. apply zget_nat in Ez.
    destruct (IH rest Erest) as [I1 I2]. split; [cbn [map fst]; now f_equal|]. intros i' j' a b [H|H]; [|now apply (I2 i' j' a b)].
    injection H as <- <- <- <-. split; [reflexivity|]. exists ta, tz. split; [assumption|]. split; [assumption|]. split; field. }
  destruct S1 as [S1 S2].
  destruct (touch_fields s g Hg) as (T1 & T2 & T3 & T4 & T5 & T6 & T7).
  assert (S3 : forall i j iv, In (i, j, iv) segs -> j = (i + n)%nat /\ (j <= length (s_time (touch s)))%nat).
  { intros i j [a b] Hin. destruct (S2 i j a b Hin) as (-> & t & t' & _ & N & _). split; [reflexivity|]. rewrite T2.
    assert ((i + n - 1 < length (s_time s))%nat) by (apply nth_error_Some; congruence). lia. }
  rewrite (analyze_ranges lc srt f (touch s) g segs Hs G T1) with (n := n) in Er; [|rewrite T2; now apply increasing_nondec|rewrite T5; lra|now apply T7|exact S3].
  exists (map (fun x : nat * nat * (Q * Q) => (fst (fst x), snd x)) segs).
  assert (IO : forall x y : list Q * list Q * list A, Ok x = Ok y -> x = y) by congruence. apply IO in E.
  assert (IO2 : forall x y : list A, Ok x = Ok y -> x = y) by congruence. apply IO2 in Er.
  assert (Es : map fst (map (fun x : nat * nat * (Q * Q) => (fst (fst x), snd x)) segs) = st) by (rewrite map_map; cbn [fst]; exact S1).
  split; [rewrite map_map; cbn [snd fst]; congruence|]. split; [rewrite map_map; cbn [snd fst]; congruence|].
  split. { assert (X : res = r) by congruence. rewrite X, <- Er. destruct (Nat.ltb n 2); [reflexivity|]. rewrite map_map. reflexivity. }
  split. { intros i a b Hin. apply in_map_iff in Hin. destruct Hin as ([[i' j'] iv] & Hx & Hin). cbn in Hx. injection Hx as -> ->.
    destruct (S2 _ _ _ _ Hin) as (_ & t & t' & P). exists t, t'. exact P. }
  rewrite Es. split; [exact A4|]. split; [exact A5|exact A6].
Qed.

(* ---- lists of GTIs ---- *)
Lemma closed_flags times lo hi : increasing times -> (exists t, In t times /\ lo <= t /\ t <= hi) ->
  let i := searchsorted_left times lo in
  let u := Z.of_nat (searchsorted_left times hi) in
  let u := if (u =? Z.of_nat (length times))%Z then (u - 1)%Z else u in
  exists t v, zget times u = Ok t /\ (if qlt hi t then (u - 1)%Z else u) = Z.of_nat v /\ (i <= v)%nat /\ (v < length times)%nat /\
  forall k b, nth_error (map (in_closed lo hi) times) k = Some b -> ((i <= k < v + 1)%nat <-> b = true).
Proof.
  intros Hi (t0 & Hin & Hlo & Hhi) i u0 u. pose proof (increasing_nondec _ Hi) as Ht.
  destruct (ssl_spec times lo Ht) as [A1 A2]. destruct (ssl_spec times hi Ht) as [B1 B2]. fold i in A1, A2. unfold u0 in *. set (j := searchsorted_left times hi) in *.
  apply In_nth_error in Hin. destruct Hin as (k0 & Hk0).
  assert (K0 : (k0 < length times)%nat) by (apply nth_error_Some; congruence).
  assert (Ik0 : (i <= k0)%nat) by (destruct (le_lt_dec i k0) as [L|L]; [assumption|]; apply (A1 _ _ Hk0) in L; lra).
  assert (Fl : forall k t, nth_error times k = Some t -> (i <= k)%nat <-> lo <= t).
  { intros k t Hk. destruct (A1 _ _ Hk) as [C1 C2]. split.
    - intros L. apply Qnot_lt_le. intros C. apply C2 in C. lia.
    - intros C. destruct (le_lt_dec i k) as [L|L]; [assumption|]. apply C1 in L. lra. }
  assert (Fin : forall v, (forall k t, nth_error times k = Some t -> ((k < v + 1)%nat <-> t <= hi)) ->
    forall k b, nth_error (map (in_closed lo hi) times) k = Some b -> ((i <= k < v + 1)%nat <-> b = true)).
  { intros v Hv k b Hb. rewrite nth_error_map in Hb. destruct (nth_error times k) as [t|] eqn:E; [|discriminate]. cbn in Hb. injection Hb as <-.
    unfold in_closed. rewrite andb_true_iff, !qle_t, <- (Fl k t E), <- (Hv k t E). reflexivity. }
  unfold u. destruct (Z.eqb_spec (Z.of_nat j) (Z.of_nat (length times))) as [E|E].
  - destruct (nth_error_ex times (length times - 1)) as [t Et]; [lia|].
    assert (Lt : t < hi) by (apply (B1 _ _ Et); lia).
    exists t, (length times - 1)%nat. replace (Z.of_nat j - 1)%Z with (Z.of_nat (length times - 1)) by lia. split; [now apply zget_nat|].
    assert (Q1 : qlt hi t = false) by (destruct (qlt hi t) eqn:Q1; [qb; lra|reflexivity]). rewrite Q1. split; [reflexivity|]. split; [lia|]. split; [lia|].
    apply Fin. intros k x Hk. assert ((k < length times)%nat) by (apply nth_error_Some; congruence). split; [|lia]. intros _.
    assert (x < hi) by (apply (B1 _ _ Hk); lia). lra.
  - assert (Lj : (j < length times)%nat) by lia. destruct (nth_error_ex times j Lj) as [t Et].
    assert (Ge : hi <= t). { apply Qnot_lt_le. intros C. apply (B1 _ _ Et) in C. lia. }
    destruct (qlt hi t) eqn:Q1.
    + qb. assert (Kj : (k0 < j)%nat).
      { destruct (Qlt_le_dec t0 hi) as [C|C]; [now apply (B1 _ _ Hk0)|]. destruct (lt_eq_lt_dec k0 j) as [[C1|C1]|C1]; [assumption| |].
        - subst k0. assert (t = t0) by congruence. subst. lra.
        - pose proof (Hi _ _ _ _ C1 Et Hk0). lra. }
      exists t, (j - 1)%nat. split; [now apply zget_nat|]. assert (Q2 : qlt hi t = true) by (apply qlt_t; assumption). rewrite Q2. split; [lia|]. split; [lia|]. split; [lia|].
      apply Fin. intros k x Hk. replace (j - 1 + 1)%nat with j by lia. rewrite (B1 _ _ Hk). split; [intros; lra|]. intros C.
      destruct (Qlt_le_dec x hi) as [D|D]; [assumption|]. exfalso. destruct (lt_eq_lt_dec k j) as [[C1|C1]|C1].
      * apply (B1 _ _ Hk) in C1. lra.
      * subst k. assert (x = t) by congruence. subst. lra.
      * pose proof (Hi _ _ _ _ C1 Et Hk). lra.
    + qb. exists t, j. split; [now apply zget_nat|]. assert (Q2 : qlt hi t = false) by (destruct (qlt hi t) eqn:Q3; [qb; lra|reflexivity]). rewrite Q2. split; [reflexivity|].
      assert (Et2 : t == hi) by lra.
      split. { apply (Fl _ _ Et). lra. } split; [assumption|].
      apply Fin. intros k x Hk. destruct (lt_eq_lt_dec k j) as [[C1|C1]|C1].
      * split; [|lia]. intros _. apply (B1 _ _ Hk) in C1. lra.
      * subst k. assert (x = t) by congruence. subst. split; [intros; lra|lia].
      * pose proof (Hi _ _ _ _ C1 Et Hk). split; [lia|]. intros; lra.
Qed.
(* first start and last end of a list of intervals *)
Definition first_start (g : gtis) : Q := match g with iv :: _ => fst iv | [] => 0 end.
Definition last_end (g : gtis) : Q := match g with iv :: _ => snd (last g iv) | [] => 0 end.
Lemma apply_loop_main lc srt s g l : sorts_by t_end srt -> good g -> gti_of s = Some g -> increasing (s_time s) -> 0 <= s_dt s -> regular s ->
  (forall h, In h l -> h <> [] -> exists t, In t (s_time s) /\ first_start h <= t /\ t <= last_end h) ->
  apply_lists_loop lc srt s l =
  Ok (map (fun h => piece_of lc (map (in_closed (first_start h) (last_end h)) (s_time s)) h s) (filter (fun h => match h with [] => false | _ => true end) l)).
Proof.
  intros Hs G Hg Hi Hd R. induction l as [|h l IH]; intros H; [reflexivity|].
  assert (H' : forall h, In h l -> h <> [] -> exists t, In t (s_time s) /\ first_start h <= t /\ t <= last_end h) by (intros h' Hin; apply H; now right).
  destruct h as [|g0 h]; [cbn [apply_lists_loop filter]; now apply IH|]. cbn [apply_lists_loop filter map].
  destruct (closed_flags (s_time s) (first_start (g0 :: h)) (last_end (g0 :: h)) Hi (H _ (or_introl eq_refl) ltac:(discriminate))) as (t & v & Et & Ev & Iv & Lv & F).
  cbn [first_start last_end] in Et, Ev, Iv, F |- *. rewrite Et. cbn [bind]. rewrite Ev.
  destruct (item_piece lc srt s (searchsorted_left (s_time s) (fst g0)) (v + 1) g (map (in_closed (fst g0) (snd (last (g0 :: h) g0))) (s_time s)) (g0 :: h) Hs G Hg
     (increasing_nondec _ Hi) Hd R ltac:(lia) ltac:(lia) ltac:(now rewrite map_length) F) as (x & Ex & Px).
  replace (Z.of_nat v + 1)%Z with (Z.of_nat (v + 1)) by lia. rewrite Ex. cbn [bind]. rewrite (IH H'). cbn [bind]. now rewrite Px.
Qed.
Lemma apply_lists_main lc srt s g h l : sorts_by t_end srt -> good g -> gti_of s = Some g -> increasing (s_time s) -> 0 <= s_dt s -> regular s ->
  close_lists h g = false ->
  (forall h', In h' (h :: l) -> h' <> [] -> exists t, In t (s_time s) /\ first_start h' <= t /\ t <= last_end h') ->
  apply_gti_lists lc srt s (h :: l) =
  Ok (map (fun h => piece_of lc (map (in_closed (first_start h) (last_end h)) (s_time s)) h s) (filter (fun h => match h with [] => false | _ => true end) (h :: l))).
Proof.
  intros Hs G Hg Hi Hd R C H. unfold apply_gti_lists. cbn [get nth_error bind]. rewrite Hg, C.
  destruct (touch_fields s g Hg) as (T1 & T2 & T3 & T4 & T5 & T6 & T7).
  rewrite (apply_loop_main lc srt (touch s) g (h :: l) Hs G T1); [|now rewrite T2|rewrite T5; lra|now apply T7|now rewrite T2]. rewrite T2. reflexivity.
Qed.
Lemma filter_unchecked lc srt s g ivs : sorts_by t_end srt -> good g -> gti_of s = Some g -> increasing (s_time s) -> 0 <= s_dt s -> regular s -> ivs <> [] ->
  (forall iv, hd_error ivs = Some iv -> close_lists [iv] g = false) ->
  (forall a b, In (a, b) ivs -> exists t, In t (s_time s) /\ a <= t /\ t <= b) ->
  filter_at_time_intervals lc srt s ivs false = Ok (map (fun iv => piece_of lc (map (in_closed (fst iv) (snd iv)) (s_time s)) [iv] s) ivs).
Proof.
  intros Hs G Hg Hi Hd R N C H. unfold filter_at_time_intervals. rewrite Hg. cbn [bind]. destruct ivs as [|iv ivs]; [contradiction|].
  cbn [map]. rewrite (apply_lists_main lc srt s g [iv] (map (fun iv => [iv]) ivs) Hs G Hg Hi Hd R (C iv eq_refl)).
  - f_equal. assert (X : forall (l : gtis), filter (fun h : gtis => match h with [] => false | _ => true end) (map (fun iv => [iv]) l) = map (fun iv => [iv]) l).
    { intros m. induction m as [|a m IH]; [reflexivity|]. cbn. now rewrite IH. }
    change ([iv] :: map (fun iv => [iv]) ivs) with (map (fun iv : ivl => [iv]) (iv :: ivs)). rewrite X, map_map. reflexivity.
  - intros h' Hin _. change ([iv] :: map (fun iv => [iv]) ivs) with (map (fun iv : ivl => [iv]) (iv :: ivs)) in Hin. apply in_map_iff in Hin.
    destruct Hin as ([a b] & <- & Hin). cbn [first_start last_end last fst snd]. now apply H.
Qed.

(* ---- number of samples in a piece ---- *)
Lemma all_true (m : list bool) n : length m = n -> (forall i, (i < n)%nat -> nth_error m i = Some true) -> m = repeat true n.
Proof.
  revert n. induction m as [|b m IH]; intros [|n] L H; try discriminate; [reflexivity|]. pose proof (H 0%nat ltac:(lia)) as H0. cbn in H0. injection H0 as ->.
  cbn [repeat]. f_equal. apply IH; [now injection L|]. intros i Hi. apply (H (S i)). lia.
Qed.
Lemma select_all {A} (l : list A) n : length l = n -> select l (repeat true n) = l.
Proof. revert n. induction l as [|a l IH]; intros [|n] L; try discriminate; [reflexivity|]. cbn. f_equal. apply IH. now injection L. Qed.
