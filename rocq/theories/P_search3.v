(* P_search3.v: proofs about the pulsation searches: the value of every cell. *)
From Coq Require Import Reals Qreals.
From Verif Require Import Np Lib S_lc S_fold M_gti M_utils M_lc M_seg M_fold P_fold P_fold2 Cplx S_fourier S_zn M_zn P_zn P_helpers P_filters M_search S_search S_search2 P_search P_search2.
From Coq Require Import List Bool Arith Permutation Lia Lra.
Import ListNotations.
Open Scope Q_scope.

Lemma table_shape freqs fdots h (m : option R -> option R) :
  match table freqs fdots h with
  | [row] => Ok (Flat (map (fun c => fst (fst c)) row) (map (fun c => m (snd c)) row))
  | _ => Ok (Grid (map (map (fun c => fst (fst c))) (table freqs fdots h)) (map (map (fun c => snd (fst c))) (table freqs fdots h)) (map (map (fun c => m (snd c))) (table freqs fdots h)))
  end = Ok (shaped freqs fdots (fun f fd => m (h f fd))).
Proof.
  assert (E1 : forall l, map (map (fun c => fst (fst c))) (table freqs l h) = map (fun _ => freqs) l).
  { intros l. unfold table. rewrite map_map. apply map_ext. intros x. rewrite map_map. apply map_id. }
  assert (E2 : forall l, map (map (fun c => snd (fst c))) (table freqs l h) = map (fun fd => map (fun _ => fd) freqs) l).
  { intros l. unfold table. rewrite map_map. apply map_ext. intros x. rewrite map_map. reflexivity. }
  assert (E3 : forall l, map (map (fun c => m (snd c))) (table freqs l h) = map (fun fd => map (fun f => m (h f fd)) freqs) l).
  { intros l. unfold table. rewrite map_map. apply map_ext. intros x. rewrite map_map. reflexivity. }
  destruct fdots as [|a [|b r]].
  - reflexivity.
  - specialize (E1 [a]). specialize (E3 [a]). unfold shaped. cbn [table map] in *. injection E1 as E1. injection E3 as E3. rewrite E1, E3. reflexivity.
  - transitivity (Ok (Grid (map (map (fun c => fst (fst c))) (table freqs (a :: b :: r) h)) (map (map (fun c => snd (fst c))) (table freqs (a :: b :: r) h)) (map (map (fun c => m (snd c))) (table freqs (a :: b :: r) h)))); [reflexivity|].
    rewrite E1, E2, E3. reflexivity.
Qed.
(* a statistic given by a function of the events of each window *)
Lemma search_generic stat g times w freqs fdots size t0 tl : get times 0 = Ok t0 -> get_last times = Ok tl -> t0 < tl ->
  (match size with Some s => 0 < s | None => True end) -> length w = length times ->
  (forall p ev f fd, let ts := map (fun t => t - t0) times in
     ev = filter (fun e => p (fst e)) (combine ts w) -> (2 <= length ev)%nat -> (forall n, covers n (window_length size (tl - t0)) (tl - t0) -> In ev (windows (window_length size (tl - t0)) n (events_of t0 times w))) ->
     In f freqs -> In fd fdots ->
     stat ts (map p ts) f fd = Ok (g ev f fd)) ->
  let len := window_length size (tl - t0) in
  exists n, covers n len (tl - t0) /\
    folding_search stat times freqs size fdots =
    Ok (shaped freqs fdots (fun f fd => let ws := windows len n (events_of t0 times w) in mean_of (length ws) (fold_left (fun a ev => oadd a (g ev f fd)) ws (Some 0%R)))).
Proof.
  intros G0 Gl Hlt Hs L H len. destruct (masks_exact times size t0 tl G0 Gl Hlt Hs) as (n & ks & Hn & M). cbv zeta in M. fold len in Hn, M. destruct M as (M & W & Two).
  exists n. split; [exact Hn|]. unfold folding_search. rewrite M. cbn [bind fst snd]. specialize (W w L). assert (W0 := W). rewrite W. clear W.
  change (map (fun fd => map (fun f => (f, fd, Some 0%R)) freqs) fdots) with (table freqs fdots (fun _ _ => Some 0%R)).
  set (inw := fun k t => (qle (inject_Z (Z.of_nat k) * len) t && qlt t ((inject_Z (Z.of_nat k) + 1) * len))%bool) in *.
  set (ts := map (fun t => t - t0) times) in *.
  assert (Lw : length w = length ts) by (unfold ts; rewrite map_length; exact L).
  assert (A : forall ks', incl ks' ks -> forall h, add_segments (stat ts) (map (fun k => map (inw k) ts) ks') (table freqs fdots h) =
     Ok (table freqs fdots (fun f fd => fold_left (fun a ev => oadd a (g ev f fd)) (map (fun k => window len k (events_of t0 times w)) ks') (h f fd)))).
  { induction ks' as [|k ks' IH]; intros Hi h; [reflexivity|]. cbn [map add_segments].
    rewrite (add_segment_table _ (fun f fd => g (window len k (events_of t0 times w)) f fd)).
    - cbn [bind]. rewrite IH by (intros x Hx; apply Hi; now right). reflexivity.
    - intros f fd Hf Hfd. apply (H (inw k)); [reflexivity| | |exact Hf|exact Hfd].
      2:{ intros m Cm. fold len. fold len in Cm. rewrite (covers_unique _ _ _ _ Cm Hn), W0. apply in_map_iff. exists k. split; [reflexivity|]. apply Hi. now left. }
      assert (T := Two k (Hi k (or_introl eq_refl))). destruct (select_pairs (inw k) ts w Lw) as [E1 _]. destruct (select_pairs (inw k) ts ts eq_refl) as [E2 _].
      apply (f_equal (@length _)) in E1. rewrite map_length in E1. unfold window, events_of. fold ts. change (2 <= length (filter (fun e => inw k (fst e)) (combine ts w)))%nat.
      rewrite <- E1, E2. rewrite map_length. rewrite <- (map_length fst). replace (map fst (filter (fun e => inw k (fst e)) (combine ts ts))) with (filter (inw k) ts); [exact T|].
      clear. induction ts as [|a l IH]; [reflexivity|]. cbn. destruct (inw k a); cbn; rewrite IH; reflexivity. }
  rewrite (A ks (incl_refl _)). cbn [bind]. rewrite !map_length. cbv zeta.
  set (h := fun f fd => fold_left (fun a ev => oadd a (g ev f fd)) (map (fun k => window len k (events_of t0 times w)) ks) (Some 0%R)).
  apply table_shape.
Qed.
Lemma window_mean (g : list (Q * Q) -> R) ws : mean_of (length ws) (fold_left (fun a ev => oadd a (Some (g ev))) ws (Some 0%R)) = window_average g ws.
Proof.
  rewrite fold_oadd. unfold mean_of, window_average. destruct ws as [|x ws]; [reflexivity|]. cbn [length Nat.eqb option_map]. f_equal. f_equal. ring.
Qed.
Lemma shaped_ext freqs fdots h h' : (forall f fd, In f freqs -> In fd fdots -> h f fd = h' f fd) -> shaped freqs fdots h = shaped freqs fdots h'.
Proof.
  intros H. assert (A : forall fd, In fd fdots -> map (fun f => h f fd) freqs = map (fun f => h' f fd) freqs) by (intros fd Hfd; apply map_ext_in; intros f Hf; now apply H).
  assert (B := map_ext_in (fun fd => map (fun f => h f fd) freqs) (fun fd => map (fun f => h' f fd) freqs) fdots A).
  unfold shaped. destruct fdots as [|a [|b r]].
  - reflexivity.
  - rewrite (A a (or_introl eq_refl)). reflexivity.
  - rewrite B. reflexivity.
Qed.
(* when every cell is defined the result is the average of the statistic over the windows *)
Lemma search_average stat g times w freqs fdots size t0 tl : get times 0 = Ok t0 -> get_last times = Ok tl -> t0 < tl ->
  (match size with Some s => 0 < s | None => True end) -> length w = length times ->
  (forall p ev f fd, let ts := map (fun t => t - t0) times in
     ev = filter (fun e => p (fst e)) (combine ts w) -> (2 <= length ev)%nat -> (forall n, covers n (window_length size (tl - t0)) (tl - t0) -> In ev (windows (window_length size (tl - t0)) n (events_of t0 times w))) ->
     In f freqs -> In fd fdots ->
     stat ts (map p ts) f fd = Ok (Some (g f fd ev))) ->
  let len := window_length size (tl - t0) in
  exists n, covers n len (tl - t0) /\
    folding_search stat times freqs size fdots = Ok (shaped freqs fdots (fun f fd => window_average (g f fd) (windows len n (events_of t0 times w)))).
Proof.
  intros G0 Gl Hlt Hs L H len. destruct (search_generic stat (fun ev f fd => Some (g f fd ev)) times w freqs fdots size t0 tl G0 Gl Hlt Hs L H) as (n & Hn & E).
  exists n. split; [exact Hn|]. rewrite E. f_equal. apply shaped_ext. intros f fd _ _. cbv zeta. apply (window_mean (g f fd)).
Qed.

Lemma combine_fst_snd {A B} (l : list (A * B)) : combine (map fst l) (map snd l) = l.
Proof. induction l as [|[a b] l IH]; [reflexivity|]. cbn. rewrite IH. reflexivity. Qed.
Lemma ev_weights p ts w (P : Q -> Prop) ev : ev = filter (fun e : Q * Q => p (fst e)) (combine ts w) -> (forall x, In x w -> P x) -> forall e, In e ev -> P (snd e).
Proof. intros -> H [a b] He. apply filter_In in He. destruct He as [He _]. apply in_combine_r in He. apply H, He. Qed.

(* unit weights: numba, scalar weights, no exposure correction *)
Lemma fast_search k times freqs nbin size gti c fdots t0 tl : get times 0 = Ok t0 -> get_last times = Ok tl -> t0 < tl ->
  (match size with Some s => 0 < s | None => True end) -> (0 < nbin)%nat -> kind_ok k ->
  let len := window_length size (tl - t0) in
  exists n, covers n len (tl - t0) /\
    pulsation_search true k times freqs nbin size false gti (WScalar c) fdots =
    Ok (shaped freqs fdots (fun f fd => window_average (fun ev => value_of k (profile_of nbin f fd ev)) (windows len n (events_of t0 times (map (fun _ => 1) times))))).
Proof.
  intros G0 Gl Hlt Hs Hn Hk len. unfold pulsation_search. cbn [orb negb].
  apply (search_average (fast_stat k nbin) (fun f fd ev => value_of k (profile_of nbin f fd ev))); [exact G0|exact Gl|exact Hlt|exact Hs|apply map_length|].
  intros p ev f fd ts Ev Two _ _ _. unfold fast_stat.
  assert (L : length (map (fun _ => 1) times) = length ts) by (unfold ts; rewrite !map_length; reflexivity).
  destruct (select_pairs p ts _ L) as [E1 _]. rewrite E1. rewrite <- Ev.
  assert (One : forall e, In e ev -> snd e = 1).
  { apply (ev_weights p ts (map (fun _ => 1) times) (fun x => x = 1) ev Ev). intros x Hx. apply in_map_iff in Hx. destruct Hx as (y & <- & _). reflexivity. }
  destruct (fast_profile nbin (map fst ev) (map snd ev) f fd Hn) as (pr & E & Ep).
  - now rewrite !map_length.
  - intros x Hx. apply in_map_iff in Hx. destruct Hx as (e & <- & He). now apply One.
  - rewrite E. cbn [bind]. rewrite Ep, combine_fst_snd.
    destruct (profile_pos nbin f fd ev Hn) as [P1 P2].
    + intros ->. cbn in Two. lia.
    + intros e He. rewrite (One e He). Lqa.lra.
    + rewrite (profile_stat_value k _ Hk P1 P2). reflexivity.
Qed.
(* fold_events: weights in an array, or one weight without numba *)
Lemma slow_search k times freqs nbin size gti W w fdots t0 tl : get times 0 = Ok t0 -> get_last times = Ok tl -> t0 < tl ->
  (match size with Some s => 0 < s | None => True end) -> (0 < nbin)%nat -> kind_ok k ->
  weight_list times W = w -> length w = length times -> (forall x, In x w -> 0 < x) ->
  let len := window_length size (tl - t0) in
  exists n, covers n len (tl - t0) /\
    folding_search (slow_stat k nbin W gti false) times freqs size fdots =
    Ok (shaped freqs fdots (fun f fd => window_average (fun ev => value_of k (profile_of nbin f fd ev)) (windows len n (events_of t0 times w)))).
Proof.
  intros G0 Gl Hlt Hs Hn Hk Ew L Pos len.
  apply (search_average (slow_stat k nbin W gti false) (fun f fd ev => value_of k (profile_of nbin f fd ev))); [exact G0|exact Gl|exact Hlt|exact Hs|exact L|].
  intros p ev f fd ts Ev Two _ _ _. unfold slow_stat.
  assert (Lt : length w = length ts) by (unfold ts; rewrite !map_length; exact L).
  destruct (select_pairs p ts _ Lt) as [E1 E2]. rewrite E1. rewrite <- Ev. rewrite <- Ev in E2.
  assert (P0 : forall e, In e ev -> 0 < snd e) by (apply (ev_weights p ts w (fun x => 0 < x) ev Ev Pos)).
  assert (Wl : weight_list (map fst ev) (masked_weights ts (map p ts) W) = map snd ev).
  { destruct W as [c|l]; cbn [masked_weights weight_list] in *.
    - rewrite map_map. apply map_ext_in. intros e He.
      assert (X := ev_weights p ts w (fun x => x = c) ev Ev). rewrite X; [reflexivity| |exact He]. intros x Hx. rewrite <- Ew in Hx. apply in_map_iff in Hx. destruct Hx as (y & <- & _). reflexivity.
    - subst l. rewrite Lt, Nat.eqb_refl. cbn [weight_list]. exact E2. }
  destruct (slow_profile nbin (map fst ev) (map snd ev) (masked_weights ts (map p ts) W) f fd (masked_gti ts (map p ts) gti) Hn) as (c & pr & e & E & Ep).
  - rewrite map_length. exact Two.
  - exact Wl.
  - now rewrite !map_length.
  - rewrite E. cbn [bind fst snd]. rewrite Ep, combine_fst_snd.
    destruct (profile_pos nbin f fd ev Hn) as [P1 P2]; [intros ->; cbn in Two; lia|exact P0|]. rewrite (profile_stat_value k _ Hk P1 P2). reflexivity.
Qed.
Lemma array_search numba k times freqs nbin size gti w fdots t0 tl : get times 0 = Ok t0 -> get_last times = Ok tl -> t0 < tl ->
  (match size with Some s => 0 < s | None => True end) -> (0 < nbin)%nat -> kind_ok k -> length w = length times -> (forall x, In x w -> 0 < x) ->
  let len := window_length size (tl - t0) in
  exists n, covers n len (tl - t0) /\
    pulsation_search numba k times freqs nbin size false gti (WArray w) fdots =
    Ok (shaped freqs fdots (fun f fd => window_average (fun ev => value_of k (profile_of nbin f fd ev)) (windows len n (events_of t0 times w)))).
Proof.
  intros G0 Gl Hlt Hs Hn Hk L Pos len. unfold pulsation_search. rewrite orb_true_r. cbn [andb].
  apply (slow_search k times freqs nbin size gti (WArray w) w fdots t0 tl); try assumption. reflexivity.
Qed.
Lemma scalar_search k times freqs nbin size gti c fdots t0 tl : get times 0 = Ok t0 -> get_last times = Ok tl -> t0 < tl ->
  (match size with Some s => 0 < s | None => True end) -> (0 < nbin)%nat -> kind_ok k -> 0 < c ->
  let len := window_length size (tl - t0) in
  exists n, covers n len (tl - t0) /\
    pulsation_search false k times freqs nbin size false gti (WScalar c) fdots =
    Ok (shaped freqs fdots (fun f fd => window_average (fun ev => value_of k (profile_of nbin f fd ev)) (windows len n (events_of t0 times (map (fun _ => c) times))))).
Proof.
  intros G0 Gl Hlt Hs Hn Hk Pos len. unfold pulsation_search. cbn [orb negb andb].
  apply (slow_search k times freqs nbin size gti (WScalar c) (map (fun _ => c) times) fdots t0 tl); try assumption; [reflexivity|apply map_length|].
  intros x Hx. apply in_map_iff in Hx. destruct Hx as (y & <- & _). exact Pos.
Qed.
(* weights all 1: numba or not, array or scalar *)
Lemma unit_search k times freqs nbin size gti gti' W c fdots numba t0 tl : get times 0 = Ok t0 -> get_last times = Ok tl -> t0 < tl ->
  (match size with Some s => 0 < s | None => True end) -> (0 < nbin)%nat -> kind_ok k -> weight_list times W = map (fun _ => 1) times ->
  (match W with WScalar x => x = 1 | WArray _ => True end) ->
  pulsation_search numba k times freqs nbin size false gti W fdots = pulsation_search true k times freqs nbin size false gti' (WScalar c) fdots.
Proof.
  intros G0 Gl Hlt Hs Hn Hk Ew Hc. destruct (fast_search k times freqs nbin size gti' c fdots t0 tl G0 Gl Hlt Hs Hn Hk) as (n & C & E). rewrite E.
  destruct numba.
  - destruct W as [x|l].
    + destruct (fast_search k times freqs nbin size gti x fdots t0 tl G0 Gl Hlt Hs Hn Hk) as (m & C2 & E2). rewrite E2. rewrite (covers_unique _ _ _ _ C C2). reflexivity.
    + cbn in Ew. subst l. destruct (array_search true k times freqs nbin size gti (map (fun _ => 1) times) fdots t0 tl G0 Gl Hlt Hs Hn Hk (map_length _ _)) as (m & C2 & E2).
      { intros x Hx. apply in_map_iff in Hx. destruct Hx as (y & <- & _). Lqa.lra. }
      rewrite E2. rewrite (covers_unique _ _ _ _ C C2). reflexivity.
  - destruct W as [x|l].
    + subst x. destruct (scalar_search k times freqs nbin size gti 1 fdots t0 tl G0 Gl Hlt Hs Hn Hk ltac:(Lqa.lra)) as (m & C2 & E2). rewrite E2. rewrite (covers_unique _ _ _ _ C C2). reflexivity.
    + cbn in Ew. subst l. destruct (array_search false k times freqs nbin size gti (map (fun _ => 1) times) fdots t0 tl G0 Gl Hlt Hs Hn Hk (map_length _ _)) as (m & C2 & E2).
      { intros x Hx. apply in_map_iff in Hx. destruct Hx as (y & <- & _). Lqa.lra. }
      rewrite E2. rewrite (covers_unique _ _ _ _ C C2). reflexivity.
Qed.
