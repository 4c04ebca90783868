(* P_mtaper2.v: adaptive weights and jackknife variances of multitaper.py. *)
From Verif Require Import Np M_utils Cplx M_fourier M_exvar M_mtaper S_mtaper P_exvar P_timmer P_mtaper.
From Coq Require Import Reals List Arith ZArith Bool Lia Lra.
Import ListNotations.
Open Scope R_scope.

Lemma rs_pos n f k : (forall i, (i < n)%nat -> 0 <= f i) -> (k < n)%nat -> 0 < f k -> 0 < rs n f.
Proof.
  induction n as [|n IH]; intros F Hk P; [lia|]. rewrite rs_S. assert (0 <= rs n f) by (apply rs_nonneg; intros; apply F; lia). pose proof (F n ltac:(lia)).
  destruct (Nat.eq_dec k n) as [->|D]; [lra|]. assert (0 < rs n f) by (apply IH; [intros; apply F; lia|lia|exact P]). lra.
Qed.
Lemma all_some_map {A} (l : list A) : all_some (map Some l) = Some l.
Proof. induction l as [|a l IH]; [reflexivity|]. cbn [map all_some]. now rewrite IH. Qed.
Lemma all_some_none {A} (l : list (option A)) : In None l -> all_some l = None.
Proof. induction l as [|o l IH]; [intros []|]. intros [->|I]; cbn [all_some]; [reflexivity|]. rewrite IH by exact I. now destruct o. Qed.

Lemma cnorm2_pos x : 0 <= cnorm2 x.
Proof. unfold cnorm2. nra. Qed.
Lemma psd_sound c w : length c = length w -> seen c (length c) -> (forall x, In x w -> 0 < x) -> exists p, psd_from_freq_response c w = Some p /\ sound c p.
Proof.
  intros L (k & Hk & P) W. assert (Wn : forall i, (i < length w)%nat -> 0 < nth i w 0) by (intros i Hi; apply W, nth_In, Hi).
  assert (N : exists k, (k < length w)%nat /\ nth k w 0 <> 0) by (exists k; split; [lia|]; pose proof (Wn k ltac:(lia)); lra).
  pose proof (wsum_pos w N) as S0. rewrite psd_exact by (try exact L; lra). eexists. split; [reflexivity|]. split.
  - unfold weighted_mean. apply Rdiv_lt_0_compat; [|exact S0]. apply (rs_pos _ _ k); [|lia|].
    + intros i Hi. pose proof (cnorm2_pos (nth i c c0)). pose proof (Wn i Hi). apply Rmult_le_pos; nra.
    + pose proof (Wn k ltac:(lia)). apply Rmult_lt_0_compat; nra.
  - intros lo hi B. apply mean_between; [intros; apply Rle_0_sqr|exact S0|]. intros i Hi. apply B. lia.
Qed.
Lemma denominator e p v : 0 < e <= 1 -> 0 < p -> 0 <= v -> 0 < e * p + (1 - e) * v.
Proof. intros [E1 E2] P V. assert (0 < e * p) by now apply Rmult_lt_0_compat. assert (0 <= (1 - e) * v) by (apply Rmult_le_pos; lra). lra. Qed.
Lemma weights_positive eig v p : (forall e, In e eig -> 0 < e <= 1) -> 0 <= v -> 0 < p ->
  new_weights eig v p = Some (map (fun e => sqrt e * p / (e * p + (1 - e) * v)) eig) /\ forall x, In x (map (fun e => sqrt e * p / (e * p + (1 - e) * v)) eig) -> 0 < x.
Proof.
  intros E V P. split.
  - unfold new_weights. rewrite <- all_some_map. f_equal. rewrite map_map. apply map_ext_in. intros e I. pose proof (denominator e p v (E e I) P V). rewrite fdiv_some by lra. f_equal. field. lra.
  - intros x I. apply in_map_iff in I. destruct I as (e & <- & I). pose proof (denominator e p v (E e I) P V). destruct (E e I). apply Rdiv_lt_0_compat; [|assumption]. apply Rmult_lt_0_compat; [apply sqrt_lt_R0|]; assumption.
Qed.
Definition sound_psd (c : list cx) (o : option R) : Prop := exists p, o = Some p /\ sound c p.
Definition sound_weights (K : nat) (c : list cx) (o : option (list R)) : Prop := exists w, o = Some w /\ length w = K /\ forall x, In x w -> 0 < x.
Lemma loop_sound eig v cols : (forall e, In e eig -> 0 < e <= 1) -> 0 <= v -> (forall c, In c cols -> length c = length eig /\ seen c (length c)) ->
  forall fuel psd err dk, Forall2 sound_psd cols psd -> (fuel = 0%nat -> Forall2 (sound_weights (length eig)) cols dk) ->
  Forall2 sound_psd cols (fst (adaptive_loop fuel cols eig v psd err dk)) /\ Forall2 (sound_weights (length eig)) cols (snd (adaptive_loop fuel cols eig v psd err dk)).
Proof.
  intros E V C. assert (W : forall psd, Forall2 sound_psd cols psd -> Forall2 (sound_weights (length eig)) cols (map (fun s => flet p := s in new_weights eig v p) psd)).
  { intros psd H. clear C. induction H as [|c o cs os (p & -> & P & _) _ IH]; [constructor|]. cbn [map]. constructor; [|exact IH].
    destruct (weights_positive eig v p E V P) as [Q1 Q2]. rewrite Q1. eexists. split; [reflexivity|]. split; [now rewrite map_length|exact Q2]. }
  assert (N : forall dk, Forall2 (sound_weights (length eig)) cols dk -> Forall2 sound_psd cols (map (fun p => flet w := snd p in psd_from_freq_response (fst p) w) (combine cols dk))).
  { intros dk H. clear W. induction H as [|c o cs os (w & -> & L & P) _ IH]; [constructor|]. cbn [map combine fst snd]. constructor; [|apply IH; intros c' I; apply C; now right].
    destruct (C c ltac:(now left)) as [C1 C2]. exact (psd_sound c w ltac:(lia) C2 P). }
  induction fuel as [|fuel IH]; intros psd err dk H D; cbn [adaptive_loop]; [split; [exact H|now apply D]|]. cbv zeta.
  destruct (converged err _); cbn [fst snd]; [split; [exact H|now apply W]|]. apply IH; [apply N, W, H|]. intros _. apply W, H.
Qed.
Lemma trapezoid_pos l dx : 0 <= dx -> (forall x, In x l -> 0 <= x) -> 0 <= trapezoid l dx.
Proof.
  intros D H. unfold trapezoid. assert (G : forall q, (forall p, In p q -> 0 <= fst p /\ 0 <= snd p) -> 0 <= rlsum (map (fun p : R * R => (fst p + snd p) / 2 * dx) q)).
  { induction q as [|p q IH]; intros Hq; [change (rlsum (map _ [])) with 0; lra|]. cbn [map]. change (rlsum (?a :: ?r)) with (a + rlsum r). pose proof (IH ltac:(intros; apply Hq; now right)). destruct (Hq p ltac:(now left)) as [A B].
    assert (0 <= (fst p + snd p) / 2 * dx) by (apply Rmult_le_pos; lra). lra. }
  apply G. intros [a b] I. split; cbn [fst snd]; apply H; [now apply in_combine_l in I|]. apply in_combine_r in I. destruct l; [destruct I|now right].
Qed.
Lemma firstn_sqrt_pos m eig : (forall e, In e eig -> 0 < e <= 1) -> forall x, In x (firstn m (map sqrt eig)) -> 0 < x.
Proof.
  intros E x I. assert (J : In x (map sqrt eig)) by (rewrite <- (firstn_skipn m (map sqrt eig)); apply in_or_app; now left). apply in_map_iff in J. destruct J as (e & <- & J). apply sqrt_lt_R0, E, J.
Qed.
Lemma nth_firstn {A} (l : list A) m k d : (k < m)%nat -> nth k (firstn m l) d = nth k l d.
Proof. revert m k. induction l as [|a l IH]; intros [|m] [|k] H; try lia; try reflexivity. cbn. apply IH. lia. Qed.
Lemma adaptive_sound cols eig it : (3 <= length eig)%nat -> (0 < it)%nat -> cols <> [] -> (forall e, In e eig -> 0 < e <= 1) -> (forall c, In c cols -> length c = length eig /\ seen c 2) ->
  exists ps ws, get_adaptive_psd cols eig it = Ok (map Some ps, map Some ws) /\ length ps = length cols /\ length ws = length cols /\
    forall f, (f < length cols)%nat -> sound (nth f cols []) (nth f ps 0) /\ length (nth f ws []) = length eig /\ forall x, In x (nth f ws []) -> 0 < x.
Proof.
  intros K It N E C. unfold get_adaptive_psd. replace (length eig <? 3)%nat with false by (symmetry; apply Nat.ltb_ge; exact K). destruct cols as [|c0' cs] eqn:Q; [congruence|]. rewrite <- Q in *. clear c0' cs Q. cbv zeta.
  assert (C' : forall c, In c cols -> length c = length eig /\ seen c (length c)). { intros c I. destruct (C c I) as [L (k & Hk & P)]. split; [exact L|]. exists k. split; [lia|exact P]. }
  assert (S1 : Forall2 sound_psd cols (map (fun c => psd_from_freq_response c (map sqrt eig)) cols)).
  { clear N C. induction cols as [|c cs IH]; [constructor|]. cbn [map]. constructor; [|apply IH; intros; apply C'; now right]. destruct (C' c ltac:(now left)) as [L Sc].
    apply psd_sound; [now rewrite map_length|exact Sc|]. intros x I. apply (firstn_sqrt_pos (length (map sqrt eig)) eig E). now rewrite firstn_all. }
  assert (X : exists est, map (fun c => psd_from_freq_response c (map sqrt eig)) cols = map Some est /\ forall x, In x est -> 0 < x).
  { clear -S1. set (l := map _ _) in *. clearbody l. induction S1 as [|c o cs os (p & -> & P & _) _ (est & IH1 & IH2)]; [exists []; split; [reflexivity|intros x []]|].
    exists (p :: est). cbn [map]. rewrite IH1. split; [reflexivity|]. intros x [<-|I]; [exact P|now apply IH2]. }
  destruct X as (est & -> & EP). rewrite all_some_map. set (v := trapezoid est (PI / INR (length cols)) / (2 * PI)).
  assert (V : 0 <= v). { unfold v. pose proof PI_RGT_0. apply Rmult_le_pos; [|left; apply Rinv_0_lt_compat; lra]. apply trapezoid_pos; [|intros x I; left; now apply EP].
    left. apply Rdiv_lt_0_compat; [lra|]. apply lt_0_INR. destruct cols; [congruence|cbn; lia]. }
  assert (S2 : Forall2 sound_psd cols (map (fun c => psd_from_freq_response (firstn 2 c) (firstn 2 (map sqrt eig))) cols)).
  { clear N C' S1 V v EP est. induction cols as [|c cs IH]; [constructor|]. cbn [map]. constructor; [|apply IH; intros; apply C; now right]. destruct (C c ltac:(now left)) as [L (k & Hk & P)].
    destruct (psd_sound (firstn 2 c) (firstn 2 (map sqrt eig))) as (p & E1 & P1 & B1).
    - rewrite !firstn_length, map_length. lia.
    - exists k. rewrite firstn_length. split; [lia|]. rewrite nth_firstn by exact Hk. exact P.
    - apply firstn_sqrt_pos, E.
    - exists p. split; [exact E1|]. split; [exact P1|]. intros lo hi B. apply B1. intros q Hq. rewrite firstn_length in Hq. rewrite nth_firstn by lia. apply B. lia. }
  destruct (loop_sound eig v cols E V C' it _ (map (fun _ => Some (map (fun _ => 0) eig)) cols) [] S2 ltac:(intros; lia)) as [A B].
  destruct (adaptive_loop _ _ _ _ _ _ _) as [P W]. cbn [fst snd] in A, B. clear -A B.
  assert (X : exists ps, P = map Some ps /\ length ps = length cols /\ forall f, (f < length cols)%nat -> sound (nth f cols []) (nth f ps 0)).
  { clear B. induction A as [|c o cs os (p & -> & Sp) _ (ps & -> & L & G)]; [exists []; split; [reflexivity|split; [reflexivity|cbn; intros; lia]]|]. exists (p :: ps). cbn [map length]. split; [reflexivity|]. split; [lia|]. intros [|f] Hf; [exact Sp|cbn; apply G; lia]. }
  assert (Y : exists ws, W = map Some ws /\ length ws = length cols /\ forall f, (f < length cols)%nat -> length (nth f ws []) = length eig /\ forall x, In x (nth f ws []) -> 0 < x).
  { clear A X. induction B as [|c o cs os (p & -> & Sp) _ (ps & -> & L & G)]; [exists []; split; [reflexivity|split; [reflexivity|cbn; intros; lia]]|]. exists (p :: ps). cbn [map length]. split; [reflexivity|]. split; [lia|]. intros [|f] Hf; [exact Sp|cbn; apply G; lia]. }
  destruct X as (ps & -> & L1 & G1). destruct Y as (ws & -> & L2 & G2). exists ps, ws. split; [reflexivity|]. split; [exact L1|]. split; [exact L2|]. intros f Hf. split; [now apply G1|now apply G2].
Qed.
Lemma adaptive_few cols eig it : (length eig < 3)%nat -> get_adaptive_psd cols eig it = Ok (map (fun c => psd_from_freq_response c (map sqrt eig)) cols, map (fun _ => Some (map sqrt eig)) cols).
Proof. intros H. unfold get_adaptive_psd. apply Nat.ltb_lt in H. now rewrite H. Qed.
(* the spectrum and the weights agree with each other when the iterations stop *)
Lemma loop_stops eig v cols first : forall fuel psd err dk ps ws, (0 < fuel)%nat ->
  psd = first \/ psd = map (fun p => flet w := snd p in psd_from_freq_response (fst p) w) (combine cols err) -> adaptive_loop fuel cols eig v psd err dk = (ps, ws) ->
  (exists prev, converged prev ws = true /\ ws = map (fun s => flet p := s in new_weights eig v p) ps /\
     (ps = first \/ ps = map (fun p => flet w := snd p in psd_from_freq_response (fst p) w) (combine cols prev))) \/
  ps = map (fun p => flet w := snd p in psd_from_freq_response (fst p) w) (combine cols ws).
Proof.
  induction fuel as [|fuel IH]; intros psd err dk ps ws F I H; [lia|]. cbn [adaptive_loop] in H. cbv zeta in H. destruct (converged err _) eqn:Cv.
  - injection H as <- <-. left. exists err. split; [exact Cv|]. split; [reflexivity|exact I].
  - destruct fuel as [|fuel]; [cbn [adaptive_loop] in H; injection H as <- <-; now right|]. apply IH in H; [exact H|lia|now right].
Qed.
Lemma adaptive_stops cols eig it ps ws : (3 <= length eig)%nat -> (0 < it)%nat -> get_adaptive_psd cols eig it = Ok (map Some ps, map Some ws) -> exists v,
  (exists prev, converged prev (map Some ws) = true /\ map Some ws = map (new_weights eig v) ps /\
     (map Some ps = map (fun c => psd_from_freq_response (firstn 2 c) (firstn 2 (map sqrt eig))) cols \/ map Some ps = map (fun p => flet w := snd p in psd_from_freq_response (fst p) w) (combine cols prev))) \/
  map Some ps = map (fun p => psd_from_freq_response (fst p) (snd p)) (combine cols ws).
Proof.
  intros K It. unfold get_adaptive_psd. replace (length eig <? 3)%nat with false by (symmetry; apply Nat.ltb_ge; exact K). destruct cols as [|c cs] eqn:Q; [discriminate|]. rewrite <- Q in *. cbv zeta.
  destruct (all_some _) as [est|] eqn:A; [|subst cols; cbn [map]; intros H; injection H as H _; destruct ps; discriminate].
  intros H. injection H as H. set (v := trapezoid est _ / _) in *. exists v.
  destruct (loop_stops eig v cols (map (fun c => psd_from_freq_response (firstn 2 c) (firstn 2 (map sqrt eig))) cols) it _ _ _ _ _ It (or_introl eq_refl) H) as [(prev & A1 & A2 & A3)|B].
  - left. exists prev. split; [exact A1|]. split; [rewrite A2, map_map; reflexivity|exact A3].
  - right. rewrite B. clear. revert ws. induction cols as [|c cols IH]; intros [|w ws]; [reflexivity..|]. cbn [combine map fst snd]. now rewrite IH.
Qed.
(* all the concentrations are one: the weights are one and the spectrum is the plain mean *)
Lemma ones_weights K v p : 0 < p -> new_weights (repeat 1 K) v p = Some (repeat 1 K).
Proof.
  intros P. unfold new_weights. rewrite <- all_some_map. f_equal. induction K as [|K IH]; [reflexivity|]. cbn [repeat map]. rewrite IH. f_equal. rewrite fdiv_some by lra. f_equal. rewrite sqrt_1. field. lra.
Qed.
Lemma mean_square_const a b K : (0 < K)%nat -> mean_square (repeat a K) (repeat b K) = (a - b) * (a - b).
Proof.
  intros N. unfold mean_square. rewrite repeat_length. rewrite (sum_combine (fun x y => (x - y) * (x - y)) _ _ a b) by now rewrite !repeat_length. rewrite repeat_length.
  rewrite (rs_ext _ _ (fun _ => (a - b) * (a - b))) by (intros i Hi; now rewrite !nth_repeat). rewrite rs_const. field. apply not_0_INR. lia.
Qed.
Lemma tiny : 0 < / 10 ^ 10 < 1.
Proof. cbn [pow]. lra. Qed.
Lemma psd_ones c K : length c = K -> (0 < K)%nat -> psd_from_freq_response c (repeat 1 K) = Some (2 * (rs K (fun k => cnorm2 (nth k c c0)) / INR K)).
Proof.
  intros L N. assert (NK : INR K <> 0) by (apply not_0_INR; lia). assert (E : forall f, rs K (fun k => nth k (repeat 1 K) 0 * nth k (repeat 1 K) 0 * f k) = rs K f).
  { intros f. apply rs_ext. intros i Hi. rewrite (nth_indep _ 0 1) by (rewrite repeat_length; exact Hi). rewrite nth_repeat. ring. }
  assert (E1 : rs K (fun k => nth k (repeat 1 K) 0 * nth k (repeat 1 K) 0) = INR K).
  { rewrite (rs_ext _ _ (fun k => nth k (repeat 1 K) 0 * nth k (repeat 1 K) 0 * 1)) by (intros; ring). rewrite (E (fun _ => 1)), rs_const. ring. }
  rewrite psd_exact; rewrite repeat_length; [|exact L|rewrite E1; exact NK]. f_equal. unfold weighted_mean. rewrite E, E1, rs_scal_l. field. exact NK.
Qed.
Lemma adaptive_ones cols K it : (3 <= K)%nat -> (2 <= it)%nat -> cols <> [] -> (forall c, In c cols -> length c = K /\ seen c 2) ->
  get_adaptive_psd cols (repeat 1 K) it = Ok (map (fun c => Some (2 * (rs K (fun k => cnorm2 (nth k c c0)) / INR K))) cols, map (fun _ => Some (repeat 1 K)) cols).
Proof.
  intros HK It N C. assert (E1 : forall e, In e (repeat 1 K) -> 0 < e <= 1) by (intros e I; apply repeat_spec in I; lra).
  unfold get_adaptive_psd. rewrite repeat_length. replace (K <? 3)%nat with false by (symmetry; apply Nat.ltb_ge; exact HK). destruct cols as [|c' cs] eqn:Q; [congruence|]. rewrite <- Q in *. clear c' cs Q. cbv zeta.
  assert (SQ : map sqrt (repeat 1 K) = repeat 1 K) by (clear; induction K as [|K IH]; [reflexivity|]; cbn [repeat map]; now rewrite IH, sqrt_1). rewrite !SQ.
  assert (S2 : forall c, In c cols -> psd_from_freq_response c (repeat 1 K) = Some (2 * (rs K (fun k => cnorm2 (nth k c c0)) / INR K)) /\ 0 < 2 * (rs K (fun k => cnorm2 (nth k c c0)) / INR K)).
  { intros c I. destruct (C c I) as [L (k & Hk & P)]. split; [apply psd_ones; [exact L|lia]|]. apply Rmult_lt_0_compat; [lra|]. apply Rdiv_lt_0_compat; [|apply lt_0_INR; lia]. apply (rs_pos _ _ k); [intros; apply cnorm2_pos|lia|exact P]. }
  assert (F : exists est, map (fun c => psd_from_freq_response c (repeat 1 K)) cols = map Some est).
  { exists (map (fun c => 2 * (rs K (fun k => cnorm2 (nth k c c0)) / INR K)) cols). rewrite map_map. apply map_ext_in. intros c I. apply S2, I. }
  destruct F as (est & ->). rewrite all_some_map. set (v := _ / (2 * PI)). f_equal.
  assert (D1 : map (fun s => flet p := s in new_weights (repeat 1 K) v p) (map (fun c => psd_from_freq_response (firstn 2 c) (firstn 2 (repeat 1 K))) cols) = map (fun _ => Some (repeat 1 K)) cols).
  { rewrite map_map. apply map_ext_in. intros c I. destruct (C c I) as [L (k & Hk & P)]. destruct (psd_sound (firstn 2 c) (firstn 2 (repeat 1 K))) as (p & E & P1 & _).
    - rewrite !firstn_length, repeat_length. lia.
    - exists k. rewrite firstn_length. split; [lia|]. rewrite nth_firstn by exact Hk. exact P.
    - intros x X. assert (In x (repeat 1 K)) by (rewrite <- (firstn_skipn 2 (repeat 1 K)); apply in_or_app; now left). apply repeat_spec in H. lra.
    - rewrite E. now apply ones_weights. }
  assert (D2 : map (fun p => flet w := snd p in psd_from_freq_response (fst p) w) (combine cols (map (fun _ => Some (repeat 1 K)) cols)) = map (fun c => Some (2 * (rs K (fun k => cnorm2 (nth k c c0)) / INR K))) cols).
  { assert (G : forall l, (forall c, In c l -> In c cols) -> map (fun p => flet w := snd p in psd_from_freq_response (fst p) w) (combine l (map (fun _ => Some (repeat 1 K)) l)) = map (fun c => Some (2 * (rs K (fun k => cnorm2 (nth k c c0)) / INR K))) l); [|now apply G].
    induction l as [|c l IH]; intros H; [reflexivity|]. cbn [combine map fst snd]. rewrite IH by (intros; apply H; now right). f_equal. apply S2, H. now left. }
  assert (D3 : map (fun s => flet p := s in new_weights (repeat 1 K) v p) (map (fun c => Some (2 * (rs K (fun k => cnorm2 (nth k c c0)) / INR K))) cols) = map (fun _ => Some (repeat 1 K)) cols).
  { rewrite map_map. apply map_ext_in. intros c I. apply ones_weights, S2, I. }
  destruct it as [|[|it]]; [lia|lia|]. cbn [adaptive_loop]. cbv zeta. rewrite D1.
  assert (Z : map (fun _ : R => 0) (repeat 1 K) = repeat 0 K) by (clear; induction K as [|K IH]; [reflexivity|]; cbn [repeat map]; now rewrite IH). rewrite Z. pose proof tiny as T.
  replace (converged _ _) with false.
  - rewrite D2, D3. replace (converged _ _) with true; [reflexivity|]. symmetry. unfold converged. apply forallb_forall. intros [a b] I. apply in_combine_l in I as I1. apply in_combine_r in I as I2. apply in_map_iff in I1, I2. destruct I1 as (? & <- & _), I2 as (? & <- & _).
    rewrite mean_square_const by lia. destruct (Rlt_dec _ _) as [_|X]; [reflexivity|elim X; replace ((1 - 1) * (1 - 1)) with 0 by ring; lra].
  - symmetry. destruct cols as [|c cs]; [congruence|]. unfold converged. cbn [map combine forallb]. rewrite mean_square_const by lia. destruct (Rlt_dec _ _) as [X|_]; [replace ((0 - 1) * (0 - 1)) with 1 in X by ring; lra|reflexivity].
Qed.
(* data without any variation *)
Lemma psd_zero c w : (forall x, In x c -> x = c0) -> rlsum (map (fun x => x * x) w) <> 0 -> psd_from_freq_response c w = Some 0.
Proof.
  intros Z N. unfold psd_from_freq_response. rewrite fdiv_some by exact N. f_equal. replace (rlsum _) with 0; [ring|]. symmetry. revert w N. induction c as [|x c IH]; intros w N; [reflexivity|]. destruct w as [|y w]; [reflexivity|].
  cbn [combine map fst snd]. change (rlsum (?q :: ?r)) with (q + rlsum r). rewrite (Z x) by now left. assert (G : forall w, rlsum (map (fun p => cnorm2 (cmul (fst p) (rtoc (snd p)))) (combine c w)) = 0).
  { intros u. clear IH N. revert u. assert (Z' : forall x, In x c -> x = c0) by (intros; apply Z; now right). clear Z. induction c as [|z c IH]; intros [|u us]; try reflexivity. cbn [combine map fst snd]. change (rlsum (?q :: ?r)) with (q + rlsum r).
    rewrite (Z' z) by now left. rewrite IH by (intros; apply Z'; now right). unfold cnorm2, cmul, c0, rtoc. cbn [re im fst snd]. ring. }
  rewrite G. unfold cnorm2, cmul, c0, rtoc. cbn [re im fst snd]. ring.
Qed.
Lemma sum_sq_pos w : (exists x, In x w /\ 0 < x) -> rlsum (map (fun x => x * x) w) <> 0.
Proof.
  intros (x & I & P). apply (In_nth _ _ 0) in I. destruct I as (k & Hk & <-). rewrite (rs_nth_seq w 0). assert (0 < rs (length w) (fun k => nth k w 0 * nth k w 0)) by (apply wsum_pos; exists k; split; [exact Hk|lra]). lra.
Qed.
Lemma trapezoid_zero n dx : trapezoid (repeat 0 n) dx = 0.
Proof.
  unfold trapezoid. assert (G : forall m k, rlsum (map (fun p : R * R => (fst p + snd p) / 2 * dx) (combine (repeat 0 m) (repeat 0 k))) = 0).
  { induction m as [|m IH]; intros [|k]; try reflexivity. cbn [repeat combine map fst snd]. change (rlsum (?q :: ?r)) with (q + rlsum r). rewrite IH. field. }
  destruct n; [reflexivity|]. exact (G (S n) n).
Qed.
Lemma adaptive_zero cols eig it : (3 <= length eig)%nat -> (0 < it)%nat -> cols <> [] -> (forall e, In e eig -> 0 < e <= 1) -> (forall c, In c cols -> forall x, In x c -> x = c0) ->
  get_adaptive_psd cols eig it = Ok (map (fun _ => None) cols, map (fun _ => None) cols) /\ forall c, In c cols -> psd_from_freq_response c (map sqrt eig) = Some 0.
Proof.
  intros K It N E C. assert (S0 : forall c, In c cols -> psd_from_freq_response c (map sqrt eig) = Some 0).
  { intros c I. apply psd_zero; [apply C, I|]. apply sum_sq_pos. destruct eig as [|e eig]; [cbn in K; lia|]. exists (sqrt e). split; [now left|]. apply sqrt_lt_R0, E. now left. }
  split; [|exact S0]. unfold get_adaptive_psd. replace (length eig <? 3)%nat with false by (symmetry; apply Nat.ltb_ge; exact K). destruct cols as [|c' cs] eqn:Q; [congruence|]. rewrite <- Q in *. clear c' cs Q. cbv zeta.
  assert (X : map (fun c => psd_from_freq_response c (map sqrt eig)) cols = map Some (repeat 0 (length cols))).
  { clear N C. induction cols as [|c cs IH]; [reflexivity|]. cbn [map length repeat]. rewrite S0 by now left. f_equal. apply IH. intros; apply S0; now right. }
  rewrite X, all_some_map, trapezoid_zero. unfold Rdiv at 1. rewrite Rmult_0_l. 
  assert (F : map (fun c => psd_from_freq_response (firstn 2 c) (firstn 2 (map sqrt eig))) cols = map (fun _ => Some 0) cols).
  { apply map_ext_in. intros c I. apply psd_zero; [intros x J; apply (C c I); rewrite <- (firstn_skipn 2 c); apply in_or_app; now left|]. apply sum_sq_pos.
    destruct eig as [|e eig]; [cbn in K; lia|]. exists (sqrt e). split; [now left|]. apply sqrt_lt_R0, E. now left. }
  rewrite F. assert (W : new_weights eig 0 0 = None).
  { unfold new_weights. destruct eig as [|e eig]; [cbn in K; lia|]. apply all_some_none. left. replace (e * 0 + (1 - e) * 0) with 0 by ring. now rewrite fdiv_none. }
  assert (CV : forall err, length err = length cols -> converged err (map (fun _ : list cx => @None (list R)) cols) = false).
  { intros err L. destruct cols as [|c cs]; [congruence|]. destruct err as [|e err]; [discriminate|]. unfold converged. cbn [map combine forallb]. now destruct e. }
  assert (NX : forall l, map (fun p => flet w := snd p in psd_from_freq_response (fst p) w) (combine l (map (fun _ : list cx => @None (list R)) l)) = map (fun _ => None) l).
  { induction l as [|c l IH]; [reflexivity|]. cbn [combine map fst snd]. now rewrite IH. }
  f_equal. destruct it as [|it]; [lia|]. cbn [adaptive_loop]. cbv zeta. rewrite map_map. rewrite (map_ext (fun _ : list cx => new_weights eig 0 0) (fun _ => None)) by (intros; exact W). rewrite CV by now rewrite map_length. rewrite NX.
  clear It. induction it as [|it IH]; [reflexivity|]. cbn [adaptive_loop]. cbv zeta. rewrite map_map. rewrite CV by now rewrite map_length. rewrite NX. exact IH.
Qed.

Lemma weights_formula eig v p : forall w, new_weights eig v p = Some w -> w = map (fun e => sqrt e * p / (e * p + (1 - e) * v)) eig.
Proof.
  unfold new_weights. induction eig as [|e eig IH]; intros w H; cbn [map all_some] in H; [now injection H as <-|].
  unfold fdiv in H at 1. destruct (Req_EM_T (e * p + (1 - e) * v) 0) as [Z|Z]; [discriminate|]. destruct (all_some _) as [r|] eqn:A; [|discriminate]. injection H as <-. cbn [map]. rewrite <- (IH r eq_refl). f_equal. field. exact Z.
Qed.
Lemma adaptive_fixed cols eig it ps ws : (3 <= length eig)%nat -> (0 < it)%nat -> get_adaptive_psd cols eig it = Ok (map Some ps, map Some ws) -> exists v,
  ws = map (fun p => map (fun e => sqrt e * p / (e * p + (1 - e) * v)) eig) ps \/ map Some ps = map (fun p => psd_from_freq_response (fst p) (snd p)) (combine cols ws).
Proof.
  intros K It H. destruct (adaptive_stops cols eig it ps ws K It H) as (v & [(prev & _ & B & _)|B]); exists v; [left|now right].
  clear -B. revert ws B. induction ps as [|p ps IH]; intros [|w ws] B; try discriminate; [reflexivity|]. cbn [map] in *. injection B as B1 B2. rewrite <- (IH ws B2). f_equal. apply weights_formula. now symmetry.
Qed.
