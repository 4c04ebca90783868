(* P_rms2.v: rebinning a spectrum keeps its integrated rms. *)
From Verif Require Import Np Lib S_gti S_seg S_utils S_spec M_gti M_seg M_utils M_spec P_seg_regions P_seg_cut P_seg_split P_rebin P_rebin2 P_logbin P_base S_base P_filters P_rms.
From Coq Require Import Lqa Sorted.
Open Scope Q_scope.

Lemma all_some_map {A} (l : list A) : all_some (map Some l) = Some l.
Proof. induction l as [|a l IH]; simpl; [reflexivity|]. rewrite IH. reflexivity. Qed.
Lemma block_sums (l : list Q) q k : (k * q <= length l)%nat ->
  total (firstn (k * q) l) == total (map (fun i => total (slice l (i * q) (S i * q))) (seq 0 k)).
Proof.
  induction k as [|k IH]; intros H; [reflexivity|]. rewrite seq_S, map_app, total_app. cbn [map total Nat.add].
  rewrite <- IH by lia. rewrite (total_qsum (firstn _ l)), (qsum_slice l (k * q) (S k * q)) by lia. rewrite <- (total_qsum (firstn (k * q) l)), <- (total_qsum (slice l _ _)). ring.
Qed.
Lemma integral_all df nph seg noise lo hi l :
  integral df nph seg noise (band lo hi l) ==
  total (map (fun b => if in_band lo hi (b_freq b) then frac_norm nph seg * (b_unnorm b - noise) * (df * b_k b) else 0) l).
Proof.
  unfold integral, band. induction l as [|b l IH]; simpl; [reflexivity|]. destruct (in_band lo hi (b_freq b)); simpl; rewrite IH; ring.
Qed.
Lemma finished_same I I' V V' r r' e e' : I == I' -> finished I V r e -> finished I' V' r' e' -> r == r'.
Proof.
  intros H (A1 & A2 & _) (B1 & B2 & _). destruct (Qlt_le_dec I 0) as [C|C].
  - rewrite (proj1 (A1 C)). symmetry. apply B1. lra.
  - rewrite (A2 C), B2 by lra. assumption.
Qed.
Lemma rint_int z : rint (inject_Z z) = z.
Proof. unfold rint. rewrite Qfloor_Z. assert (E : inject_Z z - inject_Z z == 0) by ring. destruct (qlt (inject_Z z - inject_Z z) (1 # 2)) eqn:X; [reflexivity|]. qb. lra. Qed.
Lemma rint_comp x y : x == y -> rint x = rint y.
Proof.
  intros H. unfold rint. rewrite (Qfloor_comp _ _ H). set (f := Qfloor y).
  destruct (qlt (x - inject_Z f) (1 # 2)) eqn:A, (qlt (y - inject_Z f) (1 # 2)) eqn:B; qb; try (exfalso; lra); try reflexivity.
  destruct (qlt (1 # 2) (x - inject_Z f)) eqn:C, (qlt (1 # 2) (y - inject_Z f)) eqn:D; qb; try (exfalso; lra); reflexivity.
Qed.

(* A spectrum that was not rebinned: evenly spaced frequencies, one elementary frequency per bin, m averaged spectra. *)
Definition plain_spectrum (s : pspec) (x0 : Q) (fr pw un : list Q) (m : Z) : Prop :=
  ps_freq s = map Some fr /\ ps_power s = map Some pw /\ ps_unnorm s = map Some un /\
  length pw = length fr /\ length un = length fr /\ evenly x0 (ps_df s) fr /\ nth_error fr 0 = Some x0 /\
  ps_k s = One 1 /\ ps_m s = One (inject_Z m) /\ (0 < m)%Z /\ 0 < ps_df s.
Definition plain_bins (fr un : list Q) (m : Z) : list bin :=
  map (fun p => {| b_freq := Some (fst p); b_unnorm := snd p; b_k := 1; b_m := inject_Z m |}) (combine fr un).
Lemma plain_is_bins s x0 fr pw un m : plain_spectrum s x0 fr pw un m -> bins_of s (plain_bins fr un m).
Proof.
  intros (Hf & _ & Hu & _ & Lu & _ & _ & Hk & Hm & _). unfold bins_of. rewrite Hf, Hu, Hk, Hm. unfold plain_bins.
  split; [|split; [|split; [|split; [|exact Logic.I] ] ] ].
  - clear -Lu. revert un Lu. induction fr as [|f fr IH]; intros [|u un] L; simpl in *; try discriminate; [reflexivity|].
    rewrite <- IH by lia. reflexivity.
  - clear -Lu. revert un Lu. induction fr as [|f fr IH]; intros [|u un] L; simpl in *; try discriminate; constructor.
    + intros _. reflexivity.
    + apply IH. lia.
  - intros b Hb. apply in_map_iff in Hb. destruct Hb as (p & <- & _). reflexivity.
  - intros b Hb. apply in_map_iff in Hb. destruct Hb as (p & <- & _). reflexivity.
Qed.
Lemma plain_proper fr un m : (0 < m)%Z -> proper_bins (plain_bins fr un m).
Proof.
  intros Hm. exists (inject_Z m). intros b Hb _. apply in_map_iff in Hb. destruct Hb as (p & <- & _). simpl.
  assert (0 < inject_Z m) by (change 0 with (inject_Z 0); rewrite <- Zlt_Qlt; assumption).
  split; [reflexivity|]. split; [assumption|]. ring.
Qed.

Lemma nth_error_combine {A B} (a : list A) : forall (b : list B) i, length b = length a ->
  nth_error (combine a b) i = match nth_error a i, nth_error b i with Some x, Some y => Some (x, y) | _, _ => None end.
Proof. induction a as [|x a IH]; intros [|y b] [|i] L; simpl in *; try discriminate; try reflexivity. apply IH. lia. Qed.
Lemma rebin_bins s x0 fr pw un m q k dfo fo :
  plain_spectrum s x0 fr pw un m -> (0 < q)%nat -> (0 < k)%nat -> (k * q <= length fr < (k + 1) * q)%nat ->
  match fo with Some f => f == inject_Z (Z.of_nat q) | None => match dfo with Some d => d == inject_Z (Z.of_nat q) * ps_df s | None => False end end ->
  exists s' l', ps_rebin s dfo fo MMean = Ok s' /\ bins_of s' l' /\ length l' = k /\ proper_bins l' /\
    ps_df s' == inject_Z (Z.of_nat q) * ps_df s /\ ps_nphots s' = ps_nphots1 s /\ ps_segment s' = ps_segment s /\
    ps_dt s' = ps_dt s /\ ps_n s' = ps_n s /\ ps_norm s' = ps_norm s /\
    (forall i, (i < k)%nat -> exists b f p, nth_error l' i = Some b /\ b_freq b = Some f /\
       f == x0 + inject_Z (Z.of_nat (i * q)) * ps_df s + (inject_Z (Z.of_nat q) - 1) * ps_df s * (1 # 2) /\
       b_unnorm b == total (slice un (i * q) (S i * q)) / inject_Z (Z.of_nat q) /\
       nth_error (ps_power s') i = Some (Some p) /\ p == total (slice pw (i * q) (S i * q)) / inject_Z (Z.of_nat q) /\
       b_k b = 1 /\ b_m b = inject_Z (Z.of_nat q * m)).
Proof.
  intros (Hf & Hp & Hu & Lp & Lu & He & H0 & Hk1 & Hm & Pm & Pd) Hq Hk Hkq Hdx.
  assert (EDX : exists dxn, match fo, dfo with Some f, _ => Ok (f * ps_df s) | None, Some d => Ok d | None, None => Err ValueError end = Ok dxn /\
                dxn == inject_Z (Z.of_nat q) * ps_df s).
  { destruct fo as [f|]; [exists (f * ps_df s); split; [reflexivity|rewrite Hdx; reflexivity]|].
    destruct dfo as [d|]; [|contradiction]. exists d. split; [reflexivity|assumption]. }
  destruct EDX as (dxn & EDX & Hdxn). unfold ps_rebin. rewrite EDX. cbn [bind]. rewrite Hf, Hp, Hu, !all_some_map.
  destruct (nth_error_ex fr (length fr - 1)) as [xl Hxl]. { destruct fr; [discriminate|simpl; lia]. }
  destruct (rebin_factor fr pw (ps_df s) q true dxn x0 xl k) as (r & st & Er & Ly & Lx & P & Es & Hs); try assumption.
  destruct (rebin_factor fr un (ps_df s) q true dxn x0 xl k) as (ru & stu & Eru & Lyu & Lxu & Pu & Esu & Hsu); try assumption.
  change (method_of true) with MMean in *. rewrite Er. cbn [bind]. rewrite Eru. cbn [bind]. rewrite Es, Hm. cbn [mul_perbin bind map_perbin].
  assert (EM : rint (st * inject_Z m) = (Z.of_nat q * m)%Z).
  { rewrite <- (rint_int (Z.of_nat q * m)). apply rint_comp. rewrite Hs, inject_Z_mult. reflexivity. }
  rewrite EM.
  set (l' := map (fun p => {| b_freq := Some (fst p); b_unnorm := snd p; b_k := 1; b_m := inject_Z (Z.of_nat q * m) |}) (combine (r_x r) (r_y ru))).
  eexists _, l'. split; [reflexivity|].
  assert (HP : plain_bins (r_x r) (r_y ru) (Z.of_nat q * m) = l') by reflexivity.
  split; [|split; [|split; [|split; [|split; [|split; [|split; [|split; [|split] ] ] ] ] ] ] ]; try reflexivity.
  - unfold bins_of. cbn [ps_freq ps_unnorm ps_k ps_m]. rewrite Hk1. rewrite <- HP.
    assert (L : length (r_y ru) = length (r_x r)) by congruence. clear -L.
    unfold plain_bins. split; [|split; [|split; [|split; [|exact Logic.I] ] ] ].
    + revert L. generalize (r_y ru). induction (r_x r) as [|f fr IH]; intros [|u un] L; simpl in *; try discriminate; [reflexivity|].
      rewrite <- IH by lia. reflexivity.
    + revert L. generalize (r_y ru). induction (r_x r) as [|f fr IH]; intros [|u un] L; simpl in *; try discriminate; constructor.
      * intros _. reflexivity.
      * apply IH. lia.
    + intros b Hb. apply in_map_iff in Hb. destruct Hb as (p & <- & _). reflexivity.
    + intros b Hb. apply in_map_iff in Hb. destruct Hb as (p & <- & _). reflexivity.
  - unfold l'. rewrite map_length, combine_length. lia.
  - rewrite <- HP. apply plain_proper. lia.
  - assumption.
  - intros i Hi. destruct (P i Hi) as (f & v & Ef & Ev & Hfv & Hv). destruct (Pu i Hi) as (fu & vu & _ & Evu & _ & Hvu).
    eexists _, f, v. split.
    { unfold l'. rewrite nth_error_map, nth_error_combine by congruence. rewrite Ef, Evu. reflexivity. }
    cbn [b_freq b_unnorm b_k b_m fst snd ps_power]. split; [reflexivity|]. split; [assumption|]. split; [assumption|].
    split; [rewrite nth_error_map, Ev; reflexivity|]. split; [assumption|]. split; reflexivity.
Qed.
Lemma in_band_comp lo hi f f' : f == f' -> in_band lo hi (Some f) = in_band lo hi (Some f').
Proof.
  intros H. simpl. destruct (qle lo f && qle f hi)%bool eqn:A, (qle lo f' && qle f' hi)%bool eqn:B; try reflexivity; exfalso.
  - apply andb_prop in A. destruct A as [A1 A2]. apply andb_false_iff in B. destruct B as [B|B]; qb; lra.
  - apply andb_prop in B. destruct B as [B1 B2]. apply andb_false_iff in A. destruct A as [A|A]; qb; lra.
Qed.
Lemma total_scale c l : total (map (fun v => c * v) l) == c * total l.
Proof. induction l as [|v l IH]; simpl; [ring|]. rewrite IH. ring. Qed.
Lemma total_shift a (l : list Q) : total (map (fun v => v - a) l) == total l - a * inject_Z (Z.of_nat (length l)).
Proof. induction l as [|v l IH]; cbn [map total length]; [change (inject_Z (Z.of_nat 0)) with 0; ring|]. rewrite IH, zof_S. ring. Qed.
Lemma nth_slice {A} (l : list A) i j n : nth_error (slice l i j) n = if Nat.ltb n (j - i) then nth_error l (i + n) else None.
Proof.
  unfold slice. destruct (Nat.ltb n (j - i)) eqn:E.
  - apply Nat.ltb_lt in E. assert (F : forall (a : list A) m p, (p < m)%nat -> nth_error (firstn m a) p = nth_error a p).
    { clear. induction a as [|x a IH]; intros [|m] [|p] H; simpl; try lia; try reflexivity. apply IH. lia. }
    rewrite F by assumption. clear. revert l. induction i as [|i IH]; intros l; [reflexivity|]. destruct l; simpl; [destruct n; reflexivity|]. apply IH.
  - apply Nat.ltb_ge in E. apply nth_error_None. rewrite firstn_length. lia.
Qed.
Lemma rebin_keeps_rms s x0 fr pw un m q k dfo fo lo hi lo' hi' level noise :
  plain_spectrum s x0 fr pw un m -> (0 < q)%nat -> (0 < k)%nat -> length fr = (k * q)%nat ->
  match fo with Some f => f == inject_Z (Z.of_nat q) | None => match dfo with Some d => d == inject_Z (Z.of_nat q) * ps_df s | None => False end end ->
  ps_nphots1 s = ps_nphots s -> 0 < ps_nphots s -> 0 < ps_segment s ->
  match level with None => noise = ps_nphots s | Some v => unnorm_level v (ps_dt s) (ps_n s) (ps_nphots s) (ps_norm s) = Ok noise end ->
  (forall i j f, (i < k)%nat -> (j < q)%nat -> nth_error fr (i * q + j) = Some f ->
     in_band lo hi (Some f) = in_band lo' hi' (Some (x0 + inject_Z (Z.of_nat (i * q)) * ps_df s + (inject_Z (Z.of_nat q) - 1) * ps_df s * (1 # 2)))) ->
  exists s' r2 e2 r2' e2', ps_rebin s dfo fo MMean = Ok s' /\ compute_rms s lo hi level = Ok (Some (r2, e2)) /\
    compute_rms s' lo' hi' level = Ok (Some (r2', e2')) /\ r2' == r2.
Proof.
  intros HP Hq Hk Hlen Hdx H1 Hn Hsg Hlev Hag.
  destruct (rebin_bins s x0 fr pw un m q k dfo fo HP Hq Hk ltac:(lia) Hdx) as (s' & l' & E & Bl & Ll & Pr & Edf & En & Eseg & Edt & Enn & Enorm & Pl).
  pose proof (plain_is_bins s x0 fr pw un m HP) as B0. destruct HP as (Hf & Hp & Hu & Lp & Lu & He & H0 & Hk1 & Hm & Pm & Pd).
  assert (Q1 : 1 <= inject_Z (Z.of_nat q)) by (assert (H := zof_lt 0 q Hq); change (inject_Z (Z.of_nat 0)) with 0 in H; lra).
  rewrite H1 in En.
  destruct (rms_main s lo hi level noise (plain_bins fr un m) B0 (plain_proper fr un m Pm) Pd Hn Hsg Hlev) as (r2 & e2 & V & C & F & _).
  destruct (rms_main s' lo' hi' level noise l' Bl Pr) as (r2' & e2' & V' & C' & F' & _).
  { rewrite Edf. setoid_replace 0 with (0 * ps_df s) by ring. apply Qmult_lt_r; lra. }
  { rewrite En. assumption. } { rewrite Eseg. assumption. }
  { rewrite En, Edt, Enn, Enorm. assumption. }
  exists s', r2, e2, r2', e2'. split; [assumption|]. split; [assumption|]. split; [assumption|].
  apply (fun h => finished_same _ _ _ _ _ _ _ _ h F' F). rewrite En, Eseg.
  set (cn := frac_norm (ps_nphots s) (ps_segment s)).
  rewrite !integral_all. fold cn.
  (* the old sum, by blocks *)
  set (w := map (fun b => if in_band lo hi (b_freq b) then cn * (b_unnorm b - noise) * (ps_df s * b_k b) else 0) (plain_bins fr un m)).
  assert (Lw : length w = (k * q)%nat) by (unfold w, plain_bins; rewrite !map_length, combine_length; lia).
  assert (Ew : total w == total (map (fun i => total (slice w (i * q) (S i * q))) (seq 0 k))).
  { rewrite <- block_sums by lia. rewrite <- Lw, firstn_all. reflexivity. }
  rewrite Ew.
  assert (FS : forall (g : bin -> Q) (h : nat -> Q) l' st, (forall i b, nth_error l' i = Some b -> g b == h (st + i)%nat) -> total (map g l') == total (map h (seq st (length l')))).
  { clear. intros g h l'. induction l' as [|b l' IH]; intros st H; simpl; [reflexivity|]. rewrite (IH (S st)).
    - rewrite (H 0%nat b eq_refl), Nat.add_0_r. reflexivity.
    - intros i c Hc. rewrite (H (S i) c Hc). replace (st + S i)%nat with (S st + i)%nat by lia. reflexivity. }
  rewrite (FS _ (fun i => total (slice w (i * q) (S i * q))) l' 0%nat); [rewrite Ll; reflexivity|].
  intros i b Hb. assert (Hi : (i < k)%nat) by (rewrite <- Ll; apply nth_error_Some; congruence). rewrite Nat.add_0_l.
  destruct (Pl i Hi) as (b' & f & p & Eb & Ef & Hfe & Hub & _ & _ & Hkb & _). rewrite Hb in Eb. injection Eb as <-.
  set (ctr := x0 + inject_Z (Z.of_nat (i * q)) * ps_df s + (inject_Z (Z.of_nat q) - 1) * ps_df s * (1 # 2)) in *.
  assert (Hblk : (S i * q <= k * q)%nat) by (apply Nat.mul_le_mono_r; lia).
  assert (SL : Forall2 Qeq (slice w (i * q) (S i * q))
                 (map (fun v => (if in_band lo' hi' (Some ctr) then cn * ps_df s else 0) * v) (map (fun v => v - noise) (slice un (i * q) (S i * q))))).
  { assert (LL : length (slice w (i * q) (S i * q)) = q) by (rewrite slice_length by lia; simpl; lia).
    assert (LU : length (slice un (i * q) (S i * q)) = q) by (rewrite slice_length by lia; simpl; lia).
    assert (NF : forall (a b : list Q), length a = length b -> (forall n u v, nth_error a n = Some u -> nth_error b n = Some v -> u == v) -> Forall2 Qeq a b).
    { clear. induction a as [|x a IH]; intros [|y b] L H; simpl in *; try discriminate; constructor.
      - apply (H 0%nat); reflexivity.
      - apply IH; [lia|]. intros n u v Hu Hv. apply (H (S n)); assumption. }
    apply NF; [rewrite !map_length; congruence|]. intros n u v Hun Hvn.
    assert (Hn' : (n < q)%nat) by (rewrite <- LL; apply nth_error_Some; congruence).
    rewrite nth_slice in Hun. replace (Nat.ltb n (S i * q - i * q)) with true in Hun by (symmetry; apply Nat.ltb_lt; simpl; lia).
    rewrite !nth_error_map, nth_slice in Hvn. replace (Nat.ltb n (S i * q - i * q)) with true in Hvn by (symmetry; apply Nat.ltb_lt; simpl; lia).
    unfold w, plain_bins in Hun. rewrite !nth_error_map, nth_error_combine in Hun by congruence.
    destruct (nth_error fr (i * q + n)) as [fj|] eqn:Efj; [|discriminate]. destruct (nth_error un (i * q + n)) as [uj|] eqn:Euj; [|discriminate].
    cbn [option_map b_freq b_unnorm b_k fst snd] in Hun, Hvn.
    assert (EO : forall (x y : Q), Some x = Some y -> x = y) by (intros; congruence). apply EO in Hun, Hvn. rewrite <- Hun, <- Hvn. clear Hun Hvn.
    rewrite (Hag i n fj Hi Hn' Efj). fold ctr. destruct (in_band lo' hi' (Some ctr)); ring. }
  rewrite (forall2_total _ _ SL), total_scale, total_shift. rewrite slice_length by lia. replace (S i * q - i * q)%nat with q by (simpl; lia).
  rewrite Ef, (in_band_comp lo' hi' f ctr Hfe), Hkb. destruct (in_band lo' hi' (Some ctr)); [|ring]. rewrite Hub, Edf. field. lra.
Qed.
