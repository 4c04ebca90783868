(* P_ols.v: overlap-and-save convolution *)
From Verif Require Import Np Lib Cplx M_fourier S_fourier P_dft M_nextprod M_ols S_ols S_nextprod P_nextprod.
From Coq Require Import Lra.
Open Scope R_scope.

Definition prod_at (a b : list R) (k : nat) : cx := cmul (dft a k) (cconj (dft b k)).

Lemma dft_real0 x : im (dft x 0) = 0.
Proof. rewrite dft_0. reflexivity. Qed.

Lemma prod_neg a b k : length a = length b -> (0 < k < length a)%nat -> prod_at a b (length a - k) = cconj (prod_at a b k).
Proof.
  intros E H. unfold prod_at. rewrite dft_neg by exact H. rewrite E, dft_neg by (rewrite <- E; exact H).
  rewrite conj_mul. reflexivity.
Qed.

Lemma half_sum n : (0 < n)%nat -> (n / 2 < n)%nat.
Proof. intros. apply Nat.div_lt; lia. Qed.

Lemma hermitian_prod a b n k : length a = n -> length b = n -> (k < n)%nat ->
  hermitian (map (prod_at a b) (seq 0 (n / 2 + 1))) n k = prod_at a b k.
Proof.
  intros La Lb Hk. unfold hermitian.
  assert (Hn : forall i, (i <= n / 2)%nat -> nth i (map (prod_at a b) (seq 0 (n / 2 + 1))) c0 = prod_at a b i).
  { intros i Hi. rewrite nth_indep with (d' := prod_at a b 0) by (rewrite map_length, seq_length; lia).
    rewrite map_nth, seq_nth by lia. reflexivity. }
  assert (D : (2 * (n / 2) <= n < 2 * (n / 2) + 2)%nat).
  { pose proof (Nat.div_mod n 2). pose proof (Nat.mod_upper_bound n 2). lia. }
  destruct (Nat.leb_spec k (n / 2)) as [Hle|Hgt].
  - rewrite Hn by lia.
    assert (R : (k = 0 \/ 2 * k = n)%nat -> rtoc (re (prod_at a b k)) = prod_at a b k).
    { intros C. apply cx_eq; [reflexivity|]. cbn [im rtoc snd]. destruct (Nat.eq_dec k 0) as [->|K0].
      - unfold prod_at. cbn. pose proof (dft_real0 a). pose proof (dft_real0 b). cbn in *. rewrite H, H0. ring.
      - assert (Ek : (k = n - k)%nat) by lia.
        assert (P := prod_neg a b k ltac:(congruence) ltac:(lia)). rewrite La, <- Ek in P.
        assert (I : im (prod_at a b k) = - im (prod_at a b k)) by (rewrite P at 1; reflexivity). lra. }
    destruct (Nat.eqb_spec k 0); cbn [orb]; [apply R; lia|].
    destruct (Nat.eqb_spec (2 * k) n); [apply R; lia|]. reflexivity.
  - rewrite Hn by lia. rewrite <- La. rewrite prod_neg, conj_conj by (try congruence; lia). reflexivity.
Qed.

Lemma rfft_ok x n : (0 < n)%nat -> rfft x n = Ok (map (dft (resize x n)) (seq 0 (n / 2 + 1))).
Proof.
  intros H. unfold rfft. destruct (Nat.eqb_spec n 0); [lia|]. f_equal.
  assert (L : length (resize x n) = n).
  { unfold resize. rewrite app_length, firstn_length, repeat_length. lia. }
  rewrite fft_map, L. rewrite firstn_map. f_equal.
  pose proof (half_sum n H). replace n with ((n / 2 + 1) + (n - (n / 2 + 1)))%nat at 2 by lia.
  rewrite seq_app, firstn_app, seq_length, Nat.sub_diag, firstn_O, app_nil_r.
  rewrite firstn_all2 by (rewrite seq_length; lia). reflexivity.
Qed.

(* circular correlation *)
Lemma corr_sum a b n m : length a = n -> length b = n -> (m < n)%nat ->
  re (cs n (fun k => cmul (prod_at a b k) (cis n (Z.of_nat (k * m))))) / INR n
  = rs n (fun j => nth j b 0 * nth ((m + j) mod n) a 0).
Proof.
  intros La Lb Hm.
  assert (Hn : INR n <> 0) by (apply not_0_INR; lia).
  assert (T : cs n (fun k => cmul (prod_at a b k) (cis n (Z.of_nat (k * m))))
     = rtoc (rs n (fun j => INR n * (nth j b 0 * nth ((m + j) mod n) a 0)))).
  { transitivity (cs n (fun k => cs n (fun j => cs n (fun i =>
       cmul (rtoc (val a i * val b j)) (cis n (Z.of_nat k * (Z.of_nat m + Z.of_nat j - Z.of_nat i))))))).
    - apply cs_ext. intros k _. unfold prod_at. rewrite !dft_cs, conj_cs, La, Lb.
      rewrite <- cs_mul_l, <- cs_mul. apply cs_ext. intros j _.
      rewrite <- !cs_mul. apply cs_ext. intros i _.
      rewrite conj_mul, cis_conj.
      replace (Z.of_nat k * (Z.of_nat m + Z.of_nat j - Z.of_nat i))%Z
        with (- Z.of_nat (k * i) + (- - Z.of_nat (k * j) + Z.of_nat (k * m)))%Z by lia.
      rewrite !cis_add.
      replace (cconj (rtoc (val b j))) with (rtoc (val b j)) by (apply cx_eq; cbn; ring).
      replace (rtoc (val a i * val b j)) with (cmul (rtoc (val a i)) (rtoc (val b j))) by (apply cx_eq; cbn; ring).
      ring.
    - rewrite cs_swap.
      transitivity (cs n (fun j => rtoc (INR n * (nth j b 0 * nth ((m + j) mod n) a 0)))).
      + apply cs_ext. intros j Hj. rewrite cs_swap.
        set (i0 := ((m + j) mod n)%nat).
        assert (Hi0 : (i0 < n)%nat) by (apply Nat.mod_upper_bound; lia).
        rewrite (cs_delta n i0).
        * rewrite cs_mul_l.
          assert (E : cs n (fun k => cis n (Z.of_nat k * (Z.of_nat m + Z.of_nat j - Z.of_nat i0))) = rtoc (INR n)).
          { transitivity (cs n (fun _ => rtoc 1)).
            - apply cs_ext. intros k _.
              replace (Z.of_nat k * (Z.of_nat m + Z.of_nat j - Z.of_nat i0))%Z with ((Z.of_nat k * Z.of_nat ((m + j) / n)) * Z.of_nat n)%Z.
              + apply cis_period. lia.
              + unfold i0. pose proof (Nat.div_mod (m + j) n ltac:(lia)). nia.
            - apply cx_eq; [rewrite re_cs|rewrite im_cs]; cbn; rewrite rs_const; ring. }
          rewrite E. unfold val. apply cx_eq; cbn; ring.
        * exact Hi0.
        * intros i Hi Ni. rewrite cs_mul_l, cis_geom; [ring|lia|].
          intros C. apply Ni. unfold i0.
          apply Z.mod_divide in C; [|lia]. destruct C as [q Hq].
          apply Nat2Z.inj. rewrite Nat2Z.inj_mod, Nat2Z.inj_add. 
          replace (Z.of_nat m + Z.of_nat j)%Z with (Z.of_nat i + q * Z.of_nat n)%Z by lia.
          rewrite Z_mod_plus_full, Z.mod_small; lia.
      + apply cx_eq; [rewrite re_cs|rewrite im_cs]; cbn; [reflexivity|rewrite rs_const; ring]. }
  rewrite T. cbn [re rtoc fst]. rewrite rs_scal_l. field. exact Hn.
Qed.

Lemma combine_map2 {A B C D} (f : A -> B) (g : A -> C) (h : B * C -> D) l :
  map h (combine (map f l) (map g l)) = map (fun x => h (f x, g x)) l.
Proof. induction l; cbn; congruence. Qed.

Lemma circular a b nfft : (0 < nfft)%nat ->
  exists A B, rfft a nfft = Ok A /\ rfft b nfft = Ok B /\
  irfft (map (fun p => cmul (fst p) (snd p)) (combine A (map cconj B))) nfft
  = Ok (map (fun m => rs nfft (fun j => nth j (resize b nfft) 0 * nth ((m + j) mod nfft) (resize a nfft) 0)) (seq 0 nfft)).
Proof.
  intros H. eexists. eexists. split; [apply rfft_ok, H|]. split; [apply rfft_ok, H|].
  assert (L : forall x, length (resize x nfft) = nfft).
  { intros x. unfold resize. rewrite app_length, firstn_length, repeat_length. lia. }
  rewrite map_map, combine_map2. unfold irfft. destruct (Nat.eqb_spec nfft 0); [lia|]. f_equal.
  apply map_ext_in. intros m Hm. apply in_seq in Hm. rewrite <- corr_sum by (auto; lia).
  f_equal. f_equal. apply cs_ext. intros k Hk. f_equal.
  change (map (fun x => cmul (fst (dft (resize a nfft) x, cconj (dft (resize b nfft) x))) (snd (dft (resize a nfft) x, cconj (dft (resize b nfft) x)))) (seq 0 (nfft / 2 + 1)))
    with (map (prod_at (resize a nfft) (resize b nfft)) (seq 0 (nfft / 2 + 1))).
  apply hermitian_prod; auto.
Qed.

Lemma nth_resize x n i : (i < n)%nat -> nth i (resize x n) 0 = nth i x 0.
Proof.
  intros H. unfold resize. destruct (Nat.lt_ge_cases i (length x)).
  - rewrite app_nth1 by (rewrite firstn_length; lia).
    rewrite <- (firstn_skipn n x) at 2. rewrite app_nth1 by (rewrite firstn_length; lia). reflexivity.
  - rewrite app_nth2 by (rewrite firstn_length; lia). rewrite nth_repeat. symmetry. apply nth_overflow. lia.
Qed.

Lemma step_sum xpart h nfft m len : (0 < length h)%nat -> (m < len)%nat -> length xpart = (len + length h - 1)%nat ->
  (len + length h - 1 <= nfft)%nat ->
  rs nfft (fun j => nth j (resize (rev h) nfft) 0 * nth ((m + j) mod nfft) (resize xpart nfft) 0)
  = rs (length h) (fun i => nth i h 0 * nth (m + (length h - 1) - i) xpart 0).
Proof.
  intros Hh Hm Lx Hn.
  replace nfft with (length h + (nfft - length h))%nat at 1 by lia. rewrite rs_add.
  rewrite (rs_zero (nfft - length h)).
  2: { intros i Hi. rewrite nth_resize by lia. rewrite nth_overflow by (rewrite rev_length; lia). ring. }
  rewrite Rplus_0_r, rs_rev. apply rs_ext. intros i Hi.
  rewrite nth_resize by lia. rewrite rev_nth by lia.
  rewrite Nat.mod_small by lia. rewrite nth_resize by lia.
  f_equal; f_equal; lia.
Qed.

Lemma step_ok x h start size nfft mode e len :
  (0 < length h)%nat -> (start < length x)%nat -> (0 < size)%nat -> len = Nat.min size (length x - start) ->
  (len + length h - 1 <= nfft)%nat ->
  pad_edges x (Z.of_nat start - Z.of_nat (length h / 2), Z.of_nat start + Z.of_nat len + Z.of_nat (length h) - 1 - Z.of_nat (length h / 2))%Z mode
   = Ok (map (fun i => e (Z.of_nat start - Z.of_nat (length h / 2) + Z.of_nat i)%Z) (seq 0 (len + length h - 1))) ->
  exists hp, prepareh h nfft = Ok hp /\
  olsStep x hp start size nfft (length h) mode
  = Ok (map (fun m => convolved e h (Z.of_nat m + Z.of_nat ((length h - 1) / 2))) (seq start len)).
Proof.
  intros Hh Hs Hz El Hn Hp.
  set (xp := map (fun i => e (Z.of_nat start - Z.of_nat (length h / 2) + Z.of_nat i)%Z) (seq 0 (len + length h - 1))) in *.
  assert (Lp : length xp = (len + length h - 1)%nat) by (unfold xp; now rewrite map_length, seq_length).
  destruct (circular xp (rev h) nfft ltac:(lia)) as (A & B & EA & EB & EI).
  unfold prepareh. rewrite EB. cbn [bind]. eexists. split; [reflexivity|].
  unfold olsStep. rewrite <- El. cbv zeta. destruct (Nat.leb_spec (len + length h - 1) nfft); [|lia]. cbn [negb].
  rewrite Hp. cbn [bind]. rewrite EA. cbn [bind]. rewrite EI. cbn [bind]. f_equal.
  rewrite firstn_map.
  replace (firstn len (seq 0 nfft)) with (seq 0 len).
  2: { replace nfft with (len + (nfft - len))%nat by lia. rewrite seq_app, firstn_app, seq_length, Nat.sub_diag, firstn_O, app_nil_r.
       symmetry. apply firstn_all2. rewrite seq_length. lia. }
  assert (Sh : seq start len = map (fun m => start + m)%nat (seq 0 len)).
  { clear. revert start. induction len as [|l IH]; intros; cbn; [reflexivity|]. f_equal; [lia|].
    rewrite (IH (S start)), <- (seq_shift l 0), map_map. apply map_ext. intros. lia. }
  rewrite Sh, map_map. apply map_ext_in. intros m Hm. apply in_seq in Hm.
  rewrite (step_sum xp h nfft m len) by (auto; lia).
  unfold convolved. apply rs_ext. intros i Hi. f_equal. unfold xp.
  set (f := fun i0 : nat => e (Z.of_nat start - Z.of_nat (length h / 2) + Z.of_nat i0)%Z).
  rewrite nth_indep with (d' := f 0%nat) by (rewrite map_length, seq_length; lia).
  rewrite map_nth, seq_nth by lia. unfold f. f_equal.
  pose proof (Nat.div_mod (length h) 2 ltac:(lia)). pose proof (Nat.mod_upper_bound (length h) 2 ltac:(lia)).
  pose proof (Nat.div_mod (length h - 1) 2 ltac:(lia)). pose proof (Nat.mod_upper_bound (length h - 1) 2 ltac:(lia)).
  lia.
Qed.

(* ---- slices and padding ---- *)
Lemma nslice_nat x lo hi : (0 <= lo)%Z -> (lo <= hi)%Z ->
  nslice x lo hi = firstn (Z.to_nat hi - Z.to_nat lo) (skipn (Z.to_nat lo) x).
Proof.
  intros H0 H1. unfold nslice. destruct (Z.ltb_spec hi 0); [lia|]. destruct (Z.ltb_spec lo 0); [lia|].
  destruct (Z.le_gt_cases (Z.of_nat (length x)) lo).
  - rewrite !Z.min_r by lia. rewrite Z.sub_diag. rewrite skipn_all2 with (n := Z.to_nat lo) by lia. now rewrite !firstn_nil.
  - rewrite (Z.min_l lo) by lia.
    destruct (Z.le_gt_cases (Z.of_nat (length x)) hi).
    + rewrite Z.min_r by lia. rewrite !firstn_all2 by (rewrite skipn_length; lia). reflexivity.
    + rewrite Z.min_l by lia. f_equal. lia.
Qed.
Lemma nslice_len x lo hi : (0 <= lo)%Z -> (lo <= hi <= Z.of_nat (length x))%Z -> length (nslice x lo hi) = Z.to_nat (hi - lo).
Proof. intros. rewrite nslice_nat by lia. rewrite firstn_length, skipn_length. lia. Qed.
Lemma nth_firstn_lt {A} (l : list A) n i d : (i < n)%nat -> nth i (firstn n l) d = nth i l d.
Proof.
  revert n i. induction l as [|a l IH]; intros [|n] [|i] H; cbn; try lia; auto. apply IH. lia.
Qed.
Lemma nth_skipn {A} (l : list A) n i d : nth i (skipn n l) d = nth (n + i) l d.
Proof. revert n. induction l as [|a l IH]; intros [|n]; cbn; auto. destruct i; reflexivity. Qed.
Lemma nslice_nth x lo hi i : (0 <= lo)%Z -> (lo <= hi)%Z -> (Z.of_nat i < hi - lo)%Z ->
  nth i (nslice x lo hi) 0 = nth (Z.to_nat lo + i) x 0.
Proof. intros. rewrite nslice_nat by lia. rewrite nth_firstn_lt by lia. apply nth_skipn. Qed.

Lemma map_seq_nth (l : list R) f n : length l = n -> (forall i, (i < n)%nat -> nth i l 0 = f i) -> l = map f (seq 0 n).
Proof.
  intros L H. apply nth_ext with (d := 0) (d' := f 0%nat); [now rewrite map_length, seq_length|].
  intros i Hi. rewrite map_nth, seq_nth by lia. apply H. lia.
Qed.

Lemma pad_zero x a b : (a < Z.of_nat (length x))%Z -> (0 < b)%Z -> (a <= b)%Z ->
  pad_edges x (a, b) MConstant = Ok (map (fun i => zero_ext x (a + Z.of_nat i)) (seq 0 (Z.to_nat (b - a)))).
Proof.
  intros Ha Hb Hab. unfold pad_edges. cbn [fst snd]. set (n := Z.of_nat (length x)) in *.
  destruct (Z.leb_spec 0 a); cbn [andb].
  destruct (Z.leb_spec b n).
  - f_equal. apply map_seq_nth; [apply nslice_len; unfold n in *; lia|].
    intros i Hi. rewrite nslice_nth by lia. unfold zero_ext. fold n.
    destruct (Z.leb_spec 0 (a + Z.of_nat i)); [|lia]. destruct (Z.ltb_spec (a + Z.of_nat i) n); [|lia]. cbn [andb]. f_equal. lia.
  - cbv zeta. cbn [bind]. unfold edges_constant, pad_constant. cbn [fst snd]. fold n.
    destruct (Z.ltb_spec a 0); [lia|]. destruct (Z.ltb_spec n b); [|lia]. cbn [Z.to_nat repeat app].
    rewrite Z.max_r, Z.min_l by lia. f_equal.
    assert (L : length (nslice x a n) = Z.to_nat (n - a)) by (apply nslice_len; unfold n in *; lia).
    apply map_seq_nth; [rewrite firstn_length, app_length, repeat_length, L; lia|].
    intros i Hi. rewrite nth_firstn_lt by lia. unfold zero_ext. fold n.
    destruct (Z.leb_spec 0 (a + Z.of_nat i)); [|lia]. destruct (Z.ltb_spec (a + Z.of_nat i) n); cbn [andb].
    + rewrite app_nth1 by lia. rewrite nslice_nth by lia. f_equal. lia.
    + rewrite app_nth2 by lia. apply nth_repeat.
  - cbv zeta. cbn [bind]. unfold edges_constant, pad_constant. cbn [fst snd]. fold n.
    destruct (Z.ltb_spec a 0); [|lia]. rewrite Z.max_l by lia.
    assert (L : length (nslice x 0 (Z.min n b)) = Z.to_nat (Z.min n b)) by (rewrite nslice_len; unfold n in *; lia).
    f_equal. apply map_seq_nth.
    { rewrite firstn_length, !app_length, !repeat_length, L. destruct (Z.ltb_spec n b); lia. }
    intros i Hi. rewrite nth_firstn_lt by lia. unfold zero_ext. fold n.
    destruct (Z.leb_spec 0 (a + Z.of_nat i)); cbn [andb].
    + rewrite app_nth2 by (rewrite repeat_length; lia). rewrite repeat_length.
      destruct (Z.ltb_spec (a + Z.of_nat i) n).
      * rewrite app_nth1 by (rewrite L; lia). rewrite nslice_nth by lia. f_equal. lia.
      * rewrite app_nth2 by (rewrite L; lia). apply nth_repeat.
    + rewrite app_nth1 by (rewrite repeat_length; lia). apply nth_repeat.
Qed.

Lemma reflect_period x e i q : reflected x e -> e (i + q * (2 * (Z.of_nat (length x) - 1)))%Z = e i.
Proof.
  intros (_ & H0 & H1).
  assert (S1 : forall i, e (i + 2 * (Z.of_nat (length x) - 1))%Z = e i).
  { intros j. rewrite <- (H0 j), <- (H1 (- j)%Z). f_equal. lia. }
  assert (S2 : forall k : nat, forall i, e (i + Z.of_nat k * (2 * (Z.of_nat (length x) - 1)))%Z = e i).
  { induction k as [|k IH]; intros j; [f_equal; lia|].
    transitivity (e ((j + 2 * (Z.of_nat (length x) - 1)) + Z.of_nat k * (2 * (Z.of_nat (length x) - 1)))%Z); [f_equal; lia|].
    rewrite IH. apply S1. }
  destruct (Z.le_gt_cases 0 q).
  - rewrite <- (S2 (Z.to_nat q) i). f_equal. lia.
  - rewrite <- (S2 (Z.to_nat (- q)) (i + q * (2 * (Z.of_nat (length x) - 1)))%Z). f_equal. lia.
Qed.

Lemma reflect_mirror x e i : (2 <= length x)%nat -> reflected x e -> e i = nth (mirror (length x) i) x 0.
Proof.
  intros Hn R. unfold mirror. destruct (Nat.leb_spec (length x) 1); [lia|]. cbv zeta.
  set (p := (2 * (Z.of_nat (length x) - 1))%Z).
  assert (E : e i = e (i mod p)%Z).
  { rewrite <- (reflect_period x e (i mod p) (i / p) R). f_equal. fold p. pose proof (Z.div_mod i p). lia. }
  assert (B : (0 <= i mod p < p)%Z) by (apply Z.mod_pos_bound; lia).
  rewrite E. destruct R as (R0 & R1 & R2). destruct (Z.ltb_spec (i mod p) (Z.of_nat (length x))).
  - rewrite <- R0 by lia. f_equal. lia.
  - rewrite <- R2. fold p. rewrite <- R0 by lia. f_equal. lia.
Qed.

Lemma mirror_in n i : (0 <= i < Z.of_nat n)%Z -> mirror n i = Z.to_nat i.
Proof.
  intros H. unfold mirror. destruct (Nat.leb_spec n 1); [lia|]. cbv zeta. rewrite Z.mod_small by lia.
  destruct (Z.ltb_spec i (Z.of_nat n)); lia.
Qed.
Lemma mirror_left n i : (- Z.of_nat n < i < 0)%Z -> mirror n i = Z.to_nat (- i).
Proof.
  intros H. unfold mirror. destruct (Nat.leb_spec n 1); [lia|]. cbv zeta.
  rewrite <- (Z_mod_plus_full i 1), Z.mod_small by lia.
  destruct (Z.ltb_spec (i + 1 * (2 * (Z.of_nat n - 1))) (Z.of_nat n)); lia.
Qed.
Lemma mirror_right n i : (Z.of_nat n <= i <= 2 * (Z.of_nat n - 1))%Z -> mirror n i = Z.to_nat (2 * (Z.of_nat n - 1) - i).
Proof.
  intros H. unfold mirror. destruct (Nat.leb_spec n 1); [lia|]. cbv zeta.
  destruct (Z.eq_dec i (2 * (Z.of_nat n - 1))) as [->|N].
  - rewrite Z_mod_same_full. destruct (Z.ltb_spec 0 (Z.of_nat n)); lia.
  - rewrite Z.mod_small by lia. destruct (Z.ltb_spec i (Z.of_nat n)); lia.
Qed.

Lemma nslice_all x hi : (Z.of_nat (length x) <= hi)%Z -> nslice x 0 hi = x.
Proof. intros H. rewrite nslice_nat by lia. cbn [skipn]. apply firstn_all2. lia. Qed.

Lemma firstn_seq_map (f : nat -> R) k m : (k <= m)%nat -> firstn k (map f (seq 0 m)) = map f (seq 0 k).
Proof.
  intros H. rewrite firstn_map. f_equal. replace m with (k + (m - k))%nat by lia.
  rewrite seq_app, firstn_app, seq_length, Nat.sub_diag, firstn_O, app_nil_r. apply firstn_all2. rewrite seq_length. lia.
Qed.

Lemma pad_refl x e a b : (2 <= length x)%nat -> reflected x e ->
  (a < Z.of_nat (length x))%Z -> (0 < b)%Z -> (a <= b)%Z ->
  ((a < 0)%Z -> (b <= Z.of_nat (length x))%Z -> (- a < b \/ Z.of_nat (length x) <= - a)%Z) ->
  ((0 <= a)%Z -> (Z.of_nat (length x) < b)%Z -> (a + b < 2 * Z.of_nat (length x))%Z) ->
  pad_edges x (a, b) MReflect = Ok (map (fun i => e (a + Z.of_nat i)%Z) (seq 0 (Z.to_nat (b - a)))).
Proof.
  intros Hn R Ha Hb Hab HC HD. unfold pad_edges. cbn [fst snd].
  assert (M := fun i => reflect_mirror x e i Hn R).
  set (n := Z.of_nat (length x)) in *.
  destruct (Z.leb_spec 0 a); cbn [andb].
  destruct (Z.leb_spec b n).
  - f_equal. apply map_seq_nth; [apply nslice_len; unfold n in *; lia|].
    intros i Hi. rewrite nslice_nth by lia. rewrite M, mirror_in by lia. f_equal. lia.
  - specialize (HD ltac:(lia) ltac:(lia)).
    cbv zeta. cbn [bind]. unfold edges_reflect, pad_reflect. cbn [fst snd]. fold n.
    destruct (Z.ltb_spec a 0); [lia|]. destruct (Z.ltb_spec n b); [|lia]. rewrite Z.min_l by lia.
    assert (L : length (nslice x a n) = Z.to_nat (n - a)) by (apply nslice_len; unfold n in *; lia).
    f_equal. rewrite firstn_seq_map by (rewrite L; lia). apply map_ext_in. intros i Hi. apply in_seq in Hi.
    rewrite L, M. destruct (Z.lt_ge_cases (Z.of_nat i) (n - a)).
    + rewrite mirror_in by lia. rewrite nslice_nth by lia. rewrite mirror_in by lia. f_equal. lia.
    + rewrite mirror_right by lia. rewrite nslice_nth by lia. rewrite mirror_right by lia. f_equal. lia.
  - specialize (HC ltac:(lia)).
    cbv zeta. cbn [bind]. unfold edges_reflect, pad_reflect. cbn [fst snd]. fold n.
    destruct (Z.ltb_spec a 0); [|lia].
    destruct (Z.ltb_spec n b).
    + rewrite nslice_all by lia. f_equal. rewrite firstn_seq_map by (unfold n in *; lia).
      apply map_ext. intros i. rewrite M. f_equal. f_equal. lia.
    + specialize (HC ltac:(lia)). destruct HC as [HC|HC].
      * rewrite Z.max_l by lia.
        assert (L : length (nslice x 0 b) = Z.to_nat b) by (rewrite nslice_len; unfold n in *; lia).
        f_equal. rewrite firstn_seq_map by (rewrite L; lia). apply map_ext_in. intros i Hi. apply in_seq in Hi.
        rewrite L, M. destruct (Z.lt_ge_cases (a + Z.of_nat i) 0).
        -- rewrite mirror_left by lia. rewrite nslice_nth by lia. rewrite mirror_left by lia. f_equal. lia.
        -- rewrite mirror_in by lia. rewrite nslice_nth by lia. rewrite mirror_in by lia. f_equal. lia.
      * rewrite nslice_all by lia. f_equal. rewrite firstn_seq_map by (unfold n in *; lia).
        apply map_ext. intros i. rewrite M. f_equal. f_equal. lia.
Qed.

(* ---- the loop over the chunks ---- *)
Lemma loop_ok cast x hpre size nfft nh mode (f : nat -> R) : (0 < size)%nat ->
  (forall start, (start < length x)%nat -> olsStep x hpre start size nfft nh mode = Ok (map f (seq start (Nat.min size (length x - start))))) ->
  forall k i out, (i + k = (length x + size - 1) / size)%nat -> length out = length x ->
  firstn (Nat.min (i * size) (length x)) out = map (fun m => cast (f m)) (seq 0 (Nat.min (i * size) (length x))) ->
  ols_loop cast x hpre size nfft nh mode (map (fun i => (i * size, Nat.min (i * size + size) (length x)))%nat (seq i k)) out
  = Ok (map (fun m => cast (f m)) (seq 0 (length x))).
Proof.
  intros Hs St. set (n := length x) in *.
  assert (Dv : forall i, (i < (n + size - 1) / size)%nat <-> (i * size < n)%nat).
  { intros i. pose proof (Nat.div_mod (n + size - 1) size ltac:(lia)). pose proof (Nat.mod_upper_bound (n + size - 1) size ltac:(lia)). nia. }
  induction k as [|k IH]; intros i out Ei Lo Ho.
  - cbn [seq map ols_loop].
    assert (G : (n <= i * size)%nat). { destruct (Nat.lt_ge_cases (i * size) n) as [C|]; [|auto]. apply Dv in C. lia. }
    rewrite Nat.min_r in Ho by lia. rewrite firstn_all2 in Ho by lia. now rewrite Ho.
  - cbn [seq map ols_loop].
    assert (G : (i * size < n)%nat) by (apply Dv; lia).
    rewrite (St (i * size)%nat G). cbn [bind]. fold n. unfold set_slice. rewrite map_length, seq_length.
    assert (Em : (Nat.min (i * size + size) n - i * size = Nat.min size (n - i * size))%nat) by lia.
    rewrite Em, Nat.eqb_refl. cbn [bind]. rewrite Nat.min_l in Ho by lia.
    apply IH; [lia| |].
    + rewrite !app_length, !map_length, seq_length, firstn_length, skipn_length. lia.
    + replace (S i * size)%nat with (i * size + size)%nat by lia.
      rewrite app_assoc. rewrite firstn_app.
      assert (LL : length (firstn (i * size) out ++ map cast (map f (seq (i * size) (Nat.min size (n - i * size))))) = Nat.min (i * size + size) n).
      { rewrite app_length, !map_length, seq_length, firstn_length. lia. }
      rewrite LL, Nat.sub_diag, firstn_O, app_nil_r. rewrite firstn_all2 by lia.
      rewrite Ho, map_map, <- map_app. f_equal. 
      replace (Nat.min (i * size + size) n) with (i * size + Nat.min size (n - i * size))%nat by lia.
      now rewrite seq_app.
Qed.

Lemma ols_core cast x h size nfft mode e : (0 < length h)%nat -> (0 < size)%nat -> (0 < nfft)%nat ->
  (Nat.min size (length x) + length h - 1 <= nfft)%nat ->
  (forall start, (start < length x)%nat -> let len := Nat.min size (length x - start) in
    pad_edges x (Z.of_nat start - Z.of_nat (length h / 2), Z.of_nat start + Z.of_nat len + Z.of_nat (length h) - 1 - Z.of_nat (length h / 2))%Z mode
   = Ok (map (fun i => e (Z.of_nat start - Z.of_nat (length h / 2) + Z.of_nat i)%Z) (seq 0 (len + length h - 1)))) ->
  ols cast x h size nfft mode = Ok (map cast (same_part e h (length x))).
Proof.
  intros Hh Hs Hf Hn Hp. unfold ols.
  assert (P : exists hp, prepareh h nfft = Ok hp) by (unfold prepareh; rewrite rfft_ok by exact Hf; cbn [bind]; eauto).
  destruct P as [hp P]. rewrite P. cbn [bind]. destruct (Nat.eqb_spec size 0); [lia|].
  unfold chunks, same_part. rewrite map_map.
  apply (loop_ok cast x hp size nfft (length h) mode (fun m => convolved e h (Z.of_nat m + Z.of_nat ((length h - 1) / 2)))); auto.
  - intros start Hst. destruct (step_ok x h start size nfft mode e _ Hh Hst Hs eq_refl ltac:(lia) (Hp start Hst)) as (hp' & E' & E).
    assert (hp' = hp) by congruence. subst. exact E.
  - apply repeat_length.
Qed.

Lemma ols_zero cast x h size nfft : (0 < length h)%nat -> (0 < size)%nat -> (0 < nfft)%nat ->
  (Nat.min size (length x) + length h - 1 <= nfft)%nat ->
  ols cast x h size nfft MConstant = Ok (map cast (same_part (zero_ext x) h (length x))).
Proof.
  intros Hh Hs Hf Hn. apply ols_core; auto. intros start Hst len.
  pose proof (Nat.div_mod (length h) 2 ltac:(lia)). pose proof (Nat.mod_upper_bound (length h) 2 ltac:(lia)).
  rewrite pad_zero by (unfold len; lia). f_equal. f_equal. f_equal. unfold len; lia.
Qed.

Lemma ols_refl cast x e h size nfft : (0 < length h)%nat -> (0 < size)%nat -> (0 < nfft)%nat ->
  (Nat.min size (length x) + length h - 1 <= nfft)%nat -> (2 <= length x)%nat -> reflected x e ->
  (Nat.even (length h) = true -> (2 <= size)%nat) ->
  ols cast x h size nfft MReflect = Ok (map cast (same_part e h (length x))).
Proof.
  intros Hh Hs Hf Hn H2 R Hev. apply ols_core; auto. intros start Hst len.
  pose proof (Nat.div_mod (length h) 2 ltac:(lia)). pose proof (Nat.mod_upper_bound (length h) 2 ltac:(lia)).
  assert (O : Nat.even (length h) = false -> (length h mod 2 = 1)%nat).
  { intros E. destruct (Nat.eq_dec (length h mod 2) 0) as [C|]; [|lia].
    assert (Nat.even (length h) = true) by (apply Nat.even_spec; exists (length h / 2)%nat; lia). congruence. }
  assert (HH : (length h mod 2 = 1 \/ 2 <= size)%nat) by (destruct (Nat.even (length h)); auto).
  rewrite (pad_refl x e) by (try assumption; unfold len; try lia).
  f_equal. f_equal. f_equal. unfold len; lia.
Qed.

Lemma ols_integer_refuted : exists x h size nfft out,
  (forall v, In v x -> exists z, v = IZR z) /\ (0 < length h)%nat /\ (0 < size)%nat /\ (size + length h - 1 <= nfft)%nat /\
  ols trunc x h size nfft MConstant = Ok out /\ out <> same_part (zero_ext x) h (length x).
Proof.
  exists [1], [/ 2], 1%nat, 1%nat. rewrite ols_zero by (cbn; lia). eexists. repeat split; try (cbn; lia).
  - intros v [<-|[]]. now exists 1%Z.
  - intros E. unfold same_part, convolved, rs in E. cbn in E. injection E as E.
    assert (U : up (/ 2 * 1 + 0) = 1%Z) by (symmetry; apply tech_up; cbn; lra).
    unfold zero_ext in E; cbn in E. unfold trunc in E. destruct (Rle_dec 0 (/ 2 * 1 + 0)); [|lra].
    rewrite U in E. cbn in E. lra.
Qed.

Lemma ols_reflect_refuted : exists x h size nfft e out,
  (2 <= length x)%nat /\ (0 < length h)%nat /\ (0 < size)%nat /\ (size + length h - 1 <= nfft)%nat /\ reflected x e /\
  ols (fun v => v) x h size nfft MReflect = Ok out /\ out <> same_part e h (length x).
Proof.
  exists [1; 2], [0; 1], 1%nat, 2%nat, (fun i => if Z.even i then 1 else 2).
  rewrite (ols_core (fun v => v) [1; 2] [0; 1] 1 2 MReflect (fun i => if (i <=? 0)%Z then 1 else 2)) by
    (first [cbn; lia|intros [|[|s]] Hs; [reflexivity|reflexivity|cbn in Hs; lia]]).
  eexists. repeat split; try (cbn; lia).
  - intros [|[|i]] Hi; [reflexivity|reflexivity|cbn in Hi; lia].
  - intros i. now rewrite Z.even_opp.
  - intros i. cbn [length]. replace (2 * (Z.of_nat 2 - 1) - i)%Z with (- i + 2 * 1)%Z by lia.
    now rewrite Z.even_add_mul_2, Z.even_opp.
  - intros E. unfold same_part, convolved, rs in E. cbn in E. injection E as E. lra.
Qed.

Lemma ols_default_ok cast x h size : (0 < length h)%nat -> (match size with Some s => (0 < s)%nat | None => True end) ->
  exists fuel0, forall fuel, (fuel0 <= fuel)%nat ->
  ols_default fuel cast x h size None MConstant = Ok (map cast (same_part (zero_ext x) h (length x))).
Proof.
  intros Hh Hs. unfold ols_default. set (sz := match size with Some s => s | None => (4 * length h)%nat end).
  assert (Hz : (0 < sz)%nat) by (unfold sz; destruct size; [exact Hs|lia]).
  destruct (nextprod_ok [2; 3; 5; 7]%Z (Z.of_nat (sz + length h - 1))) as (f0 & F).
  - discriminate.
  - intros f Hf. cbn in Hf. lia.
  - lia.
  - exists f0. intros fuel Hf. destruct (F fuel Hf) as (r & E & (_ & Hr) & _). cbv zeta. rewrite E. cbn [bind].
    apply ols_zero; auto; lia.
Qed.
