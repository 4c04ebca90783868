(* P_rmscalc.v: proofs about rms_calculation. *)
From Verif Require Import Np Lib S_utils S_spec M_utils M_spec M_rmscalc P_seg_regions P_seg_cut P_rebin P_rebin2 P_logbin P_base S_base P_filters P_rms.
From Coq Require Import Lqa.
Open Scope Q_scope.

Definition positive_bins (B : list bin) : Prop := exists c, forall b, In b B -> 0 < b_k b /\ 0 < b_m b /\ b_m b == c * b_k b.
Lemma rms_calculation_main B lo hi nphots T M K nb noise dead : 0 < nphots -> 0 < T -> positive_bins B -> per_ok b_k B K -> per_ok b_m B M -> same_kind K M ->
  exists r2 e2 V, rms_calculation (map b_unnorm B) lo hi nphots T M K nb noise dead = Ok (r2, e2) /\
    finished (integral (1 / T) nphots T noise B) V r2 e2 /\
    ((exists b, In b B /\ ~ b_m b == 1) \/ (length B <= 4)%nat -> V == integral_var (1 / T) nphots T B) /\
    (forall k, (4 < length B)%nat -> (forall b, In b B -> b_m b == 1) -> (forall b, In b B -> b_k b == k) ->
       V == grouped_var (1 / T * k) (map (fun b => frac_norm nphots T * b_unnorm b) B)).
Proof.
  intros Hn HT (c & HB) PK PM SK.
  assert (Hd : 0 < 1 / T) by (apply Qlt_shift_div_l; lra).
  set (tf := fun p => p * 2 * T / (nphots * nphots)).
  assert (Htf : forall p, tf p == frac_norm nphots T * p). { intros p. unfold tf, frac_norm. field. lra. }
  destruct (rms_norm_main (map tf (map b_unnorm B)) (tf noise) (map_perbin (fun k => 1 / T * k) K) M
              (map (fun b => 1 / T * b_k b) B) (map b_m B) (c / (1 / T))) as (r2 & e2 & V & ER & F & V1 & V2).
  - rewrite !map_length. reflexivity.
  - rewrite !map_length. reflexivity.
  - destruct K as [v|vs]; simpl in *.
    + intros x Hx. apply in_map_iff in Hx. destruct Hx as (b & <- & Hb). rewrite (PK b Hb). reflexivity.
    + subst vs. rewrite map_map. reflexivity.
  - destruct M as [v|vs]; simpl in *; [|assumption].
    intros x Hx. apply in_map_iff in Hx. destruct Hx as (b & <- & Hb). rewrite (PM b Hb). reflexivity.
  - destruct K, M; simpl in *; tauto.
  - intros d Hx. apply in_map_iff in Hx. destruct Hx as (b & <- & Hb). destruct (HB b Hb) as (H1 & _).
    setoid_replace 0 with (0 * b_k b) by ring. apply Qmult_lt_r; assumption.
  - intros d Hx. apply in_map_iff in Hx. destruct Hx as (b & <- & Hb). apply HB in Hb. tauto.
  - clear -HB HT. induction B as [|b B IH]; simpl; constructor.
    + destruct (HB b (or_introl eq_refl)) as (_ & _ & H). rewrite H. field. lra.
    + apply IH. intros b' Hb'. apply HB. right. assumption.
  - exists r2, e2, V. split; [exact ER|]. split; [|split].
    + assert (EI : sum3 (fun x y _ => (x - tf noise) * y) (map tf (map b_unnorm B)) (map (fun b => 1 / T * b_k b) B) (map b_m B) == integral (1 / T) nphots T noise B).
      { rewrite map_map, sum3_map. unfold integral. apply total_map_ext. intros b _. rewrite !Htf. ring. }
      unfold finished in *. destruct F as (F1 & F2 & F3 & F4). rewrite EI in F1, F2, F3, F4. split; [assumption|]. split; [assumption|]. split; [assumption|].
      intros HI. destruct (F4 HI) as (v & Ev & Hv). exists v. split; [assumption|]. rewrite <- EI. assumption.
    + intros HV. rewrite V1.
      * rewrite map_map, sum3_map. unfold integral_var. apply total_map_ext. intros b _. cbv zeta. rewrite !Htf. reflexivity.
      * rewrite !map_length. destruct HV as [(b & Hb & Nb)|H]; [left|right; assumption].
        exists (b_m b). split; [apply in_map; assumption|assumption].
    + intros k Hl Hm1 Hk. rewrite (V2 (1 / T * k)).
      * apply grouped_ext; [reflexivity|]. rewrite map_map. clear -Htf. induction B; simpl; constructor; auto.
      * rewrite !map_length. assumption.
      * intros m Hm. apply in_map_iff in Hm. destruct Hm as (b & <- & Hb). apply Hm1. assumption.
      * intros x Hx. apply in_map_iff in Hx. destruct Hx as (b & <- & Hb). rewrite (Hk b Hb). reflexivity.
Qed.
(* the frequency limits, the number of bins and the dead time do nothing *)
Lemma unused u lo hi lo' hi' n T M K nb nb' noise dead dead' :
  rms_calculation u lo hi n T M K nb noise dead = rms_calculation u lo' hi' n T M K nb' noise dead'.
Proof. reflexivity. Qed.
Lemma mixed u lo hi n T ms k nb noise dead : (forall v, exists a, In a ms /\ ~ a == v) -> rms_calculation u lo hi n T (Each ms) (One k) nb noise dead = Err ValueError.
Proof. intros D. unfold rms_calculation, rms_norm. rewrite (simplify_diff ms D). reflexivity. Qed.
(* an array M whose entries are all the same is a number *)
Lemma constant_m u lo hi n T m ms k nb noise dead : (forall a, In a ms -> a = m) -> 
  rms_calculation u lo hi n T (Each (m :: ms)) (One k) nb noise dead = rms_calculation u lo hi n T (One m) (One k) nb noise dead.
Proof.
  intros D. unfold rms_calculation, rms_norm. replace (simplify (Each (m :: ms))) with (One m); [reflexivity|]. unfold simplify.
  replace (forallb (qeq m) ms) with true; [reflexivity|]. symmetry. apply forallb_forall. intros x I. rewrite (D x I). qb. reflexivity.
Qed.
