(* Proofs: the bracketing search of fftfit *)
From Verif Require Import Np Lib Cplx M_fourier M_fftfit S_bracket.
From Coq Require Import Reals ZArith List Lia Lra.
Open Scope R_scope.

Lemma rsign_same a b : rsign a = rsign b <-> same_sign a b.
Proof.
  unfold rsign, same_sign. split.
  - destruct (Rlt_dec 0 a), (Rlt_dec a 0), (Rlt_dec 0 b), (Rlt_dec b 0); intros H; try discriminate H; split; split; intros; first [lra | tauto].
  - intros ((H1 & H2) & (H3 & H4)).
    destruct (Rlt_dec 0 a), (Rlt_dec a 0), (Rlt_dec 0 b), (Rlt_dec b 0); try reflexivity; exfalso; first [lra | tauto].
Qed.
Lemma rsign_eqb a b : Z.eqb (rsign a) (rsign b) = true <-> same_sign a b.
Proof. rewrite Z.eqb_eq. apply rsign_same. Qed.

Lemma bracket_from fuel f x step r : forall k up down, up = x + INR k * step -> down = x - INR k * step ->
  (forall j, (j < k)%nat -> same_sign (f (x + INR j * step)) (f x) /\ same_sign (f (x - INR j * step)) (f x)) ->
  bracket fuel f (rsign (f x)) step up down = Ok r -> first_change f x step r.
Proof.
  induction fuel as [|fuel IH]; intros k up down Eu Ed H E; [discriminate|]. cbn [bracket] in E.
  destruct (Z.eqb (rsign (f up)) (rsign (f x))) eqn:Bu; cbn [negb] in E.
  - destruct (Z.eqb (rsign (f down)) (rsign (f x))) eqn:Bd; cbn [negb] in E.
    + apply (IH (S k)) in E; trivial.
      * rewrite Eu, S_INR. ring.
      * rewrite Ed, S_INR. ring.
      * intros j Hj. apply rsign_eqb in Bu. apply rsign_eqb in Bd.
        destruct (Nat.eq_dec j k) as [->|]; [now rewrite <- Eu, <- Ed|]. apply H. lia.
    + injection E as <-. exists k. split; [exact H|]. split.
      * intros Hs. apply rsign_eqb in Hs. congruence.
      * right. split; trivial. rewrite <- Eu. now apply rsign_eqb.
  - injection E as <-. exists k. split; [exact H|]. split; [|now left].
    intros Hs. apply rsign_eqb in Hs. congruence.
Qed.
Lemma bracket_first fuel f x step r : bracket fuel f (rsign (f x)) step x x = Ok r -> first_change f x step r.
Proof. apply (bracket_from fuel f x step r 0); cbn; try lra. intros j Hj. lia. Qed.

Lemma first_bracket f x step r : first_change f x step r -> exists fuel, bracket fuel f (rsign (f x)) step x x = Ok r.
Proof.
  intros (k & Hk & Hr & Hc). exists (S k).
  assert (G : forall m i up down, (i + m = k)%nat -> up = x + INR i * step -> down = x - INR i * step ->
    bracket (S m) f (rsign (f x)) step up down = Ok r).
  { induction m as [|m IH]; intros i up down Ei Eu Ed.
    - assert (i = k) by lia. subst i. cbn [bracket]. destruct Hc as [->|(-> & Hs)].
      + rewrite <- Eu in Hr. destruct (Z.eqb (rsign (f up)) (rsign (f x))) eqn:B; [apply rsign_eqb in B; tauto|]. cbn. now subst.
      + rewrite <- Eu in Hs. apply rsign_eqb in Hs. rewrite Hs. cbn [negb]. rewrite <- Ed in Hr.
        destruct (Z.eqb (rsign (f down)) (rsign (f x))) eqn:B; [apply rsign_eqb in B; tauto|]. cbn. now subst.
    - change (bracket (S (S m)) f (rsign (f x)) step up down) with
        (if negb (Z.eqb (rsign (f up)) (rsign (f x))) then Ok up
         else if negb (Z.eqb (rsign (f down)) (rsign (f x))) then Ok down
         else bracket (S m) f (rsign (f x)) step (up + step) (down - step)).
      destruct (Hk i ltac:(lia)) as (Hu & Hd). rewrite <- Eu in Hu. rewrite <- Ed in Hd.
      apply rsign_eqb in Hu. apply rsign_eqb in Hd. rewrite Hu, Hd. cbn [negb].
      apply (IH (S i)); [lia| |]; rewrite S_INR; subst; ring. }
  apply (G k 0%nat); cbn; trivial; lra.
Qed.

Lemma length_error fuel brentq p t : length t <> length p -> taylor_fftfit fuel brentq p t = Err IndexError.
Proof. intros H. unfold taylor_fftfit. apply Nat.eqb_neq in H. now rewrite H. Qed.
