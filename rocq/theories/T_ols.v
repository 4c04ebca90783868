(* T_ols.v: property theorems about overlap-and-save convolution and FFT lengths (C40, C67). *)
From Verif Require Import Np Lib Cplx M_nextprod S_nextprod M_ols S_ols P_nextprod P_ols.
From Coq Require Import Lra.
Open Scope R_scope.

(* ---------- C40: overlap-and-save ---------- *)
Theorem C40_zero_padding_partial : forall cast x h size nfft,
  (0 < length h)%nat -> (0 < size)%nat -> (0 < nfft)%nat ->
  (Nat.min size (length x) + length h - 1 <= nfft)%nat ->
  ols cast x h size nfft MConstant = Ok (map cast (same_part (zero_ext x) h (length x))).
Proof. exact ols_zero. Qed.
Print Assumptions C40_zero_padding_partial.
Theorem C40_reflection_partial : forall cast x e h size nfft,
  (0 < length h)%nat -> (0 < size)%nat -> (0 < nfft)%nat ->
  (Nat.min size (length x) + length h - 1 <= nfft)%nat -> (2 <= length x)%nat -> reflected x e ->
  (Nat.even (length h) = true -> (2 <= size)%nat) ->
  ols cast x h size nfft MReflect = Ok (map cast (same_part e h (length x))).
Proof. exact ols_refl. Qed.
Print Assumptions C40_reflection_partial.
Theorem C40_default_length : forall cast x h size,
  (0 < length h)%nat -> (match size with Some s => (0 < s)%nat | None => True end) ->
  exists fuel0, forall fuel, (fuel0 <= fuel)%nat ->
  ols_default fuel cast x h size None MConstant = Ok (map cast (same_part (zero_ext x) h (length x))).
Proof. exact ols_default_ok. Qed.
Print Assumptions C40_default_length.
Theorem C40_integer_signal_refuted : 
  exists x h size nfft out,
  (forall v, In v x -> exists z, v = IZR z) /\ (0 < length h)%nat /\ (0 < size)%nat /\ (size + length h - 1 <= nfft)%nat /\
  ols trunc x h size nfft MConstant = Ok out /\ out <> same_part (zero_ext x) h (length x).
Proof. exact ols_integer_refuted. Qed.
Print Assumptions C40_integer_signal_refuted.
Theorem C40_even_kernel_reflection_refuted : 
  exists x h size nfft e out,
  (2 <= length x)%nat /\ (0 < length h)%nat /\ (0 < size)%nat /\ (size + length h - 1 <= nfft)%nat /\ reflected x e /\
  ols (fun v => v) x h size nfft MReflect = Ok out /\ out <> same_part e h (length x).
Proof. exact ols_reflect_refuted. Qed.
Print Assumptions C40_even_kernel_reflection_refuted.

Example C40_nonvacuous : (0 < length [1; 2; 3])%nat /\ (Nat.min 2 (length [4; 5; 6; 7; 8]) + length [1; 2; 3] - 1 <= 4)%nat /\
  reflected [1; 2] (fun i => if Z.even i then 1 else 2) /\ Nat.even (length [1; 2; 3]) = false.
Proof.
  split; [cbn; lia|]. split; [cbn; lia|]. split; [|reflexivity]. split; [|split].
  - intros [|[|i]] Hi; [reflexivity|reflexivity|cbn in Hi; lia].
  - intros i. now rewrite Z.even_opp.
  - intros i. cbn [length]. replace (2 * (Z.of_nat 2 - 1) - i)%Z with (- i + 2 * 1)%Z by lia.
    now rewrite Z.even_add_mul_2, Z.even_opp.
Qed.

Open Scope Z_scope.
(* ---------- C67: the next product of small factors ---------- *)
Theorem C67_nextprod : forall a x,
  a <> [] -> (forall f, In f a -> 1 < f) -> 0 < x ->
  exists fuel0, forall fuel, (fuel0 <= fuel)%nat -> exists r, nextprod fuel a x = Ok r /\ least (fun p => product_of a p /\ x <= p) r.
Proof. exact nextprod_ok. Qed.
Print Assumptions C67_nextprod.

Example C67_nonvacuous : nextprod 100 [2; 3; 5; 7] 121 = Ok 125 /\ nextprod 100 [2; 3] 11 = Ok 12.
Proof. split; reflexivity. Qed.

