(* M_ols.v: model of stingray/pulse/overlapandsave/ols.py for one-dimensional real arrays.  Numbers are exact reals. *)
From Verif Require Import Np Cplx M_fourier M_nextprod.
Open Scope R_scope.

(* the mode argument; MOther is any other string *)
Inductive padmode := MConstant | MReflect | MOther.

(* numpy indexing x[lo:hi] of a one-dimensional array with any integers *)
Definition nslice (x : list R) (lo hi : Z) : list R :=
  let n := Z.of_nat (length x) in
  let norm := fun i => if (i <? 0)%Z then Z.max 0 (i + n) else Z.min i n in
  firstn (Z.to_nat (norm hi - norm lo)) (skipn (Z.to_nat (norm lo)) x).

(* np.pad(x, (before, after), mode="constant") (library) *)
Definition pad_constant (x : list R) (before after : nat) : list R := repeat 0 before ++ x ++ repeat 0 after.
(* np.pad(x, (before, after), mode="reflect") (library): position i stands for x mirrored about its first and last
   elements, which are not repeated; a single element is repeated *)
Definition mirror (n : nat) (i : Z) : nat :=
  if Nat.leb n 1 then 0%nat
  else let p := (2 * (Z.of_nat n - 1))%Z in
       let r := (i mod p)%Z in
       Z.to_nat (if (r <? Z.of_nat n)%Z then r else p - r)%Z.
Definition pad_reflect (x : list R) (before after : nat) : list R :=
  map (fun i => nth (mirror (length x) (Z.of_nat i - Z.of_nat before)) x 0) (seq 0 (before + length x + after)).

(* ols.py:205-233 edgesReflect, 234-249 edgesConstant: the slice [lo, hi) *)
Definition edges_reflect (xdim : nat) (s : Z * Z) : Z * Z :=
  let n := Z.of_nat xdim in
  ((if (fst s <? 0)%Z then 0%Z else Z.min (fst s) (n - (snd s - n))%Z),
   (if (n <? snd s)%Z then n else Z.max (snd s) (- fst s)%Z)).
Definition edges_constant (xdim : nat) (s : Z * Z) : Z * Z := (Z.max 0 (fst s), Z.min (Z.of_nat xdim) (snd s)).

(* ols.py:252-276 padEdges *)
Definition pad_edges (x : list R) (s : Z * Z) (mode : padmode) : result (list R) :=
  let n := Z.of_nat (length x) in
  if ((0 <=? fst s)%Z && (snd s <=? n)%Z)%bool then Ok (nslice x (fst s) (snd s))
  else
    let before := Z.to_nat (if (fst s <? 0)%Z then - fst s else 0)%Z in
    let after := Z.to_nat (if (n <? snd s)%Z then snd s - n else 0)%Z in
    let! xpadded := match mode with
                    | MConstant => let e := edges_constant (length x) s in Ok (pad_constant (nslice x (fst e) (snd e)) before after)
                    | MReflect => let e := edges_reflect (length x) s in Ok (pad_reflect (nslice x (fst e) (snd e)) before after)
                    | MOther => Err AssertionError
                    end in
    Ok (firstn (Z.to_nat (snd s - fst s)) xpadded).

(* numpy.fft.rfftn(x, [n]) of a real array (library): x cut or padded with zeros to n, first n//2+1 bins of the transform *)
Definition resize (x : list R) (n : nat) : list R := firstn n x ++ repeat 0 (n - length x).
Definition rfft (x : list R) (n : nat) : result (list cx) :=
  if Nat.eqb n 0 then Err ValueError
  else Ok (firstn (n / 2 + 1) (fft (map rtoc (resize x n)))).
(* numpy.fft.irfftn(X, [n]) (library): the missing bins are the conjugates of those at the opposite frequency; only the real
   part of bins 0 and n/2 counts; X has n//2+1 entries here *)
Definition hermitian (X : list cx) (n k : nat) : cx :=
  if Nat.leb k (n / 2) then
    if (Nat.eqb k 0 || Nat.eqb (2 * k) n)%bool then rtoc (re (nth k X c0)) else nth k X c0
  else cconj (nth (n - k) X c0).
Definition irfft (X : list cx) (n : nat) : result (list R) :=
  if Nat.eqb n 0 then Err ValueError
  else Ok (map (fun m => re (cs n (fun k => cmul (hermitian X n k) (cis n (Z.of_nat (k * m))))) / INR n) (seq 0 n)).

(* ols.py:172-198 prepareh, real h: np.conj(h) is h *)
Definition prepareh (h : list R) (nfft : nat) : result (list cx) :=
  let! H := rfft (rev h) nfft in Ok (map cconj H).

(* ols.py:279-371 olsStep *)
Definition olsStep (x : list R) (hfftconj : list cx) (start len nfft nh : nat) (mode : padmode) : result (list R) :=
  let len := Nat.min len (length x - start) in
  if negb (Nat.leb (len + nh - 1) nfft) then Err AssertionError
  else
    let border := Z.of_nat (nh / 2) in
    let s := (Z.of_nat start - border, Z.of_nat start + Z.of_nat len + Z.of_nat nh - 1 - border)%Z in
    let! xpart := pad_edges x s mode in
    let! X := rfft xpart nfft in
    let! output := irfft (map (fun p => cmul (fst p) (snd p)) (combine X hfftconj)) nfft in
    Ok (firstn len output).

(* ols.py:123-169 array_range, one dimension: the pairs (start, stop) of range(0, n, size) *)
Definition chunks (n size : nat) : list (nat * nat) :=
  map (fun i => (i * size, Nat.min (i * size + size) n))%nat (seq 0 ((n + size - 1) / size)).

(* out[a:b] = v; the conversion to the type of out is cast.  A wrong length is a ValueError (broadcasting of one element is
   not needed: the lengths always agree). *)
Definition set_slice (cast : R -> R) (out : list R) (a b : nat) (v : list R) : result (list R) :=
  if Nat.eqb (length v) (b - a) then Ok (firstn a out ++ map cast v ++ skipn b out) else Err ValueError.

(* ols.py:374-471 ols with given size and nfft; out=None, so the output has the type of x: cast is the identity for floats
   and truncation for an integer x *)
Fixpoint ols_loop (cast : R -> R) (x : list R) (hpre : list cx) (size nfft nh : nat) (mode : padmode) (cks : list (nat * nat)) (out : list R) : result (list R) :=
  match cks with
  | [] => Ok out
  | (a, b) :: cks' =>
    let! v := olsStep x hpre a size nfft nh mode in
    let! out := set_slice cast out a b v in
    ols_loop cast x hpre size nfft nh mode cks' out
  end.
Definition ols (cast : R -> R) (x h : list R) (size nfft : nat) (mode : padmode) : result (list R) :=
  let! hpre := prepareh h nfft in
  if Nat.eqb size 0 then Err AssertionError
  else ols_loop cast x hpre size nfft (length h) mode (chunks (length x) size) (repeat 0 (length x)).
(* ols.py:444-446: the defaults of size and nfft *)
Definition ols_default (fuel : nat) (cast : R -> R) (x h : list R) (size nfft : option nat) (mode : padmode) : result (list R) :=
  let size := match size with Some s => s | None => (4 * length h)%nat end in
  let! nfft := match nfft with
               | Some n => Ok n
               | None => let! n := nextprod fuel [2; 3; 5; 7]%Z (Z.of_nat (size + length h - 1)) in Ok (Z.to_nat n)
               end in
  ols cast x h size nfft mode.
