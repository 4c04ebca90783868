(* S_dynobj.v: powers of a column in a range of frequencies. *)
From Verif Require Import Np S_utils.
Open Scope Q_scope.

(* the powers with frequency in [lo, hi] *)
Definition in_range_powers (lo hi : Q) (freq col : list Q) : list Q := map snd (filter (fun x => qle lo (fst x) && qle (fst x) hi)%bool (combine freq col)).
(* mean and sum of m consecutive elements, the i-th group *)
Definition group_sum (m i : nat) (l : list Q) : Q := total (map (fun j => nth (i * m + j) l 0) (seq 0 m)).
