(* S_mkcross.v: powers multiplied with 2 / model, bin by bin. *)
From Coq Require Import Reals List.
From Verif Require Import Cplx.
Open Scope R_scope.

Definition corrected (model : list R) (l l' : list cx) : Prop :=
  length l' = length l /\ forall i m z, nth_error model i = Some m -> nth_error l i = Some z -> nth_error l' i = Some (2 / m * re z, 2 / m * im z).
Definition corrected_opt (model : list R) (o o' : option (list cx)) : Prop :=
  match o, o' with None, None => True | Some l, Some l' => corrected model l l' | _, _ => False end.
