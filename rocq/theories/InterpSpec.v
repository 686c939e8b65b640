(** Specification of the interpolation. *)

From Coq Require Import List Reals.
Open Scope R_scope.

(** Strictly increasing nodes *)
Definition increasing (v : list R) : Prop :=
  forall i j a b, (i < j)%nat -> nth_error v i = Some a -> nth_error v j = Some b -> a < b.

(** The value at [t] of the straight line through the points (ta, ca) and (tb, cb) *)
Definition line (ta ca tb cb t : R) : R := ca + (t - ta) * ((cb - ca) / (tb - ta)).

(** The [k]-th and the next point of the series *)
Definition segment (t0 c0 : list R) (k : nat) (ta ca tb cb : R) : Prop :=
  nth_error t0 k = Some ta /\ nth_error c0 k = Some ca /\
  nth_error t0 (S k) = Some tb /\ nth_error c0 (S k) = Some cb.
