(** Specification of the times between the snapshots of a time series and of the evaluated coefficients. *)

From Coq Require Import List ZArith Reals.
From Verif Require Import SparseSpec.
Open Scope R_scope.

(** no other time is between the two ones *)
Definition neighbours (times : list R) (ta tb : R) : Prop := ta < tb /\ forall x, In x times -> ~ (ta < x < tb).
Definition first_time (times : list R) (t : R) : Prop := forall x, In x times -> t <= x.
Definition last_time (times : list R) (t : R) : Prop := forall x, In x times -> x <= t.

(** The coefficient of degree n and order m (sine if m < 0) of the evaluated array, whose last degree is given, is v.
    The coefficients of higher degrees, which the array does not have, are zero.  The cells of the array are
    [Some (Some x)] for the number x. *)
Definition coefficient (result : list (option (option R) * option (option R)) * Z) (n m : Z) (v : R) : Prop :=
  let (full, degree) := result in
  ((n <= degree)%Z /\ exists row col, packed_row n m row /\ packed_col m col /\ cell_value full row col = Some (Some (Some v))) \/
  (degree < n)%Z /\ v = 0.

(** A coefficient within the bounds of the degree has the value, others are zero. *)
Definition bounded_coefficient lo hi result (n m : Z) (v : R) : Prop :=
  (within_bounds lo hi n -> coefficient result n m v) /\ (~ within_bounds lo hi n -> coefficient result n m 0).
