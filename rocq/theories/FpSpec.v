(** Specification of the double precision numbers. *)

From Coq Require Import List ZArith Reals.
Open Scope R_scope.

(** The finite numbers of IEEE 754 double precision, but for the largest ones: the whole
    multiples of a power of two with 53 bits, and with a smallest exponent. *)
Definition double (x : R) : Prop :=
  exists m e : Z, x = IZR m * powerRZ 2 e /\ (Z.abs m < 2 ^ 53)%Z /\ (-1074 <= e)%Z.
Definition doubles (v : list R) : Prop := Forall double v.
