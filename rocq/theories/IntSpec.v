(** Specification of the machines of which the int has 32 bits. *)

From Coq Require Import Bool List Reals Arith ZArith.
From Verif Require Import LegendreModel SizeModel IntModel.
Open Scope Z_scope.

(** The number is representable. *)
Definition int32 (x : Z) : Prop := - 2 ^ 31 <= x < 2 ^ 31.

(** The operations of which the result is representable give that result; the others may do anything. *)
Definition conforming (ar : machine) : Prop := forall x, int32 x -> ar x = Some x.

(** The latitude (in degrees) is close to a pole for the library: the cosine is below 1e-10. *)
Definition near_pole (lat : R) : Prop := (Rabs (cos (lat * DG2RAD)) < 1 / 10 ^ 10)%R.

(** The number of the pairs (n, m) with 0 <= m <= n <= degree *)
Definition pairs (degree : Z) : Z := (degree + 1) * (degree + 2) / 2.

(** The degree of an evaluation: that of the coefficients, or the requested one if it is smaller *)
Definition used_degree (csize degree : Z) : Z :=
  if (degree <? 0) || (size_to_degree csize <? degree) then size_to_degree csize else degree.
