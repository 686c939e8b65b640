(** The difference of two sets of coefficients. *)
From Coq Require Import Reals.
Open Scope R_scope.

Definition coefficient_difference (gh gh' : nat -> nat -> R * R) (n m : nat) : R * R :=
  (fst (gh n m) - fst (gh' n m), snd (gh n m) - snd (gh' n m)).
