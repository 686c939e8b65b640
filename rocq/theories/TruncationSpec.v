(** The size of the degrees of an expansion. *)
From Coq Require Import Reals.
From Verif Require Import ShEvalSpec.
Open Scope R_scope.

(** The square root of the sum of the squares of the coefficients of the degree [n] *)
Definition degree_size (gh : nat -> nat -> R * R) (n : nat) : R :=
  sqrt (sum_f_R0 (fun m => fst (gh n m) ^ 2 + snd (gh n m) ^ 2) n).

(** The sum of the sizes of the degrees above [N], up to [M], at the radius [rad] *)
Definition remaining_degrees (internal : bool) (gh : nat -> nat -> R * R) (N M : nat) (rad : R) : R :=
  6371.2 * sum_f_R0 (fun n => if Nat.leb n N then 0 else Rabs (radial internal 6371.2 n rad) * degree_size gh n) M.
