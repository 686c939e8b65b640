(** The size of the field of the degrees of an expansion. *)
From Coq Require Import Reals.
From Verif Require Import ShEvalSpec TruncationSpec.
Open Scope R_scope.

(** The length of a vector *)
Definition vector_length (v : R * R * R) : R := let '(a, b, c) := v in sqrt (a ^ 2 + b ^ 2 + c ^ 2).
Definition vector_minus (v w : R * R * R) : R * R * R := let '(a, b, c) := v in let '(d, e, f) := w in (a - d, b - e, c - f).

(** The sum, over the degrees n above [N] and up to [M], of (n + 1) (6371.2 / r)^(n + 2), or for external sources n (r / 6371.2)^(n - 1), times
    the size of the degree *)
Definition remaining_field (internal : bool) (gh : nat -> nat -> R * R) (N M : nat) (rad : R) : R :=
  6371.2 / Rabs rad * sum_f_R0 (fun n => if Nat.leb n N then 0 else
    (if internal then INR n + 1 else INR n) * Rabs (radial internal 6371.2 n rad) * degree_size gh n) M.
(** the same for all degrees up to [M] *)
Definition whole_field (internal : bool) (gh : nat -> nat -> R * R) (M : nat) (rad : R) : R :=
  6371.2 / Rabs rad * sum_f_R0 (fun n => (if internal then INR n + 1 else INR n) * Rabs (radial internal 6371.2 n rad) * degree_size gh n) M.
