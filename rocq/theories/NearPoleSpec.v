(** The terms left out close to the poles. *)
From Coq Require Import Reals.
From Verif Require Import ShEvalSpec.
Open Scope R_scope.

(** The slope of the function of the degree [n] and order [m] close to the poles, sqrt(2 (n+m)!/(n-m)!) / (2^m m!): the function is at most
    cos(latitude)^m times this number *)
Definition pole_factor (n m : nat) : R := sqrt (2 * INR (fact (n + m)) / INR (fact (n - m))) / (2 ^ m * INR (fact m)).

(** The sum of the magnitudes of the terms of the orders above 1 of the eastward component, without cos(latitude)^(m-1) *)
Definition omitted_terms (internal : bool) (gh : nat -> nat -> R * R) (N : nat) (rad : R) : R :=
  6371.2 / Rabs rad * sum_f_R0 (fun n => Rabs (radial internal 6371.2 n rad) *
    sum_f_R0 (fun m => if Nat.leb m 1 then 0 else INR m * (Rabs (fst (gh n m)) + Rabs (snd (gh n m))) * pole_factor n m) n) N.
