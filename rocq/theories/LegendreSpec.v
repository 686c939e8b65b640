(** Specification of the Schmidt semi-normalised associated Legendre functions. *)

From Coq Require Import Reals Factorial.
From Coquelicot Require Import Coquelicot.
Open Scope R_scope.

(** The k-th derivative of the Legendre polynomial of degree n (Rodrigues' formula):
    P_n(x) = 1/(2^n n!) d^n/dx^n (x^2 - 1)^n *)
Definition legendre_deriv (n k : nat) (x : R) : R :=
  Derive_n (fun t => (t ^ 2 - 1) ^ n) (n + k) x / (2 ^ n * INR (fact n)).

(** S_n^m at the elevation (latitude) [elv], without the Condon-Shortley phase:
    sqrt((2 - delta_m0) (n-m)!/(n+m)!) cos(elv)^m P_n^(m)(sin(elv)) *)
Definition schmidt (n m : nat) (elv : R) : R :=
  sqrt ((if Nat.eqb m 0 then 1 else 2) * INR (fact (n - m)) / INR (fact (n + m)))
  * cos elv ^ m * legendre_deriv n m (sin elv).

(** Position of the function of degree n and order m in the arrays *)
Definition nm_index (n m : nat) : nat := (n * (n + 1) / 2 + m)%nat.

(** Number of functions up to the given degree *)
Definition nm_size (degree : nat) : nat := ((degree + 1) * (degree + 2) / 2)%nat.
