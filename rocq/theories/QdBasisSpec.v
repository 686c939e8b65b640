(** The spherical harmonics of the quasi-dipole coordinates, written independently of the
    model of the code. *)

From Coq Require Import List Reals Arith.
From Verif Require Import LegendreSpec.
Import ListNotations.
Open Scope R_scope.

(** The fully normalised associated Legendre functions of the colatitude: the integral of
    the square over the cosine of the colatitude is one.  They are proportional to the Schmidt
    semi-normalised ones. *)
Definition normalised (n m : nat) (theta : R) : R :=
  sqrt (INR (2 * n + 1) / (if Nat.eqb m 0 then 2 else 4)) * schmidt n m (PI / 2 - theta).

(** A spherical harmonic: a degree and an order, and the cosine or the sine of the longitude *)
Inductive harmonic := Harmonic (n m : nat) (sine : bool).

Definition harmonic_value (k : harmonic) (theta phi : R) : R :=
  let '(Harmonic n m sine) := k in
  normalised n m theta * (if sine then sin (INR m * phi) else cos (INR m * phi)).

(** The order of the harmonics in the file: those of the order zero by the degree, then for
    each order by the degree, with the cosine before the sine *)
Definition harmonics (nmax mmax : nat) : list harmonic :=
  map (fun n => Harmonic n 0 false) (seq 0 (S nmax)) ++
  flat_map (fun m => flat_map (fun n => [Harmonic n m false; Harmonic n m true]) (seq m (S nmax - m))) (seq 1 mmax).
