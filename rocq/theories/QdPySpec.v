(** The arrays of the Python interface of the quasi-dipole library. *)

From Coq Require Import List Arith ZArith Reals.
From Verif Require Import QdApexModel QdPyModel.
Import ListNotations.

(** There is a value for every element of the shape. *)
Definition full {A} (a : ndarray A) : Prop := length (nd_values a) = fold_right Nat.mul 1 (nd_shape a).

(** A number or a one-dimensional array *)
Definition at_most_1d {A} (a : ndarray A) : Prop := length (nd_shape a) <= 1.

Definition element {A} (a : ndarray A) (i : nat) (v : A) : Prop := nth_error (nd_values a) i = Some v.

(** The number of the elements fits the integers of Fortran. *)
Definition countable {A} (a : ndarray A) : Prop := (Z.of_nat (length (nd_values a)) < 2 ^ 31)%Z.

(** Arrays of coordinates which are accepted *)
Definition inputs (lat lon rad : ndarray R) (time : ndarray (option R)) : Prop :=
  full lat /\ full lon /\ full rad /\ full time /\ at_most_1d lat /\
  nd_shape lon = nd_shape lat /\ nd_shape rad = nd_shape lat /\ nd_shape time = nd_shape lat.

(** The point [i] of the arrays *)
Definition point_of (lat lon rad : ndarray R) (time : ndarray (option R)) (i : nat) (p : point) : Prop :=
  element lat i (gclat p) /\ element lon i (gclon p) /\ element rad i (gcrad p) /\ element time i (t_dy p).

(** An output array of the shape of an input *)
Definition same_shape {A B} (a : ndarray A) (b : ndarray B) : Prop := full a /\ nd_shape a = nd_shape b.
