(** Arrays of one dimension as arguments and results of the functions. *)

From Coq Require Import List Reals Arith.
From Verif Require Import ArrModel LegendreModel ShEvalModel.
Import ListNotations.
Open Scope R_scope.

(** an array of numbers *)
Definition vector {A} (junk : A) (xs : list A) : nd A :=
  {| dims := [length xs]; get := fun ix => nth (hd 0%nat ix) xs junk |}.

(** [n] items of [size] elements following each other in the memory [a] *)
Definition rows {A} (n size : nat) (a : nat -> A) : nd (nat -> A) :=
  {| dims := [n]; get := fun ix k => a (hd 0%nat ix * size + k)%nat |}.
