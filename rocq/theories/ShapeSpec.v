(** Specification of the broadcasting. *)

From Coq Require Import List ZArith.
From Verif Require Import ShapeModel.
Import ListNotations.

(** one stride for each dimension *)
Definition well_formed {A} (a : sarr A) : Prop := length (s_strides a) = length (s_shape a).

(** The array [b] of the shape [shape] repeats the elements of [a] along its additional dimensions. *)
Definition repeats {A} (a b : sarr A) (shape : list nat) : Prop :=
  s_shape b = shape /\ well_formed b /\
  forall ix, length ix = length shape -> s_get b ix = s_get a (firstn (length (s_shape a)) ix).

(** The dimensions agree as far as both have them. *)
Definition agree (a b : list nat) : Prop := exists c, b = a ++ c \/ a = b ++ c.
