(** Specification of the arrays in memory. *)

From Coq Require Import List Reals ZArith.
From Verif Require Import StridedModel.
Import ListNotations.
Open Scope Z_scope.

(** a multi-index of an element of an array of the given shape *)
Definition index_of (dims : list nat) (idx : list nat) : Prop := Forall2 Nat.lt idx dims.

(** NumPy: the address of an element is the address of the array plus the indices times
    the strides. *)
Definition address (a : arrd) (idx : list nat) : Z :=
  data a + fold_right Z.add 0 (map (fun '(i, s) => Z.of_nat i * s) (combine idx (stride a))).

(** the value of an element; [None] when there is no double at its address *)
Definition element (m : memory) (a : arrd) (idx : list nat) : option R :=
  if address a idx mod 8 =? 0 then m (address a idx / 8) else None.

(** the vector whose components are at the last dimension *)
Definition vector (m : memory) (a : arrd) (idx : list nat) : option (R * R * R) :=
  match element m a (idx ++ [0%nat]), element m a (idx ++ [1%nat]), element m a (idx ++ [2%nat]) with
  | Some x, Some y, Some z => Some (x, y, z)
  | _, _, _ => None
  end.

(** the value of a scalar for all items, or of the array at the item *)
Definition angle (m : memory) (a : arrd) (idx : list nat) : option R :=
  match shape a with [] => element m a [] | _ => element m a idx end.

(** an array in memory; it may be a view of another array, with any strides *)
Definition array_in (m : memory) (a : arrd) : Prop :=
  length (stride a) = length (shape a) /\
  forall idx, index_of (shape a) idx -> exists v, element m a idx = Some v.

(** memory for [n] doubles which does not belong to any array *)
Definition free_at (m : memory) (base : Z) (n : nat) : Prop :=
  base mod 8 = 0 /\ forall k, base / 8 <= k < base / 8 + Z.of_nat n -> m k = None.

(** [out] is a new array in the memory [m'], and all other arrays of [m] are as before *)
Definition new_in (m m' : memory) (out : arrd) : Prop :=
  array_in m' out /\
  (forall idx, index_of (shape out) idx -> element m out idx = None) /\
  (forall k v, m k = Some v -> m' k = Some v).

(** the shape of an array of vectors, with the components at the last dimension *)
Definition vectors_shape (dims : list nat) : Prop :=
  exists ds, dims = ds ++ [3%nat] /\ (length ds <= 15)%nat.

(** a scalar, or an array of the shape of the vectors without the last dimension *)
Definition angles_shape (dims vdims : list nat) : Prop := dims = [] \/ dims ++ [3%nat] = vdims.
