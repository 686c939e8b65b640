(** The truncation error of the field of a model. *)
From Coq Require Import List ZArith Reals.
From Coquelicot Require Import Coquelicot.
From Verif Require Import FieldSpec FieldSizeSpec.
Import ListNotations.
Open Scope R_scope.

(** The results [out] and [out'] for the times and locations [txs] and the maximum degrees [K] and [K']: NaNs for the same times, those
    which are not valid, and otherwise vectors whose difference is at most as long as the sum of the sizes of the degrees in between;
    [value u n m v]: at the time u the coefficient of degree n and order m is v. *)
Definition truncated (validity : Rbar * Rbar) (value : R -> Z -> Z -> R -> Prop) (internal : bool) (lo : Z) (K K' : nat)
  (txs : list (option R * (R * R * R))) (out out' : list (option (R * R * R))) : Prop :=
  length out = length txs /\ length out' = length txs /\
  forall i t lat lon rad o o', nth_error txs i = Some (t, (lat, lon, rad)) -> nth_error out i = Some o -> nth_error out' i = Some o' ->
    (~ in_validity validity t -> o = None /\ o' = None) /\
    (forall u gh, t = Some u -> in_validity validity t -> -90 <= lat <= 90 -> rad <> 0 ->
       coefficient_table (value u) lo (Z.of_nat K') gh ->
       exists f f', o = Some f /\ o' = Some f' /\ vector_length (vector_minus f' f) <= remaining_field internal gh K K' rad).
