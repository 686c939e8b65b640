(** The field of a model loaded from coefficient files. *)
From Coq Require Import List ZArith Reals.
From Coquelicot Require Import Coquelicot.
From Verif Require Import SparseSpec ShEvalSpec IgrfSpec FieldSpec.
Import ListNotations.
Open Scope R_scope.

(** The result for the time [t] (NaN is [None]) and the location (latitude, longitude, radius): the NaNs, [None], if the time is
    not valid, otherwise minus the gradient of the potential with the coefficients of the time, [value u n m v]: at the
    time u the coefficient of degree n and order m is v. *)
Definition field_result (validity : Rbar * Rbar) (value : R -> Z -> Z -> R -> Prop) (internal : bool) (lo hi : Z) (N : nat)
  (tx : option R * (R * R * R)) (o : option (R * R * R)) : Prop :=
  let '(t, (lat, lon, rad)) := tx in
  (~ in_validity validity t -> o = None) /\
  (forall u gh, t = Some u -> in_validity validity t -> -90 <= lat <= 90 -> rad <> 0 ->
     coefficient_table (value u) lo hi gh ->
     exists field, o = Some field /\ field_of internal gh N lat lon rad field).

(** The coefficient of an IGRF file at a decimal year; zero if the file has no such row *)
Definition igrf_coefficient (times : list R) (rows : list igrf_row) (n m : Z) (year v : R) : Prop :=
  (exists r, In r rows /\ i_n r = n /\ i_m r = m /\ igrf_value times r year v) \/
  (forall r, In r rows -> ~ (i_n r = n /\ i_m r = m)) /\ v = 0.
