(** The field of a model with several components. *)
From Coq Require Import List ZArith Reals.
From Coquelicot Require Import Coquelicot.
From Verif Require Import SparseSpec ShEvalSpec ShcModel ShcLoadSpec FieldSpec.
Import ListNotations.
Open Scope R_scope.

(** The number of the component which is evaluated at the time [t]: it is valid, and none of the valid ones is before it (the first
    one), or behind it (the last one). *)
Definition chosen (first : bool) (validities : list (Rbar * Rbar)) (t : option R) (k : nat) : Prop :=
  (exists v, nth_error validities k = Some v /\ in_validity v t) /\
  forall j v, nth_error validities j = Some v -> in_validity v t -> if first then (k <= j)%nat else (j <= k)%nat.

(** The result for the time [t] (NaN is [None]) and the location (latitude, longitude, radius): the NaNs, [None], if no component is
    valid, otherwise minus the gradient of the potential with the coefficients of the chosen one at the time, [value u n m v]. *)
Definition composed_result (first : bool) (validities : list (Rbar * Rbar)) (values : list (R -> Z -> Z -> R -> Prop))
  (internal : bool) (lo hi : Z) (N : nat) (tx : option R * (R * R * R)) (o : option (R * R * R)) : Prop :=
  let '(t, (lat, lon, rad)) := tx in
  ((forall v, In v validities -> ~ in_validity v t) -> o = None) /\
  (forall k value u gh, t = Some u -> chosen first validities t k -> nth_error values k = Some value ->
     -90 <= lat <= 90 -> rad <> 0 -> coefficient_table (value u) lo hi gh ->
     exists field, o = Some field /\ field_of internal gh N lat lon rad field).

(** The coefficients of several SHC files: the sum of those of the files *)
Definition sum_value (years : bool) (ds : list (@shc_data R)) (u : R) (n m : Z) (v : R) : Prop :=
  exists vs, Forall2 (fun d w => shc_value years d n m u w) ds vs /\ v = fold_right Rplus 0 vs.

(** No coefficient is given by two of the files. *)
Definition disjoint_files (ds : list (@shc_data R)) : Prop :=
  forall i j a b n m, nth_error ds i = Some a -> nth_error ds j = Some b -> file_lists a n m -> file_lists b n m -> i = j.
