(** C30: the eastward component close to the poles *)
From Coq Require Import List ZArith Reals.
From Coquelicot Require Import Coquelicot.
From Verif Require Import ArrModel CoefModel GeoModel ShEvalModel ShEvalSpec ShEvalExamples FieldSpec NearPoleSpec NearPoleExamples.
Import ListNotations.
Open Scope R_scope.

(** At all latitudes between the poles the eastward component of the gradient differs from the derivative of the potential by at most 1e-10 of
    the terms of the orders above 1, and not at all where the cosine of the latitude is at least 1e-10. *)
Theorem C30_east_error : forall csize deg N coef internal lat lon rad mem north east up e,
  (1 <= csize < 2 ^ 50)%Z -> expansion_degree csize deg N -> -90 < lat < 90 -> rad <> 0 ->
  sheval (nd0 (lat, lon, rad)) csize (nd0 coef) CT_GEOCENTRIC_SPHERICAL CT_GEOCENTRIC_SPHERICAL SM_GRADIENT internal deg
    1 (1, 1, 1) mem = Ok ([], [(None, Some (north, east, up))]) ->
  let gh := fun n m => coef (n * (n + 1) / 2 + m)%nat in
  is_derive (fun p => potential internal 6371.2 gh N rad (lat * (PI / 180)) p) (lon * (PI / 180)) (rad * cos (lat * (PI / 180)) * e) ->
  Rabs (east - e) <= 1 / 10 ^ 10 * omitted_terms internal gh N rad /\ (1 / 10 ^ 10 <= cos (lat * (PI / 180)) -> east = e).
Proof. exact sheval_east_error. Qed.
Print Assumptions C30_east_error.

(** The same for the fields of C98 to C103 *)
Theorem C30_field_error : forall internal gh N lat lon rad north east up e, -90 < lat < 90 -> rad <> 0 ->
  field_of internal gh N lat lon rad (north, east, up) ->
  is_derive (fun p => potential internal 6371.2 gh N rad (lat * (PI / 180)) p) (lon * (PI / 180)) (- (rad * cos (lat * (PI / 180)) * e)) ->
  Rabs (east - e) <= 1 / 10 ^ 10 * omitted_terms internal gh N rad /\ (1 / 10 ^ 10 <= cos (lat * (PI / 180)) -> east = e).
Proof. exact east_error. Qed.
Print Assumptions C30_field_error.

(** For the coefficient of C30_near_pole_refuted the error is at most 2e-10 of it. *)
Example C30_east_error_example : 0 < omitted_terms true (fun n m => g22 (n * (n + 1) / 2 + m)%nat) 2 6371.2 <= 2.
Proof. exact ex_omitted. Qed.
