(** C106: the size of the field *)
From Coq Require Import List ZArith Reals.
From Verif Require Import ArrModel CoefModel GeoModel ShEvalModel ShEvalSpec FieldSpec TruncationSpec FieldSizeSpec TruncationExamples FieldSizeExamples.
Import ListNotations.
Open Scope R_scope.

(** The gradients evaluated up to the degrees N and M differ at most by the sum of the sizes of the degrees in between, at all latitudes, and no
    gradient is larger than the sum for all its degrees. *)
Theorem C106_gradient : forall csize deg deg' N M coef internal lat lon rad mem mem' g g',
  (1 <= csize < 2 ^ 50)%Z -> expansion_degree csize deg N -> expansion_degree csize deg' M -> (N <= M)%nat ->
  -90 <= lat <= 90 -> rad <> 0 ->
  sheval (nd0 (lat, lon, rad)) csize (nd0 coef) CT_GEOCENTRIC_SPHERICAL CT_GEOCENTRIC_SPHERICAL SM_GRADIENT internal deg
    1 (1, 1, 1) mem = Ok ([], [(None, Some g)]) ->
  sheval (nd0 (lat, lon, rad)) csize (nd0 coef) CT_GEOCENTRIC_SPHERICAL CT_GEOCENTRIC_SPHERICAL SM_GRADIENT internal deg'
    1 (1, 1, 1) mem' = Ok ([], [(None, Some g')]) ->
  let gh := fun n m => coef (n * (n + 1) / 2 + m)%nat in
  vector_length (vector_minus g' g) <= remaining_field internal gh N M rad /\ vector_length g' <= whole_field internal gh M rad.
Proof. exact sheval_field_truncation. Qed.
Print Assumptions C106_gradient.

(** The same for the fields of C98 to C103 *)
Theorem C106_field : forall internal gh N M lat lon rad f f', (N <= M)%nat -> -90 <= lat <= 90 -> rad <> 0 ->
  field_of internal gh N lat lon rad f -> field_of internal gh M lat lon rad f' ->
  vector_length (vector_minus f' f) <= remaining_field internal gh N M rad.
Proof. exact field_truncation. Qed.
Print Assumptions C106_field.

(** The bound is attained by the axial dipole at the pole. *)
Example C106_field_example : field_of true (fun n m => g10 (n * (n + 1) / 2 + m)%nat) 1 90 0 6371.2 (0, 0, 2) /\
  vector_length (0, 0, 2) = 2 /\ whole_field true (fun n m => g10 (n * (n + 1) / 2 + m)%nat) 1 6371.2 = 2.
Proof. exact ex_field_size. Qed.
