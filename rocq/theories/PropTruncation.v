(** C106: the size of the functions and of the potential *)
From Coq Require Import List ZArith Reals.
From Coquelicot Require Import Coquelicot.
From Verif Require Import ArrModel LegendreModel LegendreSpec CoefModel GeoModel ShEvalModel ShEvalSpec NearPoleSpec TruncationSpec TruncationExamples.
Import ListNotations.
Open Scope R_scope.

(** The squares of the functions of each degree returned by legendre() sum up to one. *)
Theorem C106_unit : forall lats degree mem junk i lat n,
  nth_error lats i = Some lat -> -90 <= lat <= 90 -> (n <= degree)%nat ->
  sum_f_R0 (fun m => fst (legendre lats degree mem junk) (i * nm_size degree + nm_index n m)%nat ^ 2) n = 1.
Proof. exact legendre_unit. Qed.
Print Assumptions C106_unit.

(** No function is larger than one, and the functions of the order m decrease at least as cos(latitude)^m to the poles. *)
Theorem C106_functions : forall lats degree mem junk i lat n m,
  nth_error lats i = Some lat -> -90 <= lat <= 90 -> (m <= n <= degree)%nat ->
  let p := Rabs (fst (legendre lats degree mem junk) (i * nm_size degree + nm_index n m)%nat) in
  p <= 1 /\ ((1 <= m)%nat -> p <= Rabs (cos (lat * PI / 180)) ^ m * pole_factor n m).
Proof. exact legendre_small. Qed.
Print Assumptions C106_functions.

(** The potentials evaluated up to the degrees N and M differ at most by the sum of the sizes of the degrees in between, and no
    potential is larger than the sum of the sizes of its degrees. *)
Theorem C106_truncation : forall csize deg deg' N M coef internal co sp sg lat lon rad mem mem' v w,
  (1 <= csize < 2 ^ 50)%Z -> expansion_degree csize deg N -> expansion_degree csize deg' M -> (N <= M)%nat ->
  -90 <= lat <= 90 -> rad <> 0 ->
  sheval (nd0 (lat, lon, rad)) csize (nd0 coef) CT_GEOCENTRIC_SPHERICAL co SM_POTENTIAL internal deg sp sg mem = Ok ([], [(Some v, None)]) ->
  sheval (nd0 (lat, lon, rad)) csize (nd0 coef) CT_GEOCENTRIC_SPHERICAL co SM_POTENTIAL internal deg' sp sg mem' = Ok ([], [(Some w, None)]) ->
  let gh := fun n m => coef (n * (n + 1) / 2 + m)%nat in
  Rabs (w - v) <= Rabs sp * remaining_degrees internal gh N M rad /\
  Rabs w <= Rabs sp * (6371.2 * sum_f_R0 (fun n => Rabs (radial internal 6371.2 n rad) * degree_size gh n) M).
Proof. exact sheval_truncation. Qed.
Print Assumptions C106_truncation.

(** The bound is attained: the axial dipole at the pole. *)
Example C106_example : forall mem mem',
  expansion_degree 3 0 0 /\ expansion_degree 3 1 1 /\
  sheval (nd0 (90, 0, 6371.2)) 3 (nd0 g10) CT_GEOCENTRIC_SPHERICAL CT_GEOCENTRIC_SPHERICAL SM_POTENTIAL true 0 1 (1, 1, 1) mem = Ok ([], [(Some 0, None)]) /\
  sheval (nd0 (90, 0, 6371.2)) 3 (nd0 g10) CT_GEOCENTRIC_SPHERICAL CT_GEOCENTRIC_SPHERICAL SM_POTENTIAL true 1 1 (1, 1, 1) mem' = Ok ([], [(Some 6371.2, None)]) /\
  remaining_degrees true (fun n m => g10 (n * (n + 1) / 2 + m)%nat) 0 1 6371.2 = 6371.2.
Proof. exact ex_truncation. Qed.
