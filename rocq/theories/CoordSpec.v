(** What the coordinates mean, written independently of the model of the conversions. *)

From Coq Require Import Reals.
From Coquelicot Require Import Coquelicot.
From Verif Require Import ShEvalModel.
Open Scope R_scope.

(** one degree in radians, and the semi-axes of the WGS84 ellipsoid in kilometres *)
Definition one_degree : R := PI / 180.
Definition axis_a : R := 6378.137.
Definition axis_b : R := 6356.7523142.

(** the length of the normal of the ellipsoid between the surface and the polar axis *)
Definition normal_length (lat : R) : R :=
  axis_a * axis_a /
  sqrt (axis_a * axis_a * (cos (one_degree * lat) * cos (one_degree * lat))
        + axis_b * axis_b * (sin (one_degree * lat) * sin (one_degree * lat))).

(** the point of the space given by the coordinates: latitude and longitude in degrees and the
    height above the ellipsoid; latitude and longitude in degrees and the distance from the
    centre; or Cartesian coordinates *)
Definition position (ct : coord_type) (v : R * R * R) : R * R * R :=
  let '(c0, c1, c2) := v in
  match ct with
  | CT_GEODETIC_ABOVE_WGS84 =>
      ((normal_length c0 + c2) * cos (one_degree * c0) * cos (one_degree * c1),
       (normal_length c0 + c2) * cos (one_degree * c0) * sin (one_degree * c1),
       (normal_length c0 * (axis_b * axis_b / (axis_a * axis_a)) + c2) * sin (one_degree * c0))
  | CT_GEOCENTRIC_SPHERICAL =>
      (c2 * cos (one_degree * c0) * cos (one_degree * c1),
       c2 * cos (one_degree * c0) * sin (one_degree * c1),
       c2 * sin (one_degree * c0))
  | CT_GEOCENTRIC_CARTESIAN => (c0, c1, c2)
  end.

Definition distance (pt : R * R * R) : R :=
  let '(x, y, z) := pt in sqrt (x * x + y * y + z * z).

(** On or outside the evolute of the ellipsoid (the surface of the centres of curvature of the
    meridians, which is within 43 km of the centre), where the nearest point of the ellipsoid
    is unique: (a p)^(2/3) + (b z)^(2/3) >= (a^2 - b^2)^(2/3), written without roots *)
Definition beyond_evolute (pt : R * R * R) : Prop :=
  let '(x, y, z) := pt in
  let A := axis_a * axis_a * (x * x + y * y) in
  let B := axis_b * axis_b * (z * z) in
  let C := (axis_a * axis_a - axis_b * axis_b) * (axis_a * axis_a - axis_b * axis_b) in
  C < A + B \/ (0 < A * B /\ (C - A - B) * (C - A - B) * (C - A - B) <= 27 * C * (A * B)).

Definition usual_longitude (lon : R) : Prop := - 180 < lon <= 180.

(** the height is above the point where the normal crosses the plane of the equator *)
Definition above_equator_plane (lat h : R) : Prop :=
  0 < normal_length lat * (axis_b * axis_b / (axis_a * axis_a)) + h.

(** coordinates in the usual ranges, the poles included; the Cartesian ones are not restricted *)
Definition usual (ct : coord_type) (v : R * R * R) : Prop :=
  let '(c0, c1, c2) := v in
  match ct with
  | CT_GEODETIC_ABOVE_WGS84 => - 90 <= c0 <= 90 /\ above_equator_plane c0 c2
  | CT_GEOCENTRIC_SPHERICAL => - 90 <= c0 <= 90 /\ 0 < c2
  | CT_GEOCENTRIC_CARTESIAN => (c0, c1, c2) <> (0, 0, 0)
  end.

(** the coordinates which no other coordinates in the usual ranges duplicate: the points off the
    axis, with the usual longitude *)
Definition unique_coordinates (ct : coord_type) (v : R * R * R) : Prop :=
  let '(c0, c1, c2) := v in
  match ct with
  | CT_GEODETIC_ABOVE_WGS84 => - 90 < c0 < 90 /\ usual_longitude c1 /\ above_equator_plane c0 c2
  | CT_GEOCENTRIC_SPHERICAL => - 90 < c0 < 90 /\ usual_longitude c1 /\ 0 < c2
  | CT_GEOCENTRIC_CARTESIAN => c0 <> 0 \/ c1 <> 0
  end.

(** scalar product and magnitude of vectors *)
Definition scalar (u v : R * R * R) : R :=
  let '(u0, u1, u2) := u in let '(v0, v1, v2) := v in u0 * v0 + u1 * v1 + u2 * v2.
Definition magnitude (v : R * R * R) : R := sqrt (scalar v v).
Definition scale (k : R) (v : R * R * R) : R * R * R :=
  let '(v0, v1, v2) := v in (k * v0, k * v1, k * v2).
Definition north : R * R * R := (1, 0, 0).
Definition east : R * R * R := (0, 1, 0).
Definition up : R * R * R := (0, 0, 1).

(** a path of points has the velocity v at the time t *)
Definition moves (path : R -> R * R * R) (t : R) (v : R * R * R) : Prop :=
  let '(v0, v1, v2) := v in
  is_derive (fun u => fst (fst (path u))) t v0 /\
  is_derive (fun u => snd (fst (path u))) t v1 /\
  is_derive (fun u => snd (path u)) t v2.

(** the radius of curvature of the meridian *)
Definition meridian_radius (lat : R) : R :=
  let d := axis_a * axis_a * (cos (one_degree * lat) * cos (one_degree * lat))
           + axis_b * axis_b * (sin (one_degree * lat) * sin (one_degree * lat)) in
  axis_a * axis_a * (axis_b * axis_b) / (d * sqrt d).

(** the coordinates given for each of the systems have the same longitude in the geodetic and
    the spherical ones *)
Definition same_longitude (c : coord_type -> R * R * R) : Prop :=
  snd (fst (c CT_GEODETIC_ABOVE_WGS84)) = snd (fst (c CT_GEOCENTRIC_SPHERICAL)).

(** product of a row vector and a matrix of three rows, determinant *)
Definition row_times (v : R * R * R) (m : (R * R * R) * (R * R * R) * (R * R * R)) : R * R * R :=
  let '(v0, v1, v2) := v in
  let '(m0, m1, m2) := m in
  let '(a0, a1, a2) := m0 in let '(b0, b1, b2) := m1 in let '(c0, c1, c2) := m2 in
  (v0 * a0 + v1 * b0 + v2 * c0, v0 * a1 + v1 * b1 + v2 * c1, v0 * a2 + v1 * b2 + v2 * c2).
Definition times_column (m : (R * R * R) * (R * R * R) * (R * R * R)) (v : R * R * R) : R * R * R :=
  let '(m0, m1, m2) := m in (scalar m0 v, scalar m1 v, scalar m2 v).
Definition determinant (m : (R * R * R) * (R * R * R) * (R * R * R)) : R :=
  let '(m0, m1, m2) := m in
  let '(a0, a1, a2) := m0 in let '(b0, b1, b2) := m1 in let '(c0, c1, c2) := m2 in
  a0 * (b1 * c2 - b2 * c1) - a1 * (b0 * c2 - b2 * c0) + a2 * (b0 * c1 - b1 * c0).

(** an array of positions converted one by one *)
Definition nd_map {A B} (f : A -> B) (x : nd A) : nd B := {| dims := dims x; get := fun ix => f (get x ix) |}.
