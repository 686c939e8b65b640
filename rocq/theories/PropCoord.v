(** C36-C44, C49, C60: coordinates, rotations of vectors, the dipole frame *)

From Coq Require Import Reals ZArith List.
From Coquelicot Require Import Coquelicot.
From Verif Require Import CoefModel ShEvalModel ShEvalSpec CoordModel CoordSpec
  ConvertProofs FrameProofs DipoleProofs ShFrameProofs ShEvalExamples CoordExamples.
Import ListNotations.
Open Scope R_scope.

(** Spherical coordinates of a point off the axis, with a longitude in (-180, 180], survive the
    conversion to Cartesian coordinates and back. *)
Theorem C36_spherical_round_trip : forall lat lon r,
  - 90 < lat < 90 -> - 180 < lon <= 180 -> 0 < r ->
  convert (convert (lat, lon, r) CT_GEOCENTRIC_SPHERICAL CT_GEOCENTRIC_CARTESIAN)
    CT_GEOCENTRIC_CARTESIAN CT_GEOCENTRIC_SPHERICAL = (lat, lon, r).
Proof. exact (fun lat lon r H1 H2 H3 => sph_cart_round (lat, lon, r) (conj H1 (conj H2 H3))). Qed.
Print Assumptions C36_spherical_round_trip.

(** ... and so do the latitude and the radius on the axis. *)
Theorem C36_spherical_round_trip_pole : forall lat lon r, - 90 <= lat <= 90 -> 0 < r ->
  exists lon', convert (convert (lat, lon, r) CT_GEOCENTRIC_SPHERICAL CT_GEOCENTRIC_CARTESIAN)
    CT_GEOCENTRIC_CARTESIAN CT_GEOCENTRIC_SPHERICAL = (lat, lon', r).
Proof. exact sph_cart_round_lat. Qed.
Print Assumptions C36_spherical_round_trip_pole.

Theorem C36_cartesian_round_trip : forall pt, pt <> (0, 0, 0) ->
  convert (convert pt CT_GEOCENTRIC_CARTESIAN CT_GEOCENTRIC_SPHERICAL)
    CT_GEOCENTRIC_SPHERICAL CT_GEOCENTRIC_CARTESIAN = pt.
Proof. exact cart_sph_round. Qed.
Print Assumptions C36_cartesian_round_trip.

(** Geodetic coordinates survive the conversion to spherical coordinates and back, at all
    latitudes and longitudes and for all points beyond the evolute. *)
Theorem C37_geodetic_spherical : forall lat lon h,
  - 90 <= lat <= 90 -> above_equator_plane lat h ->
  beyond_evolute (position CT_GEODETIC_ABOVE_WGS84 (lat, lon, h)) ->
  convert (convert (lat, lon, h) CT_GEODETIC_ABOVE_WGS84 CT_GEOCENTRIC_SPHERICAL)
    CT_GEOCENTRIC_SPHERICAL CT_GEODETIC_ABOVE_WGS84 = (lat, lon, h).
Proof. exact geod_sph_round. Qed.
Print Assumptions C37_geodetic_spherical.

(** ... and to Cartesian ones, where the longitude is defined. *)
Theorem C37_geodetic_cartesian : forall lat lon h,
  - 90 <= lat <= 90 -> above_equator_plane lat h ->
  beyond_evolute (position CT_GEODETIC_ABOVE_WGS84 (lat, lon, h)) ->
  exists lon', convert (convert (lat, lon, h) CT_GEODETIC_ABOVE_WGS84 CT_GEOCENTRIC_CARTESIAN)
    CT_GEOCENTRIC_CARTESIAN CT_GEODETIC_ABOVE_WGS84 = (lat, lon', h)
    /\ (- 90 < lat < 90 -> - 180 < lon <= 180 -> lon' = lon).
Proof. exact geod_cart_round. Qed.
Print Assumptions C37_geodetic_cartesian.

(** The other way round. *)
Theorem C37_spherical_geodetic : forall lat lon r, - 90 <= lat <= 90 -> 0 < r ->
  beyond_evolute (position CT_GEOCENTRIC_SPHERICAL (lat, lon, r)) ->
  convert (convert (lat, lon, r) CT_GEOCENTRIC_SPHERICAL CT_GEODETIC_ABOVE_WGS84)
    CT_GEODETIC_ABOVE_WGS84 CT_GEOCENTRIC_SPHERICAL = (lat, lon, r).
Proof. exact sph_geod_round. Qed.
Print Assumptions C37_spherical_geodetic.

Theorem C37_cartesian_geodetic : forall pt, beyond_evolute pt ->
  convert (convert pt CT_GEOCENTRIC_CARTESIAN CT_GEODETIC_ABOVE_WGS84)
    CT_GEODETIC_ABOVE_WGS84 CT_GEOCENTRIC_CARTESIAN = pt.
Proof. exact cart_geod_round. Qed.
Print Assumptions C37_cartesian_geodetic.

(** The points from 43 km from the centre, and the heights from -6290 km, are beyond the
    evolute. *)
Theorem C37_domain : (forall pt, 43 <= distance pt -> beyond_evolute pt) /\
  forall lat lon h, - 6290 <= h ->
    above_equator_plane lat h /\ beyond_evolute (position CT_GEODETIC_ABOVE_WGS84 (lat, lon, h)).
Proof. exact (conj far_beyond height_beyond). Qed.
Print Assumptions C37_domain.

Example C37_example :
  convert (0, 0, 0) CT_GEODETIC_ABOVE_WGS84 CT_GEOCENTRIC_CARTESIAN = (6378.137, 0, 0) /\
  convert (6378.137, 0, 0) CT_GEOCENTRIC_CARTESIAN CT_GEODETIC_ABOVE_WGS84 = (0, 0, 0).
Proof. exact ex_equator. Qed.

(** A conversion preserves the point; the coordinates which it returns are in the usual
    ranges. *)
Theorem C38_same_point : forall A B v, usual A v ->
  (B = CT_GEODETIC_ABOVE_WGS84 -> beyond_evolute (position A v)) ->
  position B (convert v A B) = position A v /\ usual B (convert v A B).
Proof. exact convert_position. Qed.
Print Assumptions C38_same_point.

(** Conversions compose. *)
Theorem C38_compose : forall A B C v, unique_coordinates A v -> beyond_evolute (position A v) ->
  convert (convert v A B) B C = convert v A C.
Proof. exact convert_compose. Qed.
Print Assumptions C38_compose.

Theorem C38_identity : forall A v, convert v A A = v.
Proof. exact convert_same. Qed.
Print Assumptions C38_identity.

Example C38_example : unique_coordinates CT_GEOCENTRIC_SPHERICAL (45, 180, 6371.2) /\
  unique_coordinates CT_GEODETIC_ABOVE_WGS84 (- 30, 10, 450) /\
  beyond_evolute (position CT_GEODETIC_ABOVE_WGS84 (- 30, 10, 450)).
Proof. exact ex_unique. Qed.

(** The rotations are inverse to each other ... *)
Theorem C39_inverse : forall v lat lon d,
  vrot_cart2sph (vrot_sph2cart v lat lon) lat lon = v /\
  vrot_sph2cart (vrot_cart2sph v lat lon) lat lon = v /\
  vrot_sph2geod (vrot_sph2geod v d) (- d) = v.
Proof.
  exact (fun v lat lon d => conj (cart2sph_sph2cart v lat lon) (conj (sph2cart_cart2sph v lat lon) (sph2geod_inv v d))).
Qed.
Print Assumptions C39_inverse.

(** ... and preserve scalar products, hence magnitudes and angles. *)
Theorem C39_isometry : forall u v lat lon d,
  scalar (vrot_sph2cart u lat lon) (vrot_sph2cart v lat lon) = scalar u v /\
  scalar (vrot_cart2sph u lat lon) (vrot_cart2sph v lat lon) = scalar u v /\
  scalar (vrot_sph2geod u d) (vrot_sph2geod v d) = scalar u v.
Proof.
  exact (fun u v lat lon d => conj (scalar_sph2cart u v lat lon)
    (conj (scalar_cart2sph u v lat lon) (scalar_sph2geod u v d))).
Qed.
Print Assumptions C39_isometry.

Example C39_example : vrot_sph2cart up 0 90 = (0, 1, 0) /\ vrot_sph2cart north 0 90 = (0, 0, 1)
  /\ vrot_sph2cart east 0 90 = (-1, 0, 0).
Proof. exact ex_rotation. Qed.

(** The north, east and up vectors are the directions of the motion of the Cartesian position
    when the latitude, the longitude and the radius grow. *)
Theorem C40_spherical_frame : forall lat lon r,
  moves (fun t => convert (t, lon, r) CT_GEOCENTRIC_SPHERICAL CT_GEOCENTRIC_CARTESIAN) lat
    (scale (one_degree * r) (vrot_sph2cart north lat lon)) /\
  moves (fun t => convert (lat, t, r) CT_GEOCENTRIC_SPHERICAL CT_GEOCENTRIC_CARTESIAN) lon
    (scale (one_degree * r * cos (one_degree * lat)) (vrot_sph2cart east lat lon)) /\
  moves (fun t => convert (lat, lon, t) CT_GEOCENTRIC_SPHERICAL CT_GEOCENTRIC_CARTESIAN) r
    (vrot_sph2cart up lat lon).
Proof. exact moves_sph. Qed.
Print Assumptions C40_spherical_frame.

(** ... and the same for the geodetic coordinates, with the radii of curvature. *)
Theorem C40_geodetic_frame : forall lat lon h,
  moves (fun t => convert (t, lon, h) CT_GEODETIC_ABOVE_WGS84 CT_GEOCENTRIC_CARTESIAN) lat
    (scale (one_degree * (meridian_radius lat + h)) (vrot_sph2cart north lat lon)) /\
  moves (fun t => convert (lat, t, h) CT_GEODETIC_ABOVE_WGS84 CT_GEOCENTRIC_CARTESIAN) lon
    (scale (one_degree * (normal_length lat + h) * cos (one_degree * lat)) (vrot_sph2cart east lat lon)) /\
  moves (fun t => convert (lat, lon, t) CT_GEODETIC_ABOVE_WGS84 CT_GEOCENTRIC_CARTESIAN) h
    (vrot_sph2cart up lat lon).
Proof. exact moves_geod. Qed.
Print Assumptions C40_geodetic_frame.

(** At the height 0 the position is on the ellipsoid and the up vector is along its normal. *)
Theorem C40_normal : forall lat lon,
  let '(x, y, z) := convert (lat, lon, 0) CT_GEODETIC_ABOVE_WGS84 CT_GEOCENTRIC_CARTESIAN in
  x * x / (axis_a * axis_a) + y * y / (axis_a * axis_a) + z * z / (axis_b * axis_b) = 1 /\
  exists k, 0 < k /\
    vrot_sph2cart up lat lon = scale k (x / (axis_a * axis_a), y / (axis_a * axis_a), z / (axis_b * axis_b)).
Proof. exact geod_normal. Qed.
Print Assumptions C40_normal.

(** The gradient in any output system is the one in the spherical system rotated by vrotate, for
    any system of the position; the magnitude is the same. *)
Theorem C41_output_rotation : forall v csize coef ci co internal deg mem g,
  (1 <= csize < 2 ^ 50)%Z -> (ci = CT_GEOCENTRIC_CARTESIAN -> v <> (0, 0, 0)) ->
  sheval (nd0 v) csize (nd0 coef) ci CT_GEOCENTRIC_SPHERICAL SM_GRADIENT internal deg 1 (1, 1, 1) mem
    = Ok ([], [(None, Some g)]) ->
  exists g',
    vrotate g (Some (convert v ci CT_GEOCENTRIC_SPHERICAL)) (Some (convert v ci co))
      (ct_number CT_GEOCENTRIC_SPHERICAL) (ct_number co) = Ok g' /\
    sheval (nd0 v) csize (nd0 coef) ci co SM_GRADIENT internal deg 1 (1, 1, 1) mem = Ok ([], [(None, Some g')]) /\
    magnitude g' = magnitude g.
Proof. exact output_rotation. Qed.
Print Assumptions C41_output_rotation.

(** The potential does not depend on the output system. *)
Theorem C41_output_potential : forall v csize coef ci co co' mode internal deg sp sg mem,
  (1 <= csize < 2 ^ 50)%Z -> (ci = CT_GEOCENTRIC_CARTESIAN -> v <> (0, 0, 0)) ->
  exists p g g',
    sheval (nd0 v) csize (nd0 coef) ci co mode internal deg sp sg mem = Ok ([], [(p, g)]) /\
    sheval (nd0 v) csize (nd0 coef) ci co' mode internal deg sp sg mem = Ok ([], [(p, g')]).
Proof. exact output_potential. Qed.
Print Assumptions C41_output_potential.

(** The result does not depend on the system in which the positions are given. *)
Theorem C41_input_system : forall A B x csize coef co mode internal deg sp sg mem,
  (forall ix, unique_coordinates A (get x ix) /\ beyond_evolute (position A (get x ix))) ->
  sheval (nd_map (fun v => convert v A B) x) csize coef B co mode internal deg sp sg mem
  = sheval x csize coef A co mode internal deg sp sg mem.
Proof. exact input_system. Qed.
Print Assumptions C41_input_system.

Example C41_example : forall mem, exists g,
  sheval (nd0 (0, 0, 6371.2)) 3 (nd0 g10) CT_GEOCENTRIC_SPHERICAL CT_GEOCENTRIC_SPHERICAL SM_GRADIENT true (-1)
    1 (1, 1, 1) mem = Ok ([], [(None, Some g)]) /\ magnitude g = 30000.
Proof. exact ex_gradient_cart. Qed.

(** vrotate composes for the coordinates of one position. *)
Theorem C42_compose : forall A B C D p v,
  exists w, vrotate v (Some (convert p D A)) (Some (convert p D B)) (ct_number A) (ct_number B) = Ok w /\
    vrotate w (Some (convert p D B)) (Some (convert p D C)) (ct_number B) (ct_number C)
    = vrotate v (Some (convert p D A)) (Some (convert p D C)) (ct_number A) (ct_number C).
Proof. exact vrotate_converted. Qed.
Print Assumptions C42_compose.

(** ... and for any coordinates of equal longitudes. *)
Theorem C42_compose_any : forall A B C v (c : coord_type -> vec), same_longitude c ->
  exists w, vrotate v (Some (c A)) (Some (c B)) (ct_number A) (ct_number B) = Ok w /\
    vrotate w (Some (c B)) (Some (c C)) (ct_number B) (ct_number C)
    = vrotate v (Some (c A)) (Some (c C)) (ct_number A) (ct_number C).
Proof. exact vrotate_compose. Qed.
Print Assumptions C42_compose_any.

(** Unsupported types of coordinates are refused, unless the two are the same. *)
Theorem C42_unsupported : forall v ca cb tin tout, tin <> tout ->
  ~ (0 <= tin <= 2)%Z \/ ~ (0 <= tout <= 2)%Z ->
  vrotate v ca cb tin tout = Err ValueError.
Proof. exact vrotate_unsupported. Qed.
Print Assumptions C42_unsupported.

(** The matrix is a rotation: its transpose is its inverse and its determinant is one. *)
Theorem C43_rotation : forall lat lon, let m := get_dipole_rotation_matrix lat lon in
  (forall v, times_column m (row_times v m) = v /\ row_times (times_column m v) m = v) /\ determinant m = 1.
Proof. exact (fun lat lon => conj (matrix_orthogonal lat lon) (matrix_determinant lat lon)). Qed.
Print Assumptions C43_rotation.

(** The dipole axis becomes the polar axis, and the geographic pole is at the dipole longitude
    of 180 degrees and at the latitude of the dipole pole. *)
Theorem C43_axis : forall lat lon, let m := get_dipole_rotation_matrix lat lon in
  row_times (position CT_GEOCENTRIC_SPHERICAL (lat, lon, 1)) m = (0, 0, 1) /\
  row_times (0, 0, 1) m = position CT_GEOCENTRIC_SPHERICAL (lat, 180, 1).
Proof. exact matrix_axis. Qed.
Print Assumptions C43_axis.

(** convert_to_dipole rotates the point by the matrix, keeps the distance from the centre and is
    inverted by the transposed matrix. *)
Theorem C43_to_dipole : forall ct v lat lon, position ct v <> (0, 0, 0) ->
  let d := convert_to_dipole v lat lon ct in
  position CT_GEOCENTRIC_SPHERICAL d = row_times (position ct v) (get_dipole_rotation_matrix lat lon) /\
  usual CT_GEOCENTRIC_SPHERICAL d.
Proof. exact to_dipole_position. Qed.
Print Assumptions C43_to_dipole.

Theorem C43_radius : forall ct v lat lon, position ct v <> (0, 0, 0) ->
  snd (convert_to_dipole v lat lon ct) = distance (position ct v).
Proof. exact to_dipole_radius. Qed.
Print Assumptions C43_radius.

Theorem C43_inverse : forall ct v lat lon, position ct v <> (0, 0, 0) ->
  times_column (get_dipole_rotation_matrix lat lon)
    (position CT_GEOCENTRIC_SPHERICAL (convert_to_dipole v lat lon ct)) = position ct v.
Proof. exact to_dipole_inverse. Qed.
Print Assumptions C43_inverse.

Example C43_example : get_dipole_rotation_matrix 90 0 = ((1, 0, 0), (0, 1, 0), (0, 0, 1)).
Proof. exact ex_dipole. Qed.

(** sheval_dipole is the rotated model: the potential is the one of the model at the rotated
    point, and the vector is the one of the model at the rotated point rotated back and then
    expressed in the output frame; the magnitude is the same. *)
Theorem C44_rotated_model : forall v csize coef lat_ngp lon_ngp ci co mode internal deg sp sg mem,
  (1 <= csize < 2 ^ 50)%Z -> position ci v <> (0, 0, 0) ->
  let m := get_dipole_rotation_matrix lat_ngp lon_ngp in
  exists p g,
    sheval (nd0 (row_times (position ci v) m)) csize (nd0 coef) CT_GEOCENTRIC_CARTESIAN CT_GEOCENTRIC_CARTESIAN
      mode internal deg sp (1, 1, 1) mem = Ok ([], [(p, g)]) /\
    match g with
    | None => sheval_dipole v csize coef lat_ngp lon_ngp ci co mode internal deg sp sg mem = Ok (p, None)
    | Some f => exists w,
        vrotate (times_column m f) None (Some (convert v ci co))
          (ct_number CT_GEOCENTRIC_CARTESIAN) (ct_number co) = Ok w /\
        sheval_dipole v csize coef lat_ngp lon_ngp ci co mode internal deg sp sg mem = Ok (p, Some (vmul w sg)) /\
        magnitude w = magnitude f
    end.
Proof. exact dipole_rotated. Qed.
Print Assumptions C44_rotated_model.

(** The magnetic universal time is within [0, 24) ... *)
Theorem C49_range : forall lat_ngp lon_ngp lat_sol lon_sol,
  0 <= magnetic_universal_time lat_ngp lon_ngp lat_sol lon_sol < 24.
Proof. exact mut_range. Qed.
Print Assumptions C49_range.

(** ... and it is 12 hours less the dipole longitude of the sub-solar point, 15 degrees per
    hour. *)
Theorem C49_dipole_longitude : forall lat_ngp lon_ngp lat_sol lon_sol r, 0 < r ->
  let '(_, lon, _) := convert_to_dipole (lat_sol, lon_sol, r) lat_ngp lon_ngp CT_GEOCENTRIC_SPHERICAL in
  magnetic_universal_time lat_ngp lon_ngp lat_sol lon_sol = 12 - lon / 15.
Proof. exact mut_longitude. Qed.
Print Assumptions C49_dipole_longitude.

Example C49_example : magnetic_universal_time 90 0 0 90 = 6.
Proof. exact ex_mut. Qed.

(** vincdecnorm returns the magnitude and the angles of the vector (north, east, up); the
    inclination is positive downwards. *)
Theorem C60_incdec : forall v, v <> (0, 0, 0) ->
  exists inc dec, vincdecnorm v = (inc, dec, magnitude v) /\ - 90 <= inc <= 90 /\ - 180 < dec <= 180 /\
    v = (magnitude v * cos (one_degree * inc) * cos (one_degree * dec),
         magnitude v * cos (one_degree * inc) * sin (one_degree * dec),
         - (magnitude v * sin (one_degree * inc))).
Proof. exact incdec. Qed.
Print Assumptions C60_incdec.

Theorem C60_norm : forall v, vnorm v = magnitude v.
Proof. exact vnorm_magnitude. Qed.
Print Assumptions C60_norm.

Example C60_example : vincdecnorm (0, 0, -1) = (90, 0, 1).
Proof. exact ex_incdec. Qed.
