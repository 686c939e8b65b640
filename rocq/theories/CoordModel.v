(** Model of the coordinate conversions and vector rotations: pymm_cconv.h,
    pymm_vrot_sph2cart.h, pymm_vrot_sph2geod.h, pymm_vrot_cart2sph.h, util.py,
    dipole_coords.py, dipole.py:92-110 and magnetic_time.py:65-75.
    The functions are those applied to one position or vector.  The recursion over the items of
    the arrays, which applies them to each item separately, is left out.  The doubles are real
    numbers. *)

From Coq Require Import Bool Reals ZArith List.
From Verif Require Import ArrModel LegendreModel GeoModel CoefModel ShEvalModel.
Import ListNotations.
Open Scope R_scope.

Definition vec := (R * R * R)%type.

(** pymm_cconv.h:49-53 *)
Definition conv_identity (v : vec) : vec := v.
(** pymm_cconv.h:56-60 *)
Definition conv_WGS84_to_cartECEF (v : vec) : vec :=
  let '(lat, lon, h) := v in geodetic2geocentric_cart lat lon h WGS84_A WGS84_EPS2.
(** pymm_cconv.h:63-69 *)
Definition conv_WGS84_to_sphECEF (v : vec) : vec :=
  let '(lat0, lon0, h0) := v in
  let '(r1, lat1, lon1) := geodetic2geocentric_sph lat0 lon0 h0 WGS84_A WGS84_EPS2 in
  (lat1 * RAD2DG, lon1 * RAD2DG, r1).
(** pymm_cconv.h:72-78 *)
Definition conv_cartECEF_to_sphECEF (v : vec) : vec :=
  let '(x, y, z) := v in
  let '(r, lat, lon) := cart2sph x y z in
  (lat * RAD2DG, lon * RAD2DG, r).
(** pymm_cconv.h:81-85 *)
Definition conv_cartECEF_to_WGS84 (v : vec) : vec :=
  let '(x, y, z) := v in geocentric_cart2geodetic x y z WGS84_A WGS84_EPS2.
(** pymm_cconv.h:89-93 *)
Definition conv_sphECEF_to_cartECEF (v : vec) : vec :=
  let '(lat, lon, r) := v in sph2cart r (DG2RAD * lat) (DG2RAD * lon).
(** pymm_cconv.h:96-100 *)
Definition conv_sphECEF_to_WGS84 (v : vec) : vec :=
  let '(lat0, lon0, r0) := v in
  geocentric_sph2geodetic r0 (DG2RAD * lat0) (DG2RAD * lon0) WGS84_A WGS84_EPS2.

(** pymm_cconv.h:105-114 *)
Definition get_fconv (ct_in ct_out : coord_type) : vec -> vec :=
  match ct_in, ct_out with
  | CT_GEODETIC_ABOVE_WGS84, CT_GEODETIC_ABOVE_WGS84 => conv_identity
  | CT_GEODETIC_ABOVE_WGS84, CT_GEOCENTRIC_SPHERICAL => conv_WGS84_to_sphECEF
  | CT_GEODETIC_ABOVE_WGS84, CT_GEOCENTRIC_CARTESIAN => conv_WGS84_to_cartECEF
  | CT_GEOCENTRIC_SPHERICAL, CT_GEODETIC_ABOVE_WGS84 => conv_sphECEF_to_WGS84
  | CT_GEOCENTRIC_SPHERICAL, CT_GEOCENTRIC_SPHERICAL => conv_identity
  | CT_GEOCENTRIC_SPHERICAL, CT_GEOCENTRIC_CARTESIAN => conv_sphECEF_to_cartECEF
  | CT_GEOCENTRIC_CARTESIAN, CT_GEODETIC_ABOVE_WGS84 => conv_cartECEF_to_WGS84
  | CT_GEOCENTRIC_CARTESIAN, CT_GEOCENTRIC_SPHERICAL => conv_cartECEF_to_sphECEF
  | CT_GEOCENTRIC_CARTESIAN, CT_GEOCENTRIC_CARTESIAN => conv_identity
  end.

Definition ct_eqb (a b : coord_type) : bool :=
  match a, b with
  | CT_GEODETIC_ABOVE_WGS84, CT_GEODETIC_ABOVE_WGS84 => true
  | CT_GEOCENTRIC_SPHERICAL, CT_GEOCENTRIC_SPHERICAL => true
  | CT_GEOCENTRIC_CARTESIAN, CT_GEOCENTRIC_CARTESIAN => true
  | _, _ => false
  end.

(** pymm_cconv.h:146-207, for an array of one position *)
Definition convert (v : vec) (ct_in ct_out : coord_type) : vec :=
  if ct_eqb ct_in ct_out then v else get_fconv ct_in ct_out v.

(** pymm_vrot_sph2cart.h:57-74 *)
Definition vrot_sph2cart (v : vec) (lat lon : R) : vec :=
  let '(i0, i1, i2) := v in
  let lat := DG2RAD * lat in
  let lon := DG2RAD * lon in
  let '(tmp, o2) := rot2d i2 i0 (sin lat) (cos lat) in
  let '(o0, o1) := rot2d tmp i1 (sin lon) (cos lon) in
  (o0, o1, o2).

(** pymm_vrot_sph2geod.h:53-67 *)
Definition vrot_sph2geod (v : vec) (dlat : R) : vec :=
  let '(i0, i1, i2) := v in
  let dlat := - DG2RAD * dlat in
  let '(o2, o0) := rot2d i2 i0 (sin dlat) (cos dlat) in
  (o0, i1, o2).

(** pymm_vrot_cart2sph.h:57-74 *)
Definition vrot_cart2sph (v : vec) (lat lon : R) : vec :=
  let '(i0, i1, i2) := v in
  let lat := - DG2RAD * lat in
  let lon := - DG2RAD * lon in
  let '(tmp, o1) := rot2d i0 i1 (sin lon) (cos lon) in
  let '(o2, o0) := rot2d tmp i2 (sin lat) (cos lat) in
  (o0, o1, o2).

(** indexing of the coordinates, which may be None: coord[..., 0] and coord[..., 1] *)
Definition lat_of (c : option vec) : result R :=
  match c with Some (lat, _, _) => Ok lat | None => Err TypeError end.
Definition lon_of (c : option vec) : result R :=
  match c with Some (_, lon, _) => Ok lon | None => Err TypeError end.

(** pymm_coord.h:34-38, the numbers of the coordinate systems *)
Definition ct_number (ct : coord_type) : Z :=
  match ct with
  | CT_GEODETIC_ABOVE_WGS84 => 0 | CT_GEOCENTRIC_SPHERICAL => 1 | CT_GEOCENTRIC_CARTESIAN => 2
  end%Z.
Definition GEODETIC_ABOVE_WGS84 : Z := 0.
Definition GEOCENTRIC_SPHERICAL : Z := 1.
Definition GEOCENTRIC_CARTESIAN : Z := 2.

(** util.py:45-81; the types of the coordinate systems are any integers in Python.
    The coordinates are arrays or None. *)
Definition vrotate (arr : vec) (coord_in coord_out : option vec) (coord_type_in coord_type_out : Z)
  : result vec :=
  if Z.eqb coord_type_in coord_type_out then Ok arr
  else if Z.eqb coord_type_in GEODETIC_ABOVE_WGS84 then
    if Z.eqb coord_type_out GEODETIC_ABOVE_WGS84 then Ok arr
    else if Z.eqb coord_type_out GEOCENTRIC_SPHERICAL then
      bind (lat_of coord_out) (fun lo => bind (lat_of coord_in) (fun li =>
      Ok (vrot_sph2geod arr (lo - li))))
    else if Z.eqb coord_type_out GEOCENTRIC_CARTESIAN then
      bind (lat_of coord_in) (fun lat => bind (lon_of coord_in) (fun lon =>
      Ok (vrot_sph2cart arr lat lon)))
    else Err ValueError
  else if Z.eqb coord_type_in GEOCENTRIC_SPHERICAL then
    if Z.eqb coord_type_out GEODETIC_ABOVE_WGS84 then
      bind (lat_of coord_out) (fun lo => bind (lat_of coord_in) (fun li =>
      Ok (vrot_sph2geod arr (lo - li))))
    else if Z.eqb coord_type_out GEOCENTRIC_CARTESIAN then
      bind (lat_of coord_in) (fun lat => bind (lon_of coord_in) (fun lon =>
      Ok (vrot_sph2cart arr lat lon)))
    else Err ValueError
  else if Z.eqb coord_type_in GEOCENTRIC_CARTESIAN then
    if Z.eqb coord_type_out GEODETIC_ABOVE_WGS84 || Z.eqb coord_type_out GEOCENTRIC_SPHERICAL then
      bind (lat_of coord_out) (fun lat => bind (lon_of coord_out) (fun lon =>
      Ok (vrot_cart2sph arr lat lon)))
    else Err ValueError
  else Err ValueError.

(** util.py:84-89 *)
Definition vnorm (arr : vec) : R := let '(x, y, z) := arr in sqrt (x * x + y * y + z * z).

(** util.py:92-104 *)
Definition vincdecnorm (arr : vec) : vec :=
  let '(t0, t1, t2) := convert arr CT_GEOCENTRIC_CARTESIAN CT_GEOCENTRIC_SPHERICAL in
  (- t0, t1, t2).

(** 3x3 matrices as triples of rows; dot(v, m) and m.transpose() of NumPy *)
Definition mat := (vec * vec * vec)%type.
Definition dot (v : vec) (m : mat) : vec :=
  let '(x, y, z) := v in
  let '((m00, m01, m02), (m10, m11, m12), (m20, m21, m22)) := m in
  (x * m00 + y * m10 + z * m20, x * m01 + y * m11 + z * m21, x * m02 + y * m12 + z * m22).
Definition transpose (m : mat) : mat :=
  let '((m00, m01, m02), (m10, m11, m12), (m20, m21, m22)) := m in
  ((m00, m10, m20), (m01, m11, m21), (m02, m12, m22)).

(** dipole_coords.py:42 *)
Definition DEG2RAD : R := PI / 180.

(** dipole_coords.py:45-54 *)
Definition get_dipole_rotation_matrix (latitude longitude : R) : mat :=
  let sin_lat := sin (DEG2RAD * latitude) in
  let cos_lat := cos (DEG2RAD * latitude) in
  let sin_lon := sin (DEG2RAD * longitude) in
  let cos_lon := cos (DEG2RAD * longitude) in
  ((sin_lat * cos_lon, - sin_lon, cos_lat * cos_lon),
   (sin_lat * sin_lon, cos_lon, cos_lat * sin_lon),
   (- cos_lat, 0, sin_lat)).

(** dipole_coords.py:57-71 *)
Definition convert_to_dipole (coords : vec) (lat_ngp lon_ngp : R) (coord_type_in : coord_type) : vec :=
  let rotation_matrix := get_dipole_rotation_matrix lat_ngp lon_ngp in
  let coords := convert coords coord_type_in CT_GEOCENTRIC_CARTESIAN in
  let coords := dot coords rotation_matrix in
  convert coords CT_GEOCENTRIC_CARTESIAN CT_GEOCENTRIC_SPHERICAL.

(** dipole_coords.py:74-87; lat_out and lon_out are not used for the Cartesian output *)
Definition vrot_from_dipole (vectors : vec) (lat_ngp lon_ngp lat_dipole lon_dipole lat_out lon_out : R)
  (coord_type_out : coord_type) : vec :=
  let rotation_matrix := transpose (get_dipole_rotation_matrix lat_ngp lon_ngp) in
  let vectors := vrot_sph2cart vectors lat_dipole lon_dipole in
  let vectors := dot vectors rotation_matrix in
  if ct_eqb coord_type_out CT_GEOCENTRIC_CARTESIAN then vectors
  else vrot_cart2sph vectors lat_out lon_out.

(** dipole.py:92-110 *)
Definition rotate_vectors_from_dipole (vectors : vec) (lat_ngp lon_ngp : R) (coords_dipole coord_in : vec)
  (coord_type_in coord_type_out : coord_type) : vec :=
  let '(lat_dipole, lon_dipole, _) := coords_dipole in
  let '(lat_out, lon_out) :=
    if ct_eqb coord_type_out CT_GEOCENTRIC_CARTESIAN then (0, 0)
    else let '(lat, lon, _) := convert coord_in coord_type_in coord_type_out in (lat, lon) in
  vrot_from_dipole vectors lat_ngp lon_ngp lat_dipole lon_dipole lat_out lon_out coord_type_out.

(** component-wise product of NumPy, with scale_gradient a scalar or 3 elements *)
Definition vmul (v s : vec) : vec :=
  let '(v0, v1, v2) := v in let '(s0, s1, s2) := s in (v0 * s0, v1 * s1, v2 * s2).

(** dipole.py:39-89, for one position; the potential and the gradient, if requested.  With the
    mode POTENTIAL_AND_GRADIENT sheval returns the pair of the arrays of the results. *)
Definition sheval_dipole (arr_in : vec) (csize : Z) (coef : coefs) (lat_ngp lon_ngp : R)
  (coord_type_in coord_type_out : coord_type) (mode : sheval_mode) (internal : bool) (degree : Z)
  (scale_potential : R) (scale_gradient : vec) (mem : arr * arr * coefs * arr * arr * arr)
  : result (option R * option vec) :=
  let arr_in_dipole := convert_to_dipole arr_in lat_ngp lon_ngp coord_type_in in
  bind (sheval {| dims := []; get := fun _ => arr_in_dipole |} csize {| dims := []; get := fun _ => coef |}
          CT_GEOCENTRIC_SPHERICAL CT_GEOCENTRIC_SPHERICAL mode internal degree
          scale_potential (1, 1, 1) mem)
    (fun res =>
       match snd res with
       | [(potential, gradient)] =>
           Ok (potential,
               match gradient with
               | Some g => Some (vmul (rotate_vectors_from_dipole g lat_ngp lon_ngp arr_in_dipole arr_in
                                         coord_type_in coord_type_out) scale_gradient)
               | None => None
               end)
       | _ => Err ValueError          (* not reached: there is one position *)
       end).

(** magnetic_time.py:65-75 with RAD2HOUR (line 36) *)
Definition magnetic_universal_time (lat_ngp lon_ngp lat_sol lon_sol : R) : R :=
  let latr_sol := DEG2RAD * lat_sol in
  let latr_ngp := DEG2RAD * lat_ngp in
  let dif_lonr := DEG2RAD * (lon_sol - lon_ngp) in
  let tmp_y := cos latr_sol in
  let tmp_x := sin latr_ngp * tmp_y * cos dif_lonr - cos latr_ngp * sin latr_sol in
  let tmp_y := tmp_y * sin dif_lonr in
  12 / PI * (PI - atan2 tmp_y tmp_x).
