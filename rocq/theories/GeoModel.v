(** Model of the coordinate conversions, include/geo_conversion.h and include/math_aux.h.
    The doubles are real numbers. *)

From Coq Require Import Bool Reals.
From Verif Require Import LegendreModel.
Open Scope R_scope.

(** The function atan2 of the C library.  There are no signed zeros: on the negative half
    of the x axis the result is PI, and at the origin 0. *)
Definition atan2 (y x : R) : R :=
  if Rlt_dec 0 x then atan (y / x)
  else if Rlt_dec x 0 then (if Rlt_dec y 0 then atan (y / x) - PI else atan (y / x) + PI)
  else if Rlt_dec 0 y then PI / 2
  else if Rlt_dec y 0 then - (PI / 2)
  else 0.

(** The functions pow, for a non-negative base and a positive exponent, and copysign of
    the C library *)
Definition c_pow (x y : R) : R := if Req_EM_T x 0 then 0 else Rpower x y.
Definition copysign (x y : R) : R := if Rlt_dec y 0 then - Rabs x else Rabs x.

(** math_aux.h:40-43 *)
Definition norm3d (x y z : R) : R := sqrt (x * x + y * y + z * z).
(** math_aux.h:50-53 *)
Definition norm2d (x y : R) : R := sqrt (x * x + y * y).
(** math_aux.h:104-108; the pair (x_out, y_out) *)
Definition rot2d (x y a_sin a_cos : R) : R * R :=
  (x * a_cos - y * a_sin, x * a_sin + y * a_cos).

(** geo_conversion.h:36 *)
Definition RAD2DG : R := 180 * (1 / PI).
(** geo_conversion.h:38-43 *)
Definition WGS84_A : R := 6378.137.
Definition WGS84_B : R := 6356.7523142.
Definition WGS84_EPS2 : R := 1 - (WGS84_B * WGS84_B) / (WGS84_A * WGS84_A).

(** geo_conversion.h:56-73; the pair (rad_xy, z) *)
Definition geodetic2geocentric_ (lat_rad elv elp_a elp_e2 : R) : R * R :=
  let sin_lat := sin lat_rad in
  let cos_lat := cos lat_rad in
  let rc := elp_a / sqrt (1 - elp_e2 * sin_lat * sin_lat) in
  ((rc + elv) * cos_lat, (rc * (1 - elp_e2) + elv) * sin_lat).

(** geo_conversion.h:85-112; the pair (lat_rad, elv) *)
Definition geocentric2geodetic_ (rad_xy z elp_a elp_e2 : R) : R * R :=
  let p := rad_xy in
  let pa := p / elp_a in
  let za := z / elp_a in
  let pa2 := pa * pa in
  let za2 := za * za in
  let ee4 := elp_e2 * elp_e2 in
  let rkp0 := 1 - elp_e2 in
  let zt := rkp0 * za2 in
  let rh := (pa2 + zt - ee4) / 6 in
  let ss := (1 / 4) * zt * ee4 * pa2 in
  let rh3 := rh * rh * rh in
  let tmp := rh3 + ss + sqrt (ss * (ss + 2 * rh3)) in
  let tt := copysign (c_pow (Rabs tmp) (1 / 3)) tmp in
  let uu := rh + tt + rh * rh / tt in
  let vv := sqrt (uu * uu + ee4 * zt) in
  let ww := (1 / 2) * elp_e2 * (uu + vv - zt) / vv in
  let kp := 1 + elp_e2 * (sqrt (uu + vv + ww * ww) + ww) / (uu + vv) in
  let zkp := z * kp in
  (atan2 zkp p, norm2d p zkp * (1 / kp - rkp0) / elp_e2).

(** geo_conversion.h:129-142 *)
Definition geodetic2geocentric_cart (lat lon elv elp_a elp_e2 : R) : R * R * R :=
  let lat_rad := DG2RAD * lat in
  let lon_rad := DG2RAD * lon in
  let '(rad_xy, z) := geodetic2geocentric_ lat_rad elv elp_a elp_e2 in
  (rad_xy * cos lon_rad, rad_xy * sin lon_rad, z).

(** geo_conversion.h:161-175; the triple (r, th, ph) *)
Definition geodetic2geocentric_sph (lat lon elv elp_a elp_e2 : R) : R * R * R :=
  let lat_rad := DG2RAD * lat in
  let lon_rad := DG2RAD * lon in
  let '(rad_xy, z) := geodetic2geocentric_ lat_rad elv elp_a elp_e2 in
  (norm2d rad_xy z, atan2 z rad_xy, lon_rad).

(** geo_conversion.h:228-243 *)
Definition sph2cart (r th ph : R) : R * R * R :=
  let ra := r * cos th in
  (ra * cos ph, ra * sin ph, r * sin th).

(** geo_conversion.h:253-260; the triple (r, th, ph) *)
Definition cart2sph (x y z : R) : R * R * R :=
  let r := norm3d x y z in
  (r, asin (z / r), atan2 y x).

(** geo_conversion.h:274-285; the triple (lat, lon, elv) *)
Definition geocentric_cart2geodetic (x y z elp_a elp_e2 : R) : R * R * R :=
  let '(lat_rad, elv) := geocentric2geodetic_ (norm2d x y) z elp_a elp_e2 in
  (RAD2DG * lat_rad, RAD2DG * atan2 y x, elv).

(** geo_conversion.h:299-310; the triple (lat, lon, elv) *)
Definition geocentric_sph2geodetic (r th ph elp_a elp_e2 : R) : R * R * R :=
  let '(lat_rad, elv) := geocentric2geodetic_ (r * cos th) (r * sin th) elp_a elp_e2 in
  (RAD2DG * lat_rad, RAD2DG * ph, elv).
