(** What the quasi-dipole coordinates and their base vectors are, written independently of the
    model of the code (only the type of the content of the coefficient files is taken from it). *)

From Coq Require Import List Reals Arith.
From Coquelicot Require Import Coquelicot.
From Verif Require Import CoordSpec SunSpec QdMltSpec QdBasisSpec QdApexModel.
Import ListNotations.
Open Scope R_scope.

(** A file of coefficients: at least one epoch, in the increasing order, and a coefficient of
    each harmonic for each power *)
Definition well_formed (f : apex_file) : Prop :=
  (1 <= nepoch f)%nat /\ (1 <= mmax f <= nmax f)%nat /\
  nterm f = (S (lmax f) * length (harmonics (nmax f) (mmax f)))%nat /\
  (forall i, (S i < nepoch f)%nat -> epochgrid f i < epochgrid f (S i)).

(** The value of a coefficient at a time: linear between the epochs, constant before the first
    one and after the last one *)
Definition coefficient_at (f : apex_file) (time : R) (k i : nat) (v : R) : Prop :=
  (time <= epochgrid f 0%nat /\ v = coeff0 f k 0 i) \/
  (epochgrid f (nepoch f - 1) <= time /\ v = coeff0 f k (nepoch f - 1) i) \/
  (exists e, (S e < nepoch f)%nat /\ epochgrid f e <= time <= epochgrid f (S e) /\
     v = coeff0 f k e i + (coeff0 f k (S e) i - coeff0 f k e i) *
         ((time - epochgrid f e) / (epochgrid f (S e) - epochgrid f e))).

Definition coefficients_at (f : apex_file) (time : R) (c : nat -> nat -> R) : Prop :=
  forall k i, (k < nterm f)%nat -> (i < 3)%nat -> coefficient_at f time k i (c k i).

(** The ellipsoid: the equatorial semi-axis and the flattening; the mean radius *)
Definition semi_axis : R := 6378.137.
Definition flattening : R := 1 / 298.257223563.
Definition mean_radius : R := semi_axis * (1 - flattening / 3).

Definition total (l : list R) : R := fold_right Rplus 0 l.

(** The expansion in the powers of [rho] and the spherical harmonics *)
Definition series (f : apex_file) (c : nat -> R) (rho theta phi : R) : R :=
  let hs := harmonics (nmax f) (mmax f) in
  total (map (fun l => rho ^ l *
    total (map (fun '(k, x) => c (l * length hs + k)%nat * harmonic_value x theta phi)
               (combine (seq 0 (length hs)) hs)))
    (seq 0 (S (lmax f)))).

(** The three quasi-dipole Cartesian coordinates of a geodetic latitude, longitude (degrees) and
    altitude (km) *)
Definition apex_vector (f : apex_file) (c : nat -> nat -> R) (alt lat lon : R) : R * R * R :=
  let rho := mean_radius / (mean_radius + alt) in
  let value i := series f (fun k => c k i) rho (one_degree * (90 - lat)) (one_degree * lon) in
  (value 0%nat, value 1%nat, value 2%nat).

(** The latitude and the longitude of the direction of a vector *)
Definition pointed (v : R * R * R) (lat lon : R) : Prop :=
  -90 <= lat <= 90 /\ exists d, 0 <= d /\ v = scaled d (direction lat lon).

(** Geodetic latitude and altitude of a geocentric latitude and distance by the series of
    P. Morrison and S. Pines, The reduction from geocentric to geodetic coordinates, Astron. J. 66
    (1961) 15-16: the difference of the latitudes by the sines of the multiple angles.  [e2] is the
    square of the eccentricity, [a] the semi-axis. *)
Definition morrison_pines (a e2 gclat r gdlat alt : R) : Prop :=
  let q := a / r in
  let lat := one_degree * gclat in
  let delta :=
      (q * (512 * e2 + 128 * e2 ^ 2 + 60 * e2 ^ 3 + 35 * e2 ^ 4) / 1024
       + q ^ 2 * (e2 ^ 3 + e2 ^ 4) / 32 - q ^ 3 * 3 * (4 * e2 ^ 3 + 3 * e2 ^ 4) / 256) * sin (2 * lat)
    + (- q * (64 * e2 ^ 2 + 48 * e2 ^ 3 + 35 * e2 ^ 4) / 1024
       + q ^ 2 * (4 * e2 ^ 2 + 2 * e2 ^ 3 + e2 ^ 4) / 16
       + q ^ 3 * 15 * e2 ^ 4 / 256 - q ^ 4 * e2 ^ 4 / 16) * sin (4 * lat)
    + (q * 3 * (4 * e2 ^ 3 + 5 * e2 ^ 4) / 1024 - q ^ 2 * 3 * (e2 ^ 3 + e2 ^ 4) / 32
       + q ^ 3 * 35 * (4 * e2 ^ 3 + 3 * e2 ^ 4) / 768) * sin (6 * lat)
    + (- q * 5 * e2 ^ 4 / 2048 + q ^ 2 * 64 * e2 ^ 4 / 2048
       - q ^ 3 * 252 * e2 ^ 4 / 2048 + q ^ 4 * 320 * e2 ^ 4 / 2048) * sin (8 * lat) in
  one_degree * gdlat = lat + delta /\
  alt = r * cos delta - a * sqrt (1 - e2 * sin (one_degree * gdlat) * sin (one_degree * gdlat)).

(** Those used by the library: the ellipsoid is rounded to a metre *)
Definition geodetic_position (gclat r gdlat alt : R) : Prop :=
  morrison_pines 6378.137 (1 - (6356.752 / 6378.137) * (6356.752 / 6378.137)) gclat r gdlat alt.

(** Base vectors: the length of the arc of one radian of the geodetic latitude and of the
    longitude at an altitude *)
Definition polar_axis : R := semi_axis * (1 - flattening).
Definition arc_divisor (lat : R) : R :=
  semi_axis ^ 2 * cos (one_degree * lat) ^ 2 + polar_axis ^ 2 * sin (one_degree * lat) ^ 2.
Definition north_arc (alt lat : R) : R :=
  semi_axis ^ 2 * polar_axis ^ 2 / (arc_divisor lat * sqrt (arc_divisor lat)) + alt.
Definition east_arc (alt lat : R) : R :=
  (semi_axis ^ 2 / sqrt (arc_divisor lat) + alt) * cos (one_degree * lat).

(** The base vectors of A. D. Richmond, Ionospheric electrodynamics using magnetic apex
    coordinates (1995), as the geodetic components to the east and to the north: F1 and F2 are
    (R + h) times the gradients of the latitude and of the longitude (multiplied by the cosine of
    the latitude), turned by a right angle.  [lat_n], [lat_e], [lon_n] and [lon_e] are the
    derivatives of the quasi-dipole latitude and longitude by the geodetic ones. *)
Definition richmond_f1 (alt lat lat_n lat_e : R) : R * R :=
  ((mean_radius + alt) * (lat_n / north_arc alt lat), - ((mean_radius + alt) * (lat_e / east_arc alt lat))).
Definition richmond_f2 (alt lat qlat lon_n lon_e : R) : R * R :=
  (- ((mean_radius + alt) * cos (one_degree * qlat) * (lon_n / north_arc alt lat)),
   (mean_radius + alt) * cos (one_degree * qlat) * (lon_e / east_arc alt lat)).

(** The quasi-dipole latitude and longitude around a place: functions of the geodetic latitude
    and longitude which give the direction of the vector there *)
Definition qd_functions (f : apex_file) (c : nat -> nat -> R) (alt : R) (qlat qlon : R -> R -> R) (lat lon : R) : Prop :=
  locally lat (fun u => pointed (apex_vector f c alt u lon) (qlat u lon) (qlon u lon)) /\
  locally lon (fun u => pointed (apex_vector f c alt lat u) (qlat lat u) (qlon lat u)).

Definition vector_length (v : R * R * R) : R := sqrt (inner v v).

(** The points of the theorems: at least 6000 km from the centre, with a time which is not near
    the initial value of a variable of the library *)
Definition usual_point (p : point) : Prop :=
  6000 <= gcrad p /\ -90 <= gclat p <= 90 /\ exists t, t_dy p = Some t /\ 1 / 365.25 < Rabs (t - -9999.9).
