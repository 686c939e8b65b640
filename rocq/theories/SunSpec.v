(** What the solar positions mean, written independently of the model of the code. *)

From Coq Require Import List Reals.
From Verif Require Import CoordSpec.
Import ListNotations.
Open Scope R_scope.

(** The unit vector of a latitude and a longitude (or of a declination and a right
    ascension) in degrees *)
Definition direction (lat lon : R) : R * R * R :=
  (cos (one_degree * lat) * cos (one_degree * lon),
   cos (one_degree * lat) * sin (one_degree * lon),
   sin (one_degree * lat)).

(** The unit vectors to the east, to the north and upwards at a place of the Earth *)
Definition east (lat lon : R) : R * R * R :=
  (- sin (one_degree * lon), cos (one_degree * lon), 0).
Definition north (lat lon : R) : R * R * R :=
  (- sin (one_degree * lat) * cos (one_degree * lon),
   - sin (one_degree * lat) * sin (one_degree * lon),
   cos (one_degree * lat)).
Definition upwards (lat lon : R) : R * R * R := direction lat lon.

Definition inner (a b : R * R * R) : R :=
  let '(a0, a1, a2) := a in let '(b0, b1, b2) := b in a0 * b0 + a1 * b1 + a2 * b2.

(** Algorithm 5 of R. Grena (2012), Five new algorithms for the computation of sun position
    from 2010 to 2110.  The time is in days from 1 January 2060 (the day 21915 of MJD2000);
    the angles are in radians. *)
Definition epoch_2060 : R := 21915.

Definition solar_nutation (te : R) : R := 8.34e-5 * sin (9.282e-4 * te - 0.8).

Definition solar_longitude (te : R) : R :=
  let w := 0.0172019715 * te in
  PI + 1.7527901 + 1.7202792159e-2 * te
  + 3.33024e-2 * sin w - 2.0582e-3 * cos w
  + 3.512e-4 * sin (2 * w) - 4.07e-5 * cos (2 * w)
  + 5.2e-6 * sin (3 * w) - 9e-7 * cos (3 * w)
  - 8.23e-5 * sin w * sin (2.92e-5 * te)
  + 1.27e-5 * sin (1.49e-3 * te - 2.337) + 1.21e-5 * sin (4.31e-3 * te + 3.065)
  + 2.33e-5 * sin (1.076e-2 * te - 1.533) + 3.49e-5 * sin (1.575e-2 * te - 2.358)
  + 2.67e-5 * sin (2.152e-2 * te + 0.074) + 1.28e-5 * sin (3.152e-2 * te + 1.547)
  + 3.14e-5 * sin (2.1277e-1 * te - 0.488)
  + solar_nutation te.

Definition obliquity (te : R) : R :=
  4.089567e-1 - 6.19e-9 * te + 4.46e-5 * cos (9.282e-4 * te - 0.8).

(** The sidereal time of Greenwich in radians: [t] is the universal time, [te] the
    terrestrial time *)
Definition sidereal_time (t te : R) : R :=
  1.7528311 + 6.300388099 * t + 0.92 * solar_nutation te.

(** The direction of a point of the ecliptic in the equatorial frame *)
Definition ecliptic_direction (lambda eps : R) : R * R * R :=
  (cos lambda, sin lambda * cos eps, sin lambda * sin eps).

(** The refraction at an elevation in radians, of the same publication: the pressure is in
    atmospheres, the temperature in degrees Celsius *)
Definition refraction (pressure temperature elevation : R) : R :=
  0.08422 * pressure / ((273 + temperature) * tan (elevation + 0.003138 / (elevation + 0.08919))).

(** The dimensions of the arguments fit: those which are not scalars have all the same
    dimensions [d], and [d] are the dimensions of an argument *)
Definition common_dims (d : list nat) (args : list (list nat)) : Prop :=
  In d args /\ forall a, In a args -> a = [] \/ a = d.
