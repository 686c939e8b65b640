(** The sub-solar point, written independently of the model of the code. *)

From Coq Require Import Reals.
From Verif Require Import CoordSpec SunSpec.
Open Scope R_scope.

(** The position of the Sun of the Astronomical Almanac for 1996, page C24, as it is quoted
    in the comments of SUBSOL.  [n] are the days from 2000-01-01 12:00 UT, [l0] is the mean
    longitude at that time; the angles are in degrees. *)
Definition almanac_longitude : R := 280.461.
(** The mean longitude which the code uses in its place: the constant -79.549 of the line 2671
    of apex.f90 is not 280.461 - 360 *)
Definition implemented_longitude : R := 280.451.
Definition sun_mean_longitude (l0 n : R) : R := l0 + 0.9856474 * n.
Definition sun_mean_anomaly (n : R) : R := 357.528 + 0.9856003 * n.
Definition sun_ecliptic_longitude (l0 n : R) : R :=
  sun_mean_longitude l0 n + 1.915 * sin (one_degree * sun_mean_anomaly n)
  + 0.020 * sin (2 * (one_degree * sun_mean_anomaly n)).
Definition ecliptic_obliquity (n : R) : R := 23.439 - 4e-7 * n.

(** The direction of the Sun in the equatorial frame at the time [t], in days from
    2000-01-01 00:00 *)
Definition sun_direction (l0 t : R) : R * R * R :=
  let n := t - 1 / 2 in
  ecliptic_direction (one_degree * sun_ecliptic_longitude l0 n) (one_degree * ecliptic_obliquity n).

(** The angle of the rotation of the Earth in degrees: the right ascension of the meridian
    of Greenwich.  At noon it is the mean longitude of the Sun, up to full turns. *)
Definition greenwich (l0 t : R) : R := sun_mean_longitude l0 (t - 1 / 2) + 360 * (t - 1 / 2).

(** The Sun stands at the time [t] over the point of the latitude [lat] and the longitude
    [lon] *)
Definition under_the_sun (l0 t lat lon : R) : Prop :=
  direction lat (lon + greenwich l0 t) = sun_direction l0 t.

(** Half of the 10000th part of a second, in days *)
Definition time_tolerance : R := 5e-5 / 86400.

(** A whole number of days *)
Definition whole (t : R) : Prop := exists n : Z, t = IZR n.
