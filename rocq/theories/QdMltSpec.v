(** The magnetic local time, written independently of the model of the code. *)

From Coq Require Import List ZArith Reals.
From Verif Require Import CoordSpec SunSpec.
Import ListNotations.
Open Scope R_scope.

Definition vector := (R * R * R)%type.
Definition cross (a b : vector) : vector :=
  let '(a0, a1, a2) := a in let '(b0, b1, b2) := b in
  (a1 * b2 - a2 * b1, a2 * b0 - a0 * b2, a0 * b1 - a1 * b0).
Definition scaled (k : R) (a : vector) : vector := let '(a0, a1, a2) := a in (k * a0, k * a1, k * a2).
Definition unit_vector (a : vector) : vector := scaled (/ sqrt (inner a a)) a.

(** The coefficients of the dipole of the IGRF in nT: years, g(1,0), g(1,1) and h(1,1), and the
    yearly rates after 2025 *)
Definition igrf_dipole : list (R * vector) := [
  (1900, (-31543, -2298, 5922)); (1905, (-31464, -2298, 5909)); (1910, (-31354, -2297, 5898));
  (1915, (-31212, -2306, 5875)); (1920, (-31060, -2317, 5845)); (1925, (-30926, -2318, 5817));
  (1930, (-30805, -2316, 5808)); (1935, (-30715, -2306, 5812)); (1940, (-30654, -2292, 5821));
  (1945, (-30594, -2285, 5810)); (1950, (-30554, -2250, 5815)); (1955, (-30500, -2215, 5820));
  (1960, (-30421, -2169, 5791)); (1965, (-30334, -2119, 5776)); (1970, (-30220, -2068, 5737));
  (1975, (-30100, -2013, 5675)); (1980, (-29992, -1956, 5604)); (1985, (-29873, -1905, 5500));
  (1990, (-29775, -1848, 5406)); (1995, (-29692, -1784, 5306)); (2000, (-29619.4, -1728.2, 5186.1));
  (2005, (-29554.63, -1669.05, 5077.99)); (2010, (-29496.57, -1586.42, 4944.26));
  (2015, (-29441.46, -1501.77, 4795.99)); (2020, (-29403.41, -1451.37, 4653.35));
  (2025, (-29350.00, -1410.30, 4545.50)) ].
Definition igrf_dipole_rates : vector := (12.60, 10.00, -21.50).

(** The coefficients at a decimal year: on the line through two neighbouring rows of the
    table, after the last row by the rates *)
Definition between (y0 : R) (a : vector) (y1 : R) (b : vector) (y : R) : vector :=
  let '(a0, a1, a2) := a in let '(b0, b1, b2) := b in
  let line a b := a + (b - a) / (y1 - y0) * (y - y0) in
  (line a0 b0, line a1 b1, line a2 b2).
Definition dipole_coefficients (y : R) (c : vector) : Prop :=
  (exists i y0 a y1 b, nth_error igrf_dipole i = Some (y0, a) /\ nth_error igrf_dipole (S i) = Some (y1, b) /\
     y0 <= y < y1 /\ c = between y0 a y1 b y) \/
  (2025 <= y /\ exists a b r, nth_error igrf_dipole 25 = Some (2025, a) /\ r = igrf_dipole_rates /\
     b = between 0 (0, 0, 0) 1 r (y - 2025) /\
     c = (fst (fst a) + fst (fst b), snd (fst a) + snd (fst b), snd a + snd b)).

(** The pole of the dipole in the northern hemisphere *)
Definition dipole_pole (c : vector) : vector :=
  let '(c_g10, c_g11, c_h11) := c in unit_vector (- c_g11, - c_h11, - c_g10).

(** The longitude (in degrees) of a direction in the frame of the pole: the plane of the
    longitude zero contains the axis of the Earth, and the geographic pole has the longitude
    180 *)
Definition dipole_longitude (pole s : vector) (phi : R) : Prop :=
  let e_y := unit_vector (cross (0, 0, 1) pole) in
  let e_x := cross e_y pole in
  exists rho, 0 <= rho /\ inner s e_x = rho * cos (one_degree * phi) /\ inner s e_y = rho * sin (one_degree * phi).

(** The magnetic local time (in hours, up to full days) at a magnetic longitude, the Sun being
    over the given point *)
Definition magnetic_local_time (pole : vector) (sun_lat sun_lon qdlon mlt : R) : Prop :=
  exists phi (k : Z), -180 < phi <= 180 /\ dipole_longitude pole (direction sun_lat sun_lon) phi /\
    mlt = (qdlon - phi) / 15 + 12 + 24 * IZR k.
