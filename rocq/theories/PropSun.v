(** Property theorems C50, C71-C75: solar positions. *)

From Coq Require Import List ZArith Reals.
From Verif Require Import CoefModel TimeModel CoordModel CoordSpec ShEvalModel ShEvalSpec SunModel SunSpec SunProofs.
Import ListNotations.
Open Scope R_scope.

(** C50: the angles are within their ranges, for all times and places; the zenith angle is
    within its range when there is no correction for the parallax. *)
Theorem C50_ranges : forall t lat lon rad dtt,
  let s := sunpos_item t lat lon rad dtt in
  -90 <= declination s <= 90 /\ 0 <= right_ascension s < 360 /\
  -180 <= hour_angle s < 180 /\ -180 <= azimuth s < 180 /\
  (rad = 0 -> 0 <= zenith s <= 180).
Proof. exact sun_ranges. Qed.
Print Assumptions C50_ranges.

Theorem C50_original_ranges : forall t lat lon rad dtt pres temp,
  let s := sunpos_original_item t lat lon rad dtt pres temp in
  -90 <= declination s <= 90 /\ 0 <= right_ascension s < 360 /\
  -180 <= hour_angle s < 180 /\ -180 <= azimuth s < 180.
Proof. exact original_ranges. Qed.
Print Assumptions C50_original_ranges.

Example C50_example : exists zen, zenith (sunpos_item 7305 90 0 0 69) = zen /\
  cos (one_degree * zen) = sin (one_degree * declination (sunpos_item 7305 90 0 0 69)).
Proof. exact ex_pole. Qed.

(** C71: the declination and the right ascension are those of the Sun on the ecliptic,
    170 million days before and after 2060 ... *)
Theorem C71_equatorial : forall t lat lon rad dtt,
  let te := t + dtt / 86400 - epoch_2060 in
  let s := sunpos_item t lat lon rad dtt in
  Rabs te <= 1.7e8 ->
  direction (declination s) (right_ascension s) = ecliptic_direction (solar_longitude te) (obliquity te).
Proof. exact sun_equatorial. Qed.
Print Assumptions C71_equatorial.

(** ... and the hour angle is the local sidereal time less the right ascension, up to full
    turns. *)
Theorem C71_hour_angle : forall t lat lon rad dtt,
  let te := t + dtt / 86400 - epoch_2060 in
  let s := sunpos_item t lat lon rad dtt in
  exists k : Z, hour_angle s = sidereal_time (t - epoch_2060) te / one_degree + lon - right_ascension s - 360 * IZR k.
Proof. exact sun_hour_angle. Qed.
Print Assumptions C71_hour_angle.

Example C71_example : Rabs (7305 + 69 / 86400 - epoch_2060) <= 1.7e8 /\ 60 <= 7305 < 146157.
Proof. exact ex_time. Qed.

(** C72: the azimuth (from the north to the east) and the zenith angle, without the
    parallax, are those of the direction given by the declination and the hour angle, in the
    frame of the place; the parallax increases the zenith angle by the angle at which the
    radius is seen from the Sun. *)
Theorem C72_horizontal : forall t lat lon rad dtt,
  let te := t + dtt / 86400 - epoch_2060 in
  let s := sunpos_item t lat lon rad dtt in
  let d := direction (declination s) (lon - hour_angle s) in
  Rabs te <= 1.7e8 -> -90 <= lat <= 90 ->
  exists zen, 0 <= zen <= 180 /\
    zenith s = zen + rad / 149597871 * sin (one_degree * zen) / one_degree /\
    cos (one_degree * zen) = inner (upwards lat lon) d /\
    sin (one_degree * zen) * sin (one_degree * azimuth s) = inner (east lat lon) d /\
    sin (one_degree * zen) * cos (one_degree * azimuth s) = inner (north lat lon) d.
Proof. exact sun_horizontal. Qed.
Print Assumptions C72_horizontal.

(** The refraction of the atmosphere decreases the zenith angle of the original
    implementation when the Sun is above the horizon, and changes nothing else. *)
Theorem C72_refraction : forall t lat lon rad dtt pres temp,
  let s := sunpos_original_item t lat lon rad dtt pres temp in
  let s0 := sunpos_original_item t lat lon rad dtt 0 temp in
  declination s = declination s0 /\ right_ascension s = right_ascension s0 /\ hour_angle s = hour_angle s0 /\
  azimuth s = azimuth s0 /\ (pres <= 0 \/ 90 <= zenith s0 -> zenith s = zenith s0) /\
  (0 < pres -> zenith s0 < 90 ->
   zenith s = zenith s0 - refraction pres temp (one_degree * (90 - zenith s0)) / one_degree).
Proof. exact sun_refraction. Qed.
Print Assumptions C72_refraction.

(** At the same time the Sun is in the same direction for all places. *)
Theorem C72_same_sun : forall t lat lon rad dtt lat' lon' rad',
  let s := sunpos_item t lat lon rad dtt in
  let s' := sunpos_item t lat' lon' rad' dtt in
  declination s = declination s' /\ right_ascension s = right_ascension s' /\
  direction (declination s) (lon - hour_angle s) = direction (declination s') (lon' - hour_angle s').
Proof. exact sun_same_direction. Qed.
Print Assumptions C72_same_sun.

Example C72_example : exists zen, zenith (sunpos_item 7305 90 0 0 69) = zen /\
  cos (one_degree * zen) = sin (one_degree * declination (sunpos_item 7305 90 0 0 69)).
Proof. exact ex_pole. Qed.

(** C73: from 2000-03-01 to 2400-02-29 the days of the original implementation are the days
    of MJD2000 ... *)
Theorem C73_dates : forall day h, (60 <= day < 146157)%Z ->
  let '(y, m, d) := day_to_date day in date_to_sunposmjd2k y m d h = IZR day + h / 24.
Proof. exact date_days. Qed.
Print Assumptions C73_dates.

(** ... but not the day before or the day after. *)
Theorem C73_day_before :
  let '(y, m, d) := day_to_date 59 in date_to_sunposmjd2k y m d 0 = 61.
Proof. exact date_days_before. Qed.
Print Assumptions C73_day_before.

Theorem C73_day_after :
  let '(y, m, d) := day_to_date 146157 in date_to_sunposmjd2k y m d 0 = 146156.
Proof. exact date_days_after. Qed.
Print Assumptions C73_day_after.

(** Between these dates the original and the new implementation agree when there is no
    pressure; an offset of the terrestrial time of [dtt] seconds is an offset of
    0.9999936 [dtt] seconds. *)
Theorem C73_original : forall t lat lon rad dtt temp, 60 <= t < 146157 ->
  sunpos_original_item t lat lon rad dtt 0 temp = sunpos_item t lat lon rad (0.9999936 * dtt).
Proof. exact sun_original. Qed.
Print Assumptions C73_original.

Example C73_example : Rabs (7305 + 69 / 86400 - epoch_2060) <= 1.7e8 /\ 60 <= 7305 < 146157.
Proof. exact ex_time. Qed.

(** C74: the sub-solar point is the only place where the Sun is in the zenith. *)
Theorem C74_subsolar_point : forall t, Rabs (t - epoch_2060) <= 1.7e8 ->
  let '(lat, lon) := get_subsol t in
  -90 <= lat <= 90 /\ -180 < lon <= 180 /\
  zenith (sunpos_item t lat lon 0 0) = 0 /\
  forall lat' lon', -90 <= lat' <= 90 -> zenith (sunpos_item t lat' lon' 0 0) = 0 ->
    direction lat' lon' = direction lat lon.
Proof. exact subsol_overhead. Qed.
Print Assumptions C74_subsolar_point.

(** The magnetic universal time is that of the sub-solar point unless the user gives both
    its latitude and its longitude. *)
Theorem C74_default : forall t lat_ngp lon_ngp lat lon, (lat = None \/ lon = None) ->
  mjd2000_to_magnetic_universal_time t lat_ngp lon_ngp lat lon =
  mjd2000_to_magnetic_universal_time t lat_ngp lon_ngp (Some (fst (get_subsol t))) (Some (snd (get_subsol t))).
Proof. exact mut_default. Qed.
Print Assumptions C74_default.

Example C74_example : Rabs (7305 + 69 / 86400 - epoch_2060) <= 1.7e8 /\ 60 <= 7305 < 146157.
Proof. exact ex_time. Qed.

(** C75: for arguments which are scalars or arrays of the same dimensions (15 at most) the
    result has these dimensions, and each of its items is the solar position for the items of
    the arguments; other arguments are refused. *)
Theorem C75_arrays : forall t la lo r d,
  (forall dd, common_dims dd (map dims [t; la; lo; r; d]) -> (length dd <= 15)%nat ->
     sunpos t la lo r d = Ok (dd, map (fun ix => Some (sunpos_item (at_index t ix) (at_index la ix) (at_index lo ix)
       (at_index r ix) (at_index d ix))) (indices dd))) /\
  ((forall dd, common_dims dd (map dims [t; la; lo; r; d]) -> (15 < length dd)%nat) -> sunpos t la lo r d = Err ValueError).
Proof. exact sunpos_arrays. Qed.
Print Assumptions C75_arrays.

Theorem C75_original_arrays : forall t la lo r d p te,
  (forall dd, common_dims dd (map dims [t; la; lo; r; d; p; te]) -> (length dd <= 15)%nat ->
     sunpos_original t la lo r d p te = Ok (dd, map (fun ix => Some (sunpos_original_item (at_index t ix) (at_index la ix)
       (at_index lo ix) (at_index r ix) (at_index d ix) (at_index p ix) (at_index te ix))) (indices dd))) /\
  ((forall dd, common_dims dd (map dims [t; la; lo; r; d; p; te]) -> (15 < length dd)%nat) ->
   sunpos_original t la lo r d p te = Err ValueError).
Proof. exact original_arrays. Qed.
Print Assumptions C75_original_arrays.

Example C75_example : common_dims [2; 3]%nat [[2; 3]; []; [2; 3]; []; []]%nat /\
  ~ exists d, common_dims d [[2]; [3]; []; []; []]%nat.
Proof. exact ex_dims. Qed.
