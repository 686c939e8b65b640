(** Model of the solar positions: include/sun_ephemeris.h, pysunpos.h, pysunpos_original.h
    and solar_position.py.  The doubles are real numbers. *)

From Coq Require Import Bool List ZArith Reals.
From Verif Require Import CoefModel GeoModel TimeModel CoordModel ShEvalModel.
Import ListNotations.
Open Scope R_scope.

(** sun_ephemeris.h:45-47 *)
Definition SEC2DAYS : R := 1 / 86400.
(** sun_ephemeris.h:53 *)
Definition PI2 : R := 2 * PI.
(** sun_ephemeris.h:54 *)
Definition PIM : R := PI / 2.

(** sun_ephemeris.h:56-58 *)
Definition FMOD_FLOOR (a b : R) : R := a - b * IZR (floor (a / b)).

(** C's conversion of a double to an int: the fraction is cut off.  Overflows are left out. *)
Definition c_int (x : R) : Z := if Rlt_dec x 0 then (- floor (- x))%Z else floor x.

(** sun_ephemeris.h:74-83 *)
Definition date_to_sunposmjd2k (year month day : Z) (hours : R) : R :=
  let mt := (month + 12 * (if month <=? 2 then 1 else 0))%Z in
  let yt := (year - (if month <=? 2 then 1 else 0))%Z in
  IZR (c_int (365.25 * IZR (yt - 2000)) + c_int (30.6001 * IZR (mt + 1)) - c_int (0.01 * IZR yt) + day)
  + 1 / 24 * hours - 43.

(** sun_ephemeris.h:130-152 (sunpos5original) and 220-240 (sunpos5equat), the common
    part: the ecliptic longitude, the obliquity and the nutation in longitude *)
Definition ecliptic (te : R) : R * R * R :=
  let wte := 0.0172019715 * te in
  let s1 := sin wte in
  let c1 := cos wte in
  let s2 := 2 * s1 * c1 in
  let c2 := (c1 + s1) * (c1 - s1) in
  let s3 := s2 * c1 + c2 * s1 in
  let c3 := c2 * c1 - s2 * s1 in
  let l :=
    1.7527901 + 1.7202792159e-2 * te + 3.33024e-2 * s1 - 2.0582e-3 * c1 +
    3.512e-4 * s2 - 4.07e-5 * c2 + 5.2e-6 * s3 - 9e-7 * c3 -
    8.23e-5 * s1 * sin (2.92e-5 * te) + 1.27e-5 * sin (1.49e-3 * te - 2.337) +
    1.21e-5 * sin (4.31e-3 * te + 3.065) + 2.33e-5 * sin (1.076e-2 * te - 1.533) +
    3.49e-5 * sin (1.575e-2 * te - 2.358) + 2.67e-5 * sin (2.152e-2 * te + 0.074) +
    1.28e-5 * sin (3.152e-2 * te + 1.547) + 3.14e-5 * sin (2.1277e-1 * te - 0.488) in
  let nu := 9.282e-4 * te - 0.8 in
  let dlam := 8.34e-5 * sin nu in
  let lambda := l + PI + dlam in
  let epsi := 4.089567e-1 - 6.19e-9 * te + 4.46e-5 * cos nu in
  (lambda, epsi, dlam).

(** sun_ephemeris.h:154-166 and 242-259, the common part; the values of decl, rasc and hang *)
Definition equatorial (t te lon : R) : R * R * R :=
  let '(lambda, epsi, dlam) := ecliptic te in
  let sl := sin lambda in
  let cl := cos lambda in
  let se := sin epsi in
  let ce := sqrt (1 - se * se) in
  let rasc0 := atan2 (sl * ce) cl in
  let rasc := rasc0 + (if Rlt_dec rasc0 0 then PI2 else 0) in
  let decl := asin (sl * se) in
  let hang0 := 1.7528311 + 6.300388099 * t + lon - rasc + 0.92 * dlam in
  let hang := FMOD_FLOOR (hang0 + PI) PI2 - PI in
  (decl, rasc, hang).

(** sun_ephemeris.h:213-260 *)
Definition sunpos5equat (mjd2k dtt lon : R) : R * R * R :=
  let t := mjd2k + 43 - 21958 in
  let te := SEC2DAYS * dtt + t in
  equatorial t te lon.

(** sun_ephemeris.h:289-314; the values of azimuth and zenith *)
Definition sunpos5eq2hor (decl hang lat rad press temp : R) : R * R :=
  let sp := sin lat in
  let cp := sqrt (1 - sp * sp) in
  let sd := sin decl in
  let cd := sqrt (1 - sd * sd) in
  let sh := sin hang in
  let ch := cos hang in
  let se0 := sp * sd + cp * cd * ch in
  let ep := asin se0 - sqrt (1 - se0 * se0) * rad * (1 / 149597871) in
  let de :=
    if Rlt_dec 0 press then
      if Rlt_dec 0 ep then 0.08422 * press / ((273 + temp) * tan (ep + 0.003138 / (ep + 0.08919)))
      else 0
    else 0 in
  let zenith := PIM - ep - de in
  let azimuth := atan2 sh (ch * sp - sd * cp / cd) in
  (FMOD_FLOOR azimuth PI2 - PI, zenith).

(** sun_ephemeris.h:116-187; the values of decl, rasc, hang, azimuth and zenith.  The
    calculation of the horizontal coordinates (168-186) is literally that of
    sunpos5eq2hor, and that of the equatorial coordinates that of sunpos5equat. *)
Definition sunpos5original (year month day : Z) (hours lat lon rad dtt press temp : R)
  : R * R * R * R * R :=
  let mt := (month + 12 * (if month <=? 2 then 1 else 0))%Z in
  let yt := (year - (if month <=? 2 then 1 else 0))%Z in
  let t :=
    IZR (c_int (365.25 * IZR (yt - 2000)) + c_int (30.6001 * IZR (mt + 1)) - c_int (0.01 * IZR yt) + day)
    + 1 / 24 * hours - 21958 in
  let te := t + 1.1574e-5 * dtt in
  let '(decl, rasc, hang) := equatorial t te lon in
  let '(azimuth, zenith) := sunpos5eq2hor decl hang lat rad press temp in
  (decl, rasc, hang, azimuth, zenith).

(** The five angles of the output *)
Record sun := { declination : R; right_ascension : R; hour_angle : R; azimuth : R; zenith : R }.

(** pysunpos.h:40-42 *)
Definition RAD2DEG : R := 180 / PI.

(** pysunpos.h:77-95 *)
Definition sunpos_item (mjd2k lat lon rad dtt : R) : sun :=
  let lat := lat * DEG2RAD in
  let lon := lon * DEG2RAD in
  let '(decl, rasc, hang) := sunpos5equat mjd2k dtt lon in
  let '(azimuth, zenith) := sunpos5eq2hor decl hang lat rad 0 0 in
  {| declination := RAD2DEG * decl; right_ascension := RAD2DEG * rasc;
     hour_angle := RAD2DEG * hang; azimuth := RAD2DEG * azimuth; zenith := RAD2DEG * zenith |}.

(** pysunpos_original.h:81-106 *)
Definition sunpos_original_item (mjd2k lat lon rad dtt pres temp : R) : sun :=
  let lat := lat * DEG2RAD in
  let lon := lon * DEG2RAD in
  let '((year, month, day), hours) := mjd2k_to_date mjd2k in
  let '(decl, rasc, hang, azimuth, zenith) :=
    sunpos5original year month day hours lat lon rad dtt pres temp in
  {| declination := RAD2DEG * decl; right_ascension := RAD2DEG * rasc;
     hour_angle := RAD2DEG * hang; azimuth := RAD2DEG * azimuth; zenith := RAD2DEG * zenith |}.

(** pysunpos.h:48-100 and pysunpos_original.h:49-111: the loops over the items of an
    output array of the dimensions [odims]; [args] are the input arrays and [item] the
    calculation for an item. *)
Fixpoint sun_items (item : list R -> option sun) (odims : list nat) (args : list (nd R))
  : list (option sun) :=
  match odims with
  | [] => [item (map (fun a => get a []) args)]
  | d :: ds => flat_map (fun i => sun_items item ds (map (fun a => nd_item a i) args)) (seq 0 d)
  end.

(** pysunpos.h:166-173 and pysunpos_original.h:192-199: the first of the arrays with the
    largest number of dimensions *)
Fixpoint largest_array (arr : nd R) (arrs : list (nd R)) : nd R :=
  match arrs with
  | [] => arr
  | a :: arrs' =>
      if Nat.ltb (length (dims arr)) (length (dims a)) then largest_array a arrs'
      else largest_array arr arrs'
  end.

(** pymm_aux.h:240-266; whether there is an error *)
Fixpoint check_equal_shape (dims0 dims1 : list nat) : bool :=
  match dims0, dims1 with
  | [], [] => false
  | d0 :: ds0, d1 :: ds1 => if Nat.eqb d0 d1 then check_equal_shape ds0 ds1 else true
  | _, _ => true
  end.

(** pysunpos.h:166-227 and pysunpos_original.h:192-263: the same calculation for the
    lists of their arguments, which are not empty.  The conversions of the Python objects
    to arrays are left out. *)
Definition sun_arrays (item : list R -> option sun) (first : nd R) (others : list (nd R))
  : result (list nat * list (option sun)) :=
  let arr := largest_array first others in
  if Nat.ltb 15 (length (dims arr)) then Err ValueError
  else if existsb (fun a => Nat.ltb 0 (length (dims a)) && check_equal_shape (dims a) (dims arr))
            (first :: others) then Err ValueError
  else Ok (dims arr, sun_items item (dims arr) (first :: others)).

(** pysunpos.h:124-243 and solar_position.py:37-58.  The array of five components for
    each item is an array of records. *)
Definition sunpos (time_mjd2k lat lon rad dtt : nd R) : result (list nat * list (option sun)) :=
  sun_arrays (fun args =>
    match args with
    | [t; la; lo; r; d] => Some (sunpos_item t la lo r d)
    | _ => None
    end) time_mjd2k [lat; lon; rad; dtt].

(** pysunpos_original.h:137-281 and solar_position.py:61-88 *)
Definition sunpos_original (time_mjd2k lat lon rad dtt pres temp : nd R)
  : result (list nat * list (option sun)) :=
  sun_arrays (fun args =>
    match args with
    | [t; la; lo; r; d; p; te] => Some (sunpos_original_item t la lo r d p te)
    | _ => None
    end) time_mjd2k [lat; lon; rad; dtt; pres; temp].

(** magnetic_time.py:59-62, with the default dtt = 0 of sunpos, for one time *)
Definition get_subsol (mjd2000 : R) : R * R :=
  let s := sunpos_item mjd2000 0 0 0 0 in
  (declination s, - hour_angle s).

(** magnetic_time.py:39-56 for one time; the sub-solar point of the user, if any *)
Definition mjd2000_to_magnetic_universal_time (mjd2000 lat_ngp lon_ngp : R)
  (lat_sol lon_sol : option R) : R :=
  let '(lat_sol, lon_sol) :=
    match lat_sol, lon_sol with
    | Some lat_sol, Some lon_sol => (lat_sol, lon_sol)
    | _, _ => get_subsol mjd2000
    end in
  magnetic_universal_time lat_ngp lon_ngp lat_sol lon_sol.
