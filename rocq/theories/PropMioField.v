(** C103: the field of the MIO models loaded from files *)
From Coq Require Import List ZArith Reals.
From Verif Require Import Ord CoefModel GeoModel ShEvalModel ShEvalSpec SparseSpec FourierSpec CoordModel CoordSpec ComposedModel ComposedSpec TextModel MioModel MioSpec
  MioLoadModel MioParseModel MioParseSpec FieldSpec MmaFieldSpec CoordFieldSpec ShcExamples MioFileExamples MioFieldSpec MioFieldProofs MioFieldExamples.
Import ListNotations.
Open Scope R_scope.

(** The internal (secondary) field: minus the gradient of the potential whose coefficients are the values of the series of the
    internal rows of the file *)
Theorem C103_internal_partial : forall T (OT : TOrd T) to_int to_float year_fraction subsol (validity : T * T) file h nm qs gh N,
  mio_contents to_int to_float file h nm qs gh -> proper_nm nm N -> proper_bounds h ->
  exists m, load_internal_file to_int to_float year_fraction subsol validity file = Parsed m /\
  forall time location ci co s f107 lat_sol lon_sol mem,
  prefix (dims time) (dims location) -> option_fits f107 (dims location) ->
  option_fits lat_sol (dims location) -> option_fits lon_sol (dims location) -> ~ f107_without_times f107 time ->
  exists r, mio_eval m time location ci co s f107 lat_sol lon_sol mem = Ok r /\ dims r = dims location /\
    forall ix, In ix (indices (dims location)) ->
      mio_field validity h true (row_coefficient h nm gh (fun _ => 1)) year_fraction subsol N
        (at_index time ix) (get location ix) ci co s (option_at f107 ix) (option_at lat_sol ix) (option_at lon_sol ix) (get r ix).
Proof. exact @internal_field. Qed.
Print Assumptions C103_internal_partial.

(** The external (primary) field: up to the height of the ionosphere minus the gradient of the external potential of the series of the
    external rows of the file; above it minus the gradient of the internal potential whose coefficients are multiplied by
    -n/(n+1) (1 + height/6371.2)^(2n+1) *)
Theorem C103_external_partial : forall T (OT : TOrd T) to_int to_float year_fraction subsol (validity : T * T) file h nm qs gh N,
  mio_contents to_int to_float file h nm qs gh -> proper_nm nm N -> proper_bounds h ->
  exists below above height, load_external_file to_int to_float year_fraction subsol validity file = Parsed (below, above, height) /\
  forall (time : nd (option T)) location ci co s f107 lat_sol lon_sol mem mem' empty,
  scalar_or_full time (dims location) -> option_fits f107 (dims location) ->
  option_fits lat_sol (dims location) -> option_fits lon_sol (dims location) -> ~ f107_without_times f107 time ->
  exists r, primary_eval (fun time location ci co s f107 lat_sol lon_sol => mio_eval below time location ci co s f107 lat_sol lon_sol mem)
      (fun time location ci co s f107 lat_sol lon_sol => mio_eval above time location ci co s f107 lat_sol lon_sol mem')
      height MIO_EARTH_RADIUS empty time location ci co s f107 lat_sol lon_sol = Ok r /\ dims r = dims location /\
    forall ix, In ix (indices (dims location)) ->
      let x := convert (get location ix) ci CT_GEOCENTRIC_SPHERICAL in
      let value internal factor := mio_field validity h internal (row_coefficient h nm qs factor) year_fraction subsol N
        (at_index time ix) x CT_GEOCENTRIC_SPHERICAL co s (option_at f107 ix) (option_at lat_sol ix) (option_at lon_sol ix) (get r ix) in
      (snd x <= 6371.2 + mh_height h -> value false (fun _ => 1)) /\ (6371.2 + mh_height h < snd x -> value true (above_factor h)).
Proof. exact @external_field. Qed.
Print Assumptions C103_external_partial.

(** The file of the example of C78 and C79: its degrees and orders and the bounds of its series are proper, ... *)
Example C103_example : mio_contents ex_int ex_real ex_mio_file ex_mio_h ex_mio_nm ex_mio_qs ex_mio_gh /\ proper_nm ex_mio_nm 2 /\ proper_bounds ex_mio_h.
Proof. exact (conj ex_mio_contents ex_mio_proper). Qed.
(** ... the table of the coefficients exists for all times, ... *)
Example C103_table_example : forall rows factor season hours, length rows = 2%nat ->
  coefficient_table (row_coefficient ex_mio_h ex_mio_nm rows factor season hours) (-1) (-1) (ex_mio_table season hours rows factor).
Proof. exact ex_mio_coefficients. Qed.
(** ... and there is a location above the ionosphere, on the equator of the dipole frame. *)
Example C103_location_example : exists x, let m := get_dipole_rotation_matrix (mh_lat_ngp ex_mio_h) (mh_lon_ngp ex_mio_h) in
  unique_coordinates CT_GEOCENTRIC_SPHERICAL (0, 0, 7000) /\
  position CT_GEOCENTRIC_SPHERICAL (0, 0, 7000) = row_times (position CT_GEOCENTRIC_CARTESIAN x) m /\ 1 / 10 ^ 10 <= cos (0 * (PI / 180)) /\
  6371.2 + mh_height ex_mio_h < 7000.
Proof. exact ex_mio_location. Qed.
