(** The field of the MIO models. *)
From Coq Require Import List ZArith Reals.
From Verif Require Import Ord CoefModel GeoModel ShEvalModel ShEvalSpec SparseSpec FourierSpec CoordModel CoordSpec ComposedModel ComposedSpec MioModel MioSpec
  MioParseModel MioParseSpec FieldSpec MmaFieldSpec CoordFieldSpec.
Import ListNotations.
Open Scope R_scope.

(** The coefficient of the degree [n] and the order [m] at the season (fraction of the year) and the hours of the magnetic universal time:
    the value of the series of its row, multiplied by a factor of the degree, zero if there is none *)
Definition row_coefficient (h : mio_header) (nm : list (Z * Z)) (rows : list (list R)) (factor : Z -> R) (season hours : R) (n m : Z) (v : R) : Prop :=
  (exists k row, nth_error nm k = Some (n, m) /\ nth_error rows k = Some row /\ v = factor n * mio_series_value h row season hours) \/
  (~ In (n, m) nm /\ v = 0).

(** the factor of the external coefficients above the ionosphere *)
Definition above_factor (h : mio_header) (n : Z) : R := - (IZR n / (IZR n + 1)) * (1 + mh_height h / 6371.2) ^ Z.to_nat (2 * n + 1).

(** The degrees and orders of a file: valid, distinct, the largest degree is [N] *)
Definition proper_nm (nm : list (Z * Z)) (N : nat) : Prop :=
  (forall n m, In (n, m) nm -> valid_nm n m /\ (n <= Z.of_nat N)%Z) /\ NoDup nm /\ (exists m, In (Z.of_nat N, m) nm) /\ (Z.of_nat N < 2 ^ 24)%Z.

(** The bounds of the degrees of the 2D series for which the buffers of the C code suffice (see C50) *)
Definition proper_bounds (h : mio_header) : Prop :=
  degrees_fit (Z.to_nat (mh_smax h - mh_smin h + 1)) (Z.to_nat (mh_pmax h - mh_pmin h + 1)) (mh_smin h) (mh_pmin h).

Section Spec.
Context {T : Type} {OT : TOrd T}.

(** The result for the time [t], the location [x], the F10.7 index and the sub-solar point if it is given: NaN if the time or the
    index is NaN or if the time is not valid; otherwise minus the gradient of the potential with the coefficients of the time, at any
    coordinates [d0], [d1], [d2] of the point to which the rotation to the dipole frame takes the location, rotated back, multiplied by 1 + W F10.7 and by the scale. *)
Definition mio_field (validity : T * T) (h : mio_header) (internal : bool) (value : R -> R -> Z -> Z -> R -> Prop)
  (year_fraction : T -> R) (subsol : T -> R * R) (N : nat) : element := fun t x ci co s f107 lat_sol lon_sol o =>
  let rotation := get_dipole_rotation_matrix (mh_lat_ngp h) (mh_lon_ngp h) in
  (f107 = Some None \/ ~ (exists u, t = Some u /\ in_range u validity) -> o = None) /\
  (forall u f lat lon gh d0 d1 d2, t = Some u -> in_range u validity ->
     (f107 = Some (Some f) \/ f107 = None /\ f = 0) ->
     match lat_sol, lon_sol with Some a, Some b => lat = a /\ lon = b | _, _ => (lat, lon) = subsol u end ->
     usual CT_GEOCENTRIC_SPHERICAL (d0, d1, d2) ->
     position CT_GEOCENTRIC_SPHERICAL (d0, d1, d2) = row_times (position ci x) rotation ->
     coefficient_table (value (year_fraction u) (magnetic_universal_time (mh_lat_ngp h) (mh_lon_ngp h) lat lon)) (-1) (-1) gh ->
     exists g w, field_of internal gh N d0 d1 d2 g /\
       in_space co (convert x ci co) w = times_column rotation (in_space CT_GEOCENTRIC_SPHERICAL (d0, d1, d2) g) /\
       let k := 1 + mh_wolf_ratio h * f in
       o = Some (scaled (match s with Some s => s | None => (1, 1, 1) end) (scaled (k, k, k) w))).
End Spec.
