(** The field of the MMA models. *)
From Coq Require Import List ZArith Reals.
From Coquelicot Require Import Coquelicot.
From Verif Require Import SparseSpec ShEvalSpec GeoModel ShEvalModel CoordModel CoordSpec FieldSpec MmaModel MmaSpec.
Import ListNotations.
Open Scope R_scope.

(** The vector in space given by the components in the output coordinate system: Cartesian ones, or northward, eastward and up at the
    latitude and longitude *)
Definition in_space (ct : coord_type) (coordinates v : R * R * R) : R * R * R :=
  let '(lat, lon, _) := coordinates in
  let '(n, e, u) := v in
  match ct with
  | CT_GEOCENTRIC_CARTESIAN => v
  | _ => (- n * sin (one_degree * lat) * cos (one_degree * lon) - e * sin (one_degree * lon) + u * cos (one_degree * lat) * cos (one_degree * lon),
          - n * sin (one_degree * lat) * sin (one_degree * lon) + e * cos (one_degree * lon) + u * cos (one_degree * lat) * sin (one_degree * lon),
          n * cos (one_degree * lat) + u * sin (one_degree * lat))
  end.

(** The result of a model in the dipole frame for the time [t] (NaN is [None]) and the location [x]: the NaNs, [None], if the time is not valid,
    otherwise minus the gradient of the potential with the coefficients of the time, at any coordinates [d0], [d1], [d2] of the point to which the
    rotation takes the location, rotated back to the geographic frame and multiplied by the scale. *)
Definition dipole_result (validity : Rbar * Rbar) (value : R -> Z -> Z -> R -> Prop) (internal : bool) (lo hi : Z) (N : nat)
  (lat_ngp lon_ngp : R) (ci co : coord_type) (scale : option (R * R * R)) (tx : option R * (R * R * R)) (o : option (R * R * R)) : Prop :=
  let '(t, x) := tx in
  let m := get_dipole_rotation_matrix lat_ngp lon_ngp in
  (~ in_validity validity t -> o = None) /\
  (forall u gh d0 d1 d2, t = Some u -> in_validity validity t ->
     usual CT_GEOCENTRIC_SPHERICAL (d0, d1, d2) ->
     position CT_GEOCENTRIC_SPHERICAL (d0, d1, d2) = row_times (position ci x) m ->
     coefficient_table (value u) lo hi gh ->
     exists g w, field_of internal gh N d0 d1 d2 g /\
       in_space co (convert x ci co) w = times_column m (in_space CT_GEOCENTRIC_SPHERICAL (d0, d1, d2) g) /\
       o = Some (match scale with Some s => vmul w s | None => w end)).

(** The coefficients of the two sets of the 2C products *)
Definition two_sets_value (nm1 nm2 : list (Z * Z)) (files : list (cdf_set * cdf_set)) (u : R) (n m : Z) (v : R) : Prop :=
  exists v1 v2, mma_value nm1 (map fst files) n m u v1 /\ mma_value nm2 (map snd files) n m u v2 /\ v = v1 + v2.

(** The times within the range of the times of the files *)
Definition covers (files : list cdf_set) (validity : Rbar * Rbar) : Prop :=
  forall a b, In a (all_times files) -> (forall x, In x (all_times files) -> a <= x) ->
    In b (all_times files) -> (forall x, In x (all_times files) -> x <= b) ->
    forall t, in_validity validity t <-> exists u, t = Some u /\ a <= u <= b.

(** The degrees are at most [N]. *)
Definition nm_up_to (nm : list (Z * Z)) (N : nat) : Prop := forall n m, In (n, m) nm -> (n <= Z.of_nat N)%Z.
