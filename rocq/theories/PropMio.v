(** C54 and C67: the MIO models *)

From Coq Require Import List ZArith Reals.
From Verif Require Import Ord CoefModel GeoModel ShEvalModel ShEvalSpec FourierModel FourierExamples CoordModel CoordSpec ComposedModel ComposedSpec
  MioModel MioSpec MioProofs MioExamples.
Import ListNotations.
Open Scope R_scope.

(** The MIO model is evaluated element by element: each element is the value for its time, its position and
    its parameters.  Missing: parameters of other dimensions, see the refuted claims below. *)
Theorem C54_value_partial : forall T (OT : TOrd T) (m : @mio T) N time location ci co s f107 lat_sol lon_sol mem,
  distinct_series (mio_set m) N ->
  prefix (dims time) (dims location) -> option_fits f107 (dims location) ->
  option_fits lat_sol (dims location) -> option_fits lon_sol (dims location) -> ~ f107_without_times f107 time ->
  exists r, mio_eval m time location ci co s f107 lat_sol lon_sol mem = Ok r /\ dims r = dims location /\
    forall ix, In ix (indices (dims location)) ->
      mio_element m N (at_index time ix) (get location ix) ci co s (option_at f107 ix)
        (option_at lat_sol ix) (option_at lon_sol ix) (get r ix).
Proof. exact @mio_value. Qed.
Print Assumptions C54_value_partial.

Example C54_example : distinct_series (mio_set ex_mio) 2 /\ in_range (zf 5) (mio_validity ex_mio) /\
  ~ in_range (zf 11) (mio_validity ex_mio) /\ scalar_or_full (nd0 (Some (zf 5))) (dims ex_locations).
Proof. exact ex_mio_ok. Qed.

(** Times of other dimensions than those of the positions, or with more dimensions, are refused. *)
Theorem C54_times_refused : forall T (OT : TOrd T) (m : @mio T) time location ci co s f107 lat_sol lon_sol mem,
  ~ prefix (dims time) (dims location) ->
  (prefix (dims location) (dims time) -> mio_eval m time location ci co s f107 lat_sol lon_sol mem = Err TypeError) /\
  (~ prefix (dims location) (dims time) -> mio_eval m time location ci co s f107 lat_sol lon_sol mem = Err ValueError).
Proof. exact @mio_times_refused. Qed.
Print Assumptions C54_times_refused.

Example C54_times_example : ~ prefix [3%nat] (dims ex_locations) /\ ~ prefix (dims ex_locations) [3%nat].
Proof. exact ex_other_times. Qed.

(** The primary field is the one of the model below the ionosphere for the radii not above the ionosphere and
    of the model above the ionosphere for the other radii, element by element ... *)
Theorem C54_switch_partial : forall T (below above : evaluator) value_below value_above height earth_radius empty
    (time : nd (option T)) location ci co s f107 lat_sol lon_sol,
  pointwise below value_below -> pointwise above value_above ->
  scalar_or_full time (dims location) -> option_fits f107 (dims location) ->
  option_fits lat_sol (dims location) -> option_fits lon_sol (dims location) -> ~ f107_without_times f107 time ->
  exists r, primary_eval below above height earth_radius empty time location ci co s f107 lat_sol lon_sol = Ok r /\
    dims r = dims location /\
    forall ix, In ix (indices (dims location)) ->
      let x := convert (get location ix) ci CT_GEOCENTRIC_SPHERICAL in
      let value e := e (at_index time ix) x CT_GEOCENTRIC_SPHERICAL co s (option_at f107 ix)
                       (option_at lat_sol ix) (option_at lon_sol ix) (get r ix) in
      (snd x <= earth_radius + height -> value value_below) /\ (earth_radius + height < snd x -> value value_above).
Proof. exact @primary_value. Qed.
Print Assumptions C54_switch_partial.

(** ... where the radius is the distance of the position from the centre ... *)
Theorem C54_radius : forall ct v, (ct = CT_GEOCENTRIC_SPHERICAL -> 0 <= snd v) ->
  snd (convert v ct CT_GEOCENTRIC_SPHERICAL) = distance (position ct v).
Proof. exact convert_radius. Qed.
Print Assumptions C54_radius.

(** ... and the MIO models are such models. *)
Theorem C54_models : forall T (OT : TOrd T) (m : @mio T) N mem, distinct_series (mio_set m) N ->
  pointwise (fun time location ci co s f107 lat_sol lon_sol => mio_eval m time location ci co s f107 lat_sol lon_sol mem)
    (mio_element m N).
Proof. exact @mio_pointwise. Qed.
Print Assumptions C54_models.

Example C54_switch_example : exists r,
  primary_eval (ex_constant 1) (ex_constant 2) 110 6371.2 (fun _ => None) (nd0 (Some (zf 5))) ex_locations
    CT_GEOCENTRIC_SPHERICAL CT_GEOCENTRIC_SPHERICAL None None None None = Ok r /\
  get r [0%nat] = Some (1, 0, 0) /\ get r [1%nat] = Some (2, 0, 0).
Proof. exact ex_switch. Qed.

(** F10.7 given for the first dimension of the positions makes elements NaN although the time, the position and
    F10.7 of the element have a value. *)
Theorem C54_f107_refuted : forall T (OT : TOrd T) (m : @mio T) N t x ci co s mem,
  distinct_series (mio_set m) N -> in_range t (mio_validity m) -> dims x = [2%nat; 2%nat] ->
  exists r r1, mio_eval m (all_times t) x ci co s (Some ex_f107) None None mem = Ok r /\ get r [0%nat; 1%nat] = None /\
    mio_eval m (nd0 (Some t)) (nd0 (get x [0%nat; 1%nat])) ci co s (Some (nd0 (get ex_f107 [0%nat]))) None None mem = Ok r1 /\
    get r1 [] <> None.
Proof. exact @f107_rows. Qed.
Print Assumptions C54_f107_refuted.

(** F10.7 given for each of the positions and one time are refused. *)
Theorem C54_scalar_time_refuted : forall T (OT : TOrd T) (m : @mio T) t location ci co s f mem,
  dims f <> [] -> dims f = dims location ->
  mio_eval m (nd0 t) location ci co s (Some f) None None mem = Err IndexError.
Proof. exact @scalar_time_f107. Qed.
Print Assumptions C54_scalar_time_refuted.

(** Times which have only the first dimensions of the positions are refused by the primary field. *)
Theorem C54_few_times_refuted : forall T (below above : evaluator) height earth_radius empty (time : nd (option T))
    location ci co s,
  dims time <> [] -> ~ prefix (dims location) (dims time) ->
  primary_eval below above height earth_radius empty time location ci co s None None None = Err IndexError.
Proof. exact @primary_few_times. Qed.
Print Assumptions C54_few_times_refuted.

(** A time is in the validity of the primary field if and only if it is in the one of both of the models. *)
Theorem C67_validity : forall T (OT : TOrd T) validity_below validity_above (t : T),
  in_range t (primary_validity validity_below validity_above) <-> in_range t validity_below /\ in_range t validity_above.
Proof. exact @primary_validity_range. Qed.
Print Assumptions C67_validity.

(** The degree is the larger of the two degrees, but the minimum degree need not be the smaller one. *)
Theorem C67_degree : forall below above,
  (below <= primary_degree below above /\ above <= primary_degree below above)%Z /\
  (primary_degree below above = below \/ primary_degree below above = above).
Proof. exact primary_degree_max. Qed.
Print Assumptions C67_degree.
Theorem C67_min_degree_refuted : exists below above, primary_min_degree below above <> Z.min below above.
Proof. exact min_degree_refuted. Qed.
Print Assumptions C67_min_degree_refuted.

Example C67_example : in_range (zf 3) (primary_validity (zf 0, zf 4) (zf 2, zf 9)) /\ ~ in_range (zf 5) (primary_validity (zf 0, zf 4) (zf 2, zf 9)).
Proof. exact ex_validity. Qed.
