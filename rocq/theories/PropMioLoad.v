(** C55: the external field of the MIO models at the height of the ionosphere *)

From Coq Require Import List ZArith Reals.
From Coquelicot Require Import Coquelicot.
From Verif Require Import Ord CoefModel GeoModel ShEvalModel ShEvalSpec FourierModel FourierExamples CoordModel ComposedModel ComposedSpec
  MioModel MioSpec MioLoadModel MioLoadProofs MioLoadExamples.
Import ListNotations.
Open Scope R_scope.

(** Along any radius the radial component of the external field loaded from the data of a file is a continuous
    function of the distance from the centre, the height of the ionosphere, where the external
    coefficients are replaced by the internal ones, included.  It vanishes far away, as the sources are
    below, and it is bounded below the ionosphere. *)
Theorem C55_radial_continuous : forall T (OT : TOrd T) year_fraction subsol validity data below above N mem empty
    (t : T) lat lon s f107 lat_sol lon_sol,
  load_external year_fraction subsol validity data = Ok (below, above) ->
  distinct_series (mio_set below) N -> 0 < MIO_EARTH_RADIUS + d_height data ->
  in_range t validity -> f107 <> Some None ->
  exists Br : R -> R,
    (forall r, 0 < r -> exists res n e,
       external_eval data (below, above) mem empty (nd0 (Some t)) (nd0 (lat, lon, r))
         CT_GEOCENTRIC_SPHERICAL CT_GEOCENTRIC_SPHERICAL s
         (option_map nd0 f107) (option_map nd0 lat_sol) (option_map nd0 lon_sol) = Ok res /\
       get res [] = Some (n, e, Br r)) /\
    (forall r, 0 < r -> continuous Br r) /\
    is_lim Br p_infty 0 /\
    exists M, forall r, 0 < r <= MIO_EARTH_RADIUS + d_height data -> Rabs (Br r) <= M.
Proof. exact @external_continuous. Qed.
Print Assumptions C55_radial_continuous.

Example C55_example : exists below above : @mio Zx,
  load_external (fun _ => 0.5) (fun _ => (10, 20)) (zf 0, zf 10) ex_data = Ok (below, above) /\
  distinct_series (mio_set below) 2 /\ 0 < MIO_EARTH_RADIUS + d_height ex_data /\ in_range (zf 5) (zf 0, zf 10) /\
  mio_internal below = false /\ mio_internal above = true /\ length (fs_ab (mio_set above)) = 3%nat.
Proof. exact ex_loaded. Qed.

(** The degrees of the file which are refused with IndexError: those larger than the declared degree, and those so negative that they are
    not even a position counted from the end. *)
Theorem C55_degrees : forall T (year_fraction : T -> R) subsol validity data,
  (d_pmin data <= d_pmax data)%Z -> (d_smin data <= d_smax data)%Z ->
  (load_external year_fraction subsol validity data = Err IndexError <->
   ~ List.Forall (fun p => (- (d_degree_max data + 1) <= fst p <= d_degree_max data)%Z /\ (0 <= d_degree_max data)%Z) (d_nm data)).
Proof. exact @accepted_degrees. Qed.
Print Assumptions C55_degrees.

Example C55_example_degrees : (d_pmin ex_data <= d_pmax ex_data)%Z /\ (d_smin ex_data <= d_smax ex_data)%Z /\
  List.Forall (fun p => (- (d_degree_max ex_data + 1) <= fst p <= d_degree_max ex_data)%Z /\ (0 <= d_degree_max ex_data)%Z) (d_nm ex_data).
Proof. exact ex_degrees. Qed.
