(** C20, C30-C35, C64: the evaluation of spherical harmonics *)

From Coq Require Import List Reals Arith ZArith.
From Coquelicot Require Import Coquelicot.
From Verif Require Import LegendreSpec CoefModel ShEvalModel ShEvalSpec ShEvalProofs ShEvalGradProofs ShEvalLinProofs ShEvalExamples.
Import ListNotations.
Open Scope R_scope.

(** sheval of arrays of positions and coefficients: there is one result for each
    multi-index of the output shape, and it is the result of a separate call for the position and
    the coefficients at this index, whatever the memory contains. *)
Theorem C20_batch_pointwise : forall x csize coef ci co mode internal deg sp sg mem odims out,
  sheval x csize coef ci co mode internal deg sp sg mem = Ok (odims, out) ->
  length out = length (indices odims) /\
  forall k ix, nth_error (indices odims) k = Some ix ->
    exists o, nth_error out k = Some o /\
      forall mem', sheval (nd0 (at_index x ix)) csize (nd0 (at_index coef ix)) ci co mode internal deg sp sg mem'
        = Ok ([], [o]).
Proof. exact batch_pointwise. Qed.
Print Assumptions C20_batch_pointwise.

(** The call succeeds if and only if the dimensions of one array are the leading ones of the
    other; these are the dimensions of the output. *)
Theorem C20_shape : forall x csize coef ci co mode internal deg sp sg mem,
  (1 <= csize < 2 ^ 50)%Z ->
  ((exists odims out, sheval x csize coef ci co mode internal deg sp sg mem = Ok (odims, out)) <->
    prefix (dims x) (dims coef) \/ prefix (dims coef) (dims x)) /\
  forall odims out, sheval x csize coef ci co mode internal deg sp sg mem = Ok (odims, out) ->
    prefix (dims x) odims /\ prefix (dims coef) odims /\ (odims = dims x \/ odims = dims coef).
Proof. exact sheval_shape. Qed.
Print Assumptions C20_shape.

Example C20_example : forall mem, exists out,
  sheval ex_x 3 (nd0 g10) CT_GEOCENTRIC_SPHERICAL CT_GEOCENTRIC_CARTESIAN SM_POTENTIAL_AND_GRADIENT true (-1)
    1 (1, 1, 1) mem = Ok ([2%nat], out) /\ length out = 2%nat.
Proof. exact ex_batch. Qed.

(** The potential returned for a position in geocentric spherical coordinates is the
    spherical harmonic expansion, with the reference radius 6371.2 km. *)
Theorem C64_potential_expansion : forall csize deg D coef internal co sp sg lat lon rad mem,
  (1 <= csize < 2 ^ 50)%Z -> expansion_degree csize deg D -> -90 <= lat <= 90 -> rad <> 0 ->
  sheval (nd0 (lat, lon, rad)) csize (nd0 coef) CT_GEOCENTRIC_SPHERICAL co SM_POTENTIAL internal deg sp sg mem =
  Ok ([], [(Some (sp * potential internal 6371.2 (fun n m => coef (n * (n + 1) / 2 + m)%nat) D
    rad (lat * (PI / 180)) (lon * (PI / 180))), None)]).
Proof. exact potential_any_output. Qed.
Print Assumptions C64_potential_expansion.

Example C64_example : expansion_degree 3 (-1) 1.
Proof. exact deg3. Qed.

(** The gradient is the derivative of the returned potential (the latitude and the longitude
    are in degrees) along the northward, eastward and radial directions.  Missing: the eastward
    component where the cosine of the latitude is below 1e-10, see C30_near_pole_refuted. *)
Theorem C30_gradient_derivative_partial : forall csize deg coef internal mem pot,
  (1 <= csize < 2 ^ 50)%Z ->
  (forall lat lon rad,
     sheval (nd0 (lat, lon, rad)) csize (nd0 coef) CT_GEOCENTRIC_SPHERICAL CT_GEOCENTRIC_SPHERICAL SM_POTENTIAL
       internal deg 1 (1, 1, 1) mem = Ok ([], [(Some (pot lat lon rad), None)])) ->
  forall lat lon rad, -90 < lat < 90 -> rad <> 0 ->
  exists north east up,
    sheval (nd0 (lat, lon, rad)) csize (nd0 coef) CT_GEOCENTRIC_SPHERICAL CT_GEOCENTRIC_SPHERICAL SM_GRADIENT
      internal deg 1 (1, 1, 1) mem = Ok ([], [(None, Some (north, east, up))]) /\
    is_derive (fun l => pot l lon rad) lat (PI / 180 * (rad * north)) /\
    (1 / 10 ^ 10 <= cos (lat * (PI / 180)) ->
     is_derive (fun l => pot lat l rad) lon (PI / 180 * (rad * cos (lat * (PI / 180)) * east))) /\
    is_derive (fun r => pot lat lon r) rad up.
Proof. exact gradient_derivative_api. Qed.
Print Assumptions C30_gradient_derivative_partial.

(** Closer to the poles the eastward component leaves out the orders above one. *)
Theorem C30_near_pole_refuted : exists csize coef internal deg mem pot lat lon rad north east up,
  (1 <= csize < 2 ^ 50)%Z /\
  (forall lat lon rad,
     sheval (nd0 (lat, lon, rad)) csize (nd0 coef) CT_GEOCENTRIC_SPHERICAL CT_GEOCENTRIC_SPHERICAL SM_POTENTIAL
       internal deg 1 (1, 1, 1) mem = Ok ([], [(Some (pot lat lon rad), None)])) /\
  -90 < lat < 90 /\ 0 < rad /\
  sheval (nd0 (lat, lon, rad)) csize (nd0 coef) CT_GEOCENTRIC_SPHERICAL CT_GEOCENTRIC_SPHERICAL SM_GRADIENT
    internal deg 1 (1, 1, 1) mem = Ok ([], [(None, Some (north, east, up))]) /\
  ~ is_derive (fun l => pot lat l rad) lon (PI / 180 * (rad * cos (lat * (PI / 180)) * east)).
Proof. exact near_pole_refuted. Qed.
Print Assumptions C30_near_pole_refuted.

(** The potential is returned for all the arguments, so that the hypothesis of C30, C31 and
    C32 can always be met. *)
Theorem C30_potential_exists : forall csize deg coef internal mem, (1 <= csize < 2 ^ 50)%Z ->
  exists pot, forall lat lon rad,
  sheval (nd0 (lat, lon, rad)) csize (nd0 coef) CT_GEOCENTRIC_SPHERICAL CT_GEOCENTRIC_SPHERICAL SM_POTENTIAL internal deg
    1 (1, 1, 1) mem = Ok ([], [(Some (pot lat lon rad), None)]).
Proof. exact pot_exists_api. Qed.
Print Assumptions C30_potential_exists.

Example C30_example : forall mem, exists up,
  sheval (nd0 (0, 0, 6371.2)) 3 (nd0 g10) CT_GEOCENTRIC_SPHERICAL CT_GEOCENTRIC_SPHERICAL SM_GRADIENT true (-1)
    1 (1, 1, 1) mem = Ok ([], [(None, Some (-30000, 0, up))]) /\ up = 0.
Proof. exact ex_gradient. Qed.

(** The eastward component returned at a pole is the limit of the eastward derivative of the
    potential for the latitude going to the pole along the longitude. *)
Theorem C31_pole_limit : forall csize deg coef internal mem pot,
  (1 <= csize < 2 ^ 50)%Z ->
  (forall lat lon rad,
     sheval (nd0 (lat, lon, rad)) csize (nd0 coef) CT_GEOCENTRIC_SPHERICAL CT_GEOCENTRIC_SPHERICAL SM_POTENTIAL
       internal deg 1 (1, 1, 1) mem = Ok ([], [(Some (pot lat lon rad), None)])) ->
  forall pole lon rad, pole = 90 \/ pole = -90 -> rad <> 0 ->
  exists north east up,
    sheval (nd0 (pole, lon, rad)) csize (nd0 coef) CT_GEOCENTRIC_SPHERICAL CT_GEOCENTRIC_SPHERICAL SM_GRADIENT
      internal deg 1 (1, 1, 1) mem = Ok ([], [(None, Some (north, east, up))]) /\
    filterlim (fun lat => Derive (fun l => pot lat l rad) lon / (PI / 180 * (rad * cos (lat * (PI / 180)))))
      (within (fun lat => -90 < lat < 90) (locally pole)) (locally east).
Proof. exact pole_limit_api. Qed.
Print Assumptions C31_pole_limit.

(** ... and of the eastward component returned for the latitude going to the pole. *)
Theorem C31_pole_continuous : forall csize deg coef internal mem east lon rad pole,
  (1 <= csize < 2 ^ 50)%Z -> pole = 90 \/ pole = -90 -> rad <> 0 ->
  (forall lat, exists north up,
     sheval (nd0 (lat, lon, rad)) csize (nd0 coef) CT_GEOCENTRIC_SPHERICAL CT_GEOCENTRIC_SPHERICAL SM_GRADIENT
       internal deg 1 (1, 1, 1) mem = Ok ([], [(None, Some (north, east lat, up))])) ->
  filterlim east (locally pole) (locally (east pole)).
Proof. exact pole_continuous. Qed.
Print Assumptions C31_pole_continuous.

Example C31_example : forall mem, exists north up,
  sheval (nd0 (90, 90, 6371.2)) 3 (nd0 g11) CT_GEOCENTRIC_SPHERICAL CT_GEOCENTRIC_SPHERICAL SM_GRADIENT true (-1)
    1 (1, 1, 1) mem = Ok ([], [(None, Some (north, -1, up))]).
Proof. exact ex_pole. Qed.

(** The potential, as a function of the radius and of the latitude and longitude in radians,
    satisfies Laplace's equation in spherical coordinates. *)
Theorem C32_laplace : forall csize deg coef internal mem pot,
  (1 <= csize < 2 ^ 50)%Z ->
  (forall lat lon rad,
     sheval (nd0 (lat, lon, rad)) csize (nd0 coef) CT_GEOCENTRIC_SPHERICAL CT_GEOCENTRIC_SPHERICAL SM_POTENTIAL
       internal deg 1 (1, 1, 1) mem = Ok ([], [(Some (pot lat lon rad), None)])) ->
  forall r th ph, r <> 0 -> - (PI / 2) < th < PI / 2 ->
  let W := fun r th ph => pot (th * (180 / PI)) (ph * (180 / PI)) r in
  exists d_r d_th d_ph,
    is_derive (fun u => u ^ 2 * Derive (fun w => W w th ph) u) r d_r /\
    is_derive (fun u => cos u * Derive (fun w => W r w ph) u) th d_th /\
    is_derive (fun u => Derive (fun w => W r th w) u) ph d_ph /\
    d_r / r ^ 2 + d_th / (r ^ 2 * cos th) + d_ph / (r ^ 2 * cos th ^ 2) = 0.
Proof. exact laplace_api. Qed.
Print Assumptions C32_laplace.

(** sheval is linear in the coefficients in all the modes and coordinate systems (the calls of
    this and of the following theorems succeed e.g. for the arrays of C20_example). *)
Theorem C33_linear : forall x csize c1 c2 a b ci co mode internal deg sp sg mem odims1 out1 odims2 out2,
  dims c1 = dims c2 ->
  sheval x csize c1 ci co mode internal deg sp sg mem = Ok (odims1, out1) ->
  sheval x csize c2 ci co mode internal deg sp sg mem = Ok (odims2, out2) ->
  sheval x csize (lin_coefs a c1 b c2) ci co mode internal deg sp sg mem
    = Ok (odims1, map (fun '(o1, o2) => lin_result a o1 b o2) (combine out1 out2)).
Proof. exact sheval_linear. Qed.
Print Assumptions C33_linear.

(** The scaling factors multiply the potential and the components of the gradient. *)
Theorem C33_scale : forall x csize coef ci co mode internal deg sp sg mem odims out,
  sheval x csize coef ci co mode internal deg 1 (1, 1, 1) mem = Ok (odims, out) ->
  sheval x csize coef ci co mode internal deg sp sg mem = Ok (odims, map (scaled sp sg) out).
Proof. exact sheval_scaled. Qed.
Print Assumptions C33_scale.

(** Both the potential and the gradient are those of the separate modes. *)
Theorem C34_modes : forall x csize coef ci co internal deg sp sg mem odims out,
  sheval x csize coef ci co SM_POTENTIAL_AND_GRADIENT internal deg sp sg mem = Ok (odims, out) ->
  sheval x csize coef ci co SM_POTENTIAL internal deg sp sg mem = Ok (odims, map (fun o => (fst o, None)) out) /\
  sheval x csize coef ci co SM_GRADIENT internal deg sp sg mem = Ok (odims, map (fun o => (None, snd o)) out).
Proof. exact sheval_modes. Qed.
Print Assumptions C34_modes.

(** ... and each mode fills in what it is asked for. *)
Theorem C34_outputs : forall x csize coef ci co mode internal deg sp sg mem odims out,
  sheval x csize coef ci co mode internal deg sp sg mem = Ok (odims, out) ->
  List.Forall (fun o => (fst o <> None <-> mode <> SM_GRADIENT) /\ (snd o <> None <-> mode <> SM_POTENTIAL)) out.
Proof. exact sheval_outputs. Qed.
Print Assumptions C34_outputs.

(** degree=d is the evaluation of the coefficients with zeros above the degree d. *)
Theorem C35_truncation : forall x csize c ci co mode internal d sp sg mem odims out,
  (1 <= csize < 2 ^ 50)%Z -> (0 <= d)%Z ->
  sheval x csize c ci co mode internal d sp sg mem = Ok (odims, out) ->
  sheval x csize (zero_above (Z.to_nat d) c) ci co mode internal (-1) sp sg mem = Ok (odims, out).
Proof. exact sheval_truncated. Qed.
Print Assumptions C35_truncation.

(** Padding the coefficients of the degree d with zeros changes nothing. *)
Theorem C35_padding : forall x (d : nat) csize csize' c ci co mode internal deg sp sg mem odims out,
  (2 * csize = (Z.of_nat d + 1) * (Z.of_nat d + 2))%Z -> (csize <= csize' < 2 ^ 50)%Z -> (deg < 0 \/ Z.of_nat d <= deg)%Z ->
  sheval x csize c ci co mode internal deg sp sg mem = Ok (odims, out) ->
  sheval x csize' (padded (Z.to_nat csize) c) ci co mode internal deg sp sg mem = Ok (odims, out).
Proof. exact sheval_padded. Qed.
Print Assumptions C35_padding.
