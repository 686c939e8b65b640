(** The rotations of vectors. *)

From Coq Require Import Reals Lra ZArith.
From Coquelicot Require Import Coquelicot.
From Verif Require Import LegendreModel GeoModel CoefModel ShEvalModel CoordModel CoordSpec Atan2Proofs
  FerrariProofs CoordProofs ConvertProofs ShEvalDeriv.
Open Scope R_scope.

Lemma triple_eq : forall a b c a' b' c' : R, a = a' -> b = b' -> c = c' -> (a, b, c) = (a', b', c').
Proof. intros; congruence. Qed.

Lemma sc2 : forall a, sin a * sin a + cos a * cos a = 1.
Proof. intros a. exact (sin2_cos2 a). Qed.

Lemma vrot_sph2cart_eq : forall a b c lat lon,
  vrot_sph2cart (a, b, c) lat lon =
  let s := sin (DG2RAD * lat) in let k := cos (DG2RAD * lat) in
  let s' := sin (DG2RAD * lon) in let k' := cos (DG2RAD * lon) in
  ((c * k - a * s) * k' - b * s', (c * k - a * s) * s' + b * k', c * s + a * k).
Proof. reflexivity. Qed.

Lemma vrot_cart2sph_eq : forall a b c lat lon,
  vrot_cart2sph (a, b, c) lat lon =
  let s := sin (DG2RAD * lat) in let k := cos (DG2RAD * lat) in
  let s' := sin (DG2RAD * lon) in let k' := cos (DG2RAD * lon) in
  ((c * k - (a * k' + b * s') * s), (b * k' - a * s'), ((a * k' + b * s') * k + c * s)).
Proof.
  intros. unfold vrot_cart2sph, rot2d.
  replace (- DG2RAD * lat) with (- (DG2RAD * lat)) by ring.
  replace (- DG2RAD * lon) with (- (DG2RAD * lon)) by ring.
  rewrite !sin_neg, !cos_neg. cbv zeta. apply triple_eq; ring.
Qed.

Lemma vrot_sph2geod_eq : forall a b c d,
  vrot_sph2geod (a, b, c) d =
  (a * cos (DG2RAD * d) - c * sin (DG2RAD * d), b, c * cos (DG2RAD * d) + a * sin (DG2RAD * d)).
Proof.
  intros. unfold vrot_sph2geod, rot2d.
  replace (- DG2RAD * d) with (- (DG2RAD * d)) by ring.
  rewrite !sin_neg, !cos_neg. apply triple_eq; ring.
Qed.

Ltac trig4 lat lon :=
  assert (H1 := sc2 (DG2RAD * lat)); assert (H2 := sc2 (DG2RAD * lon));
  set (s := sin (DG2RAD * lat)) in *; set (k := cos (DG2RAD * lat)) in *;
  set (s' := sin (DG2RAD * lon)) in *; set (k' := cos (DG2RAD * lon)) in *.

Lemma cart2sph_sph2cart : forall v lat lon, vrot_cart2sph (vrot_sph2cart v lat lon) lat lon = v.
Proof.
  intros [[a b] c] lat lon. rewrite vrot_sph2cart_eq. cbv zeta. rewrite vrot_cart2sph_eq. cbv zeta. trig4 lat lon.
  assert (E : ((c * k - a * s) * k' - b * s') * k' + ((c * k - a * s) * s' + b * k') * s' = c * k - a * s).
  { transitivity ((c * k - a * s) * (s' * s' + k' * k')); [ring|]. rewrite H2. ring. }
  rewrite E. f_equal; [f_equal|].
  - transitivity (a * (s * s + k * k)); [ring|]. rewrite H1. ring.
  - transitivity (b * (s' * s' + k' * k')); [ring|]. rewrite H2. ring.
  - transitivity (c * (s * s + k * k)); [ring|]. rewrite H1. ring.
Qed.

Lemma sph2cart_cart2sph : forall v lat lon, vrot_sph2cart (vrot_cart2sph v lat lon) lat lon = v.
Proof.
  intros [[a b] c] lat lon. rewrite vrot_cart2sph_eq. cbv zeta. rewrite vrot_sph2cart_eq. cbv zeta. trig4 lat lon.
  assert (E : ((a * k' + b * s') * k + c * s) * k - (c * k - (a * k' + b * s') * s) * s = a * k' + b * s').
  { transitivity ((a * k' + b * s') * (s * s + k * k)); [ring|]. rewrite H1. ring. }
  rewrite E. f_equal; [f_equal|].
  - transitivity (a * (s' * s' + k' * k')); [ring|]. rewrite H2. ring.
  - transitivity (b * (s' * s' + k' * k')); [ring|]. rewrite H2. ring.
  - transitivity (c * (s * s + k * k)); [ring|]. rewrite H1. ring.
Qed.

Lemma sph2geod_add : forall v d e, vrot_sph2geod (vrot_sph2geod v d) e = vrot_sph2geod v (d + e).
Proof.
  intros [[a b] c] d e. rewrite !vrot_sph2geod_eq.
  replace (DG2RAD * (d + e)) with (DG2RAD * d + DG2RAD * e) by ring.
  rewrite cos_plus, sin_plus. apply triple_eq; ring.
Qed.

Lemma sph2geod_0 : forall v, vrot_sph2geod v 0 = v.
Proof.
  intros [[a b] c]. rewrite vrot_sph2geod_eq, Rmult_0_r, cos_0, sin_0. apply triple_eq; ring.
Qed.

Lemma sph2geod_inv : forall v d, vrot_sph2geod (vrot_sph2geod v d) (- d) = v.
Proof. intros v d. rewrite sph2geod_add, Rplus_opp_r. apply sph2geod_0. Qed.

(** the rotation to the Cartesian frame through the other latitude *)
Lemma sph2geod_sph2cart : forall v d lat lon,
  vrot_sph2cart (vrot_sph2geod v d) (lat + d) lon = vrot_sph2cart v lat lon.
Proof.
  intros [[a b] c] d lat lon. rewrite vrot_sph2geod_eq, !vrot_sph2cart_eq. cbv zeta.
  replace (DG2RAD * (lat + d)) with (DG2RAD * lat + DG2RAD * d) by ring.
  rewrite cos_plus, sin_plus.
  assert (H1 := sc2 (DG2RAD * d)).
  set (sd := sin (DG2RAD * d)) in *. set (kd := cos (DG2RAD * d)) in *.
  set (s := sin (DG2RAD * lat)) in *; set (k := cos (DG2RAD * lat)) in *.
  assert (E1 : (c * kd + a * sd) * (k * kd - s * sd) - (a * kd - c * sd) * (s * kd + k * sd) = c * k - a * s).
  { transitivity ((c * k - a * s) * (sd * sd + kd * kd)); [ring|]. rewrite H1. ring. }
  rewrite E1. f_equal.
  transitivity ((c * s + a * k) * (sd * sd + kd * kd)); [ring|]. rewrite H1. ring.
Qed.

Lemma scalar_sph2cart : forall u v lat lon,
  scalar (vrot_sph2cart u lat lon) (vrot_sph2cart v lat lon) = scalar u v.
Proof.
  intros [[a b] c] [[d e] f] lat lon. rewrite !vrot_sph2cart_eq. cbv zeta. trig4 lat lon. unfold scalar.
  transitivity ((c * k - a * s) * (f * k - d * s) * (s' * s' + k' * k') + b * e * (s' * s' + k' * k')
                + (c * s + a * k) * (f * s + d * k)); [ring|].
  rewrite H2.
  transitivity ((c * f + a * d) * (s * s + k * k) + b * e); [ring|]. rewrite H1. ring.
Qed.

Lemma scalar_cart2sph : forall u v lat lon,
  scalar (vrot_cart2sph u lat lon) (vrot_cart2sph v lat lon) = scalar u v.
Proof.
  intros u v lat lon. rewrite <- (scalar_sph2cart (vrot_cart2sph u lat lon) (vrot_cart2sph v lat lon) lat lon).
  rewrite !sph2cart_cart2sph. reflexivity.
Qed.

Lemma scalar_sph2geod : forall u v d, scalar (vrot_sph2geod u d) (vrot_sph2geod v d) = scalar u v.
Proof.
  intros [[a b] c] [[e f] g] d. rewrite !vrot_sph2geod_eq. unfold scalar.
  assert (H1 := sc2 (DG2RAD * d)).
  transitivity ((a * e + c * g) * (sin (DG2RAD * d) * sin (DG2RAD * d) + cos (DG2RAD * d) * cos (DG2RAD * d)) + b * f);
    [ring|]. rewrite H1. ring.
Qed.

(** the local frame of the spherical coordinates *)
Lemma deg_derive_cos : forall t, is_derive (fun u => cos (DG2RAD * u)) t (- (DG2RAD * sin (DG2RAD * t))).
Proof. intros t. auto_derive; try exact I; ring. Qed.
Lemma deg_derive_sin : forall t, is_derive (fun u => sin (DG2RAD * u)) t (DG2RAD * cos (DG2RAD * t)).
Proof. intros t. auto_derive; try exact I; ring. Qed.

Lemma moves_sph : forall lat lon r,
  moves (fun t => convert (t, lon, r) CT_GEOCENTRIC_SPHERICAL CT_GEOCENTRIC_CARTESIAN) lat
    (scale (one_degree * r) (vrot_sph2cart north lat lon)) /\
  moves (fun t => convert (lat, t, r) CT_GEOCENTRIC_SPHERICAL CT_GEOCENTRIC_CARTESIAN) lon
    (scale (one_degree * r * cos (one_degree * lat)) (vrot_sph2cart east lat lon)) /\
  moves (fun t => convert (lat, lon, t) CT_GEOCENTRIC_SPHERICAL CT_GEOCENTRIC_CARTESIAN) r
    (vrot_sph2cart up lat lon).
Proof.
  intros lat lon r. rewrite <- degree_eq. unfold north, east, up. rewrite !vrot_sph2cart_eq. cbv zeta.
  unfold moves, scale, convert, get_fconv, conv_sphECEF_to_cartECEF, sph2cart. cbn [ct_eqb fst snd].
  split; [|split]; (split; [|split]); auto_derive; try exact I; ring.
Qed.

(** the local frame of the geodetic coordinates *)
Lemma meridian_curv : forall lat, let w := 1 - WGS84_EPS2 * (sin (DG2RAD * lat) * sin (DG2RAD * lat)) in
  0 < w /\ meridian_radius lat = WGS84_A * (1 - WGS84_EPS2) / (w * sqrt w).
Proof.
  intros lat w. assert (HA := A_pos). assert (HE := E2_range).
  assert (Hw := curv_arg WGS84_EPS2 HE (DG2RAD * lat)).
  assert (Hw0 : 0 < w) by (unfold w; lra). split; [exact Hw0|].
  unfold meridian_radius. rewrite <- degree_eq. cbv zeta.
  set (p := DG2RAD * lat) in *.
  assert (Hcs := sc2 p).
  assert (Eq : axis_a * axis_a * (cos p * cos p) + axis_b * axis_b * (sin p * sin p) = WGS84_A * WGS84_A * w).
  { change WGS84_A with axis_a. unfold w.
    replace (axis_b * axis_b) with (axis_a * axis_a - WGS84_EPS2 * (axis_a * axis_a)) by (rewrite E2_eq; ring).
    replace (cos p * cos p) with (1 - sin p * sin p) by lra. ring. }
  rewrite Eq, sqrt_mult, sqrt_square by nra. rewrite E2_compl. change WGS84_A with axis_a.
  assert (Ha : 0 < axis_a) by exact A_pos.
  assert (Hs : 0 < sqrt w) by (apply sqrt_lt_R0; exact Hw0).
  field. lra.
Qed.

Lemma moves_geod : forall lat lon h,
  moves (fun t => convert (t, lon, h) CT_GEODETIC_ABOVE_WGS84 CT_GEOCENTRIC_CARTESIAN) lat
    (scale (one_degree * (meridian_radius lat + h)) (vrot_sph2cart north lat lon)) /\
  moves (fun t => convert (lat, t, h) CT_GEODETIC_ABOVE_WGS84 CT_GEOCENTRIC_CARTESIAN) lon
    (scale (one_degree * (normal_length lat + h) * cos (one_degree * lat)) (vrot_sph2cart east lat lon)) /\
  moves (fun t => convert (lat, lon, t) CT_GEODETIC_ABOVE_WGS84 CT_GEOCENTRIC_CARTESIAN) h
    (vrot_sph2cart up lat lon).
Proof.
  intros lat lon h. destruct (meridian_curv lat) as [Hw HM].
  rewrite HM, normal_curv. rewrite <- degree_eq.
  set (w := 1 - WGS84_EPS2 * (sin (DG2RAD * lat) * sin (DG2RAD * lat))) in *.
  assert (Hs : 0 < sqrt w) by (apply sqrt_lt_R0; exact Hw).
  assert (Hs2 : sqrt w * sqrt w = w) by (apply sqrt_sqrt; lra).
  assert (Hws : WGS84_EPS2 * sin (DG2RAD * lat) * sin (DG2RAD * lat) = 1 - w) by (unfold w; ring).
  assert (Hc := sc2 (DG2RAD * lat)).
  unfold north, east, up. rewrite !vrot_sph2cart_eq. cbv zeta.
  unfold moves, scale, convert, get_fconv, conv_WGS84_to_cartECEF, geodetic2geocentric_cart, geodetic2geocentric_, curv.
  cbn [ct_eqb fst snd].
  (* the derivatives of the two factors along the meridian *)
  assert (D1 : is_derive (fun t => (WGS84_A / sqrt (1 - WGS84_EPS2 * sin (DG2RAD * t) * sin (DG2RAD * t)) + h) * cos (DG2RAD * t))
    lat (- (DG2RAD * (WGS84_A * (1 - WGS84_EPS2) / (w * sqrt w) + h) * sin (DG2RAD * lat)))).
  { auto_derive.
    - replace (1 + - (WGS84_EPS2 * sin (DG2RAD * lat) * sin (DG2RAD * lat))) with w by (rewrite Hws; ring).
      split; [lra|]. split; [lra|exact I].
    - replace (1 + - (WGS84_EPS2 * sin (DG2RAD * lat) * sin (DG2RAD * lat))) with w by (rewrite Hws; ring).
      replace (1 - WGS84_EPS2 * sin (DG2RAD * lat) * sin (DG2RAD * lat)) with w by (rewrite Hws; ring).
      rewrite <- Hs2. set (q := sqrt w) in *.
      replace (sqrt (q * q)) with q by (rewrite sqrt_square; lra).
      assert (Hk : WGS84_EPS2 * (cos (DG2RAD * lat) * cos (DG2RAD * lat)) = WGS84_EPS2 - 1 + q * q).
      { rewrite Hs2. replace (cos (DG2RAD * lat) * cos (DG2RAD * lat)) with (1 - sin (DG2RAD * lat) * sin (DG2RAD * lat)) by lra.
        transitivity (WGS84_EPS2 - WGS84_EPS2 * sin (DG2RAD * lat) * sin (DG2RAD * lat)); [ring|]. rewrite Hws. ring. }
      set (ss := sin (DG2RAD * lat)) in *. set (cc := cos (DG2RAD * lat)) in *.
      transitivity (DG2RAD * ss * (WGS84_A * (WGS84_EPS2 * (cc * cc)) / (q * q * q) - WGS84_A / q - h)).
      + field. lra.
      + rewrite Hk. field. lra. }
  assert (D2 : is_derive (fun t => (WGS84_A / sqrt (1 - WGS84_EPS2 * sin (DG2RAD * t) * sin (DG2RAD * t)) * (1 - WGS84_EPS2) + h) * sin (DG2RAD * t))
    lat (DG2RAD * (WGS84_A * (1 - WGS84_EPS2) / (w * sqrt w) + h) * cos (DG2RAD * lat))).
  { auto_derive.
    - replace (1 + - (WGS84_EPS2 * sin (DG2RAD * lat) * sin (DG2RAD * lat))) with w by (rewrite Hws; ring).
      split; [lra|]. split; [lra|exact I].
    - replace (1 + - (WGS84_EPS2 * sin (DG2RAD * lat) * sin (DG2RAD * lat))) with w by (rewrite Hws; ring).
      replace (1 - WGS84_EPS2 * sin (DG2RAD * lat) * sin (DG2RAD * lat)) with w by (rewrite Hws; ring).
      rewrite <- Hs2. set (q := sqrt w) in *.
      replace (sqrt (q * q)) with q by (rewrite sqrt_square; lra).
      assert (Hk : WGS84_EPS2 * (sin (DG2RAD * lat) * sin (DG2RAD * lat)) = 1 - q * q).
      { rewrite Hs2, <- Hws. ring. }
      set (ss := sin (DG2RAD * lat)) in *. set (cc := cos (DG2RAD * lat)) in *.
      transitivity (DG2RAD * cc * (WGS84_A * (1 - WGS84_EPS2) * (WGS84_EPS2 * (ss * ss)) / (q * q * q)
        + WGS84_A * (1 - WGS84_EPS2) / q + h)).
      + field. lra.
      + rewrite Hk. field. lra. }
  replace (WGS84_EPS2 * sin (DG2RAD * lat) * sin (DG2RAD * lat)) with (1 - w) by (symmetry; exact Hws).
  split; [|split].
  - split; [|split].
    + eapply Rderive_eq; [|apply Rderive_mult; [exact D1|apply (is_derive_const (K := R_AbsRing) (V := R_NormedModule))]]. change (@zero R_NormedModule) with 0. cbv beta. ring.
    + eapply Rderive_eq; [|apply Rderive_mult; [exact D1|apply (is_derive_const (K := R_AbsRing) (V := R_NormedModule))]]. change (@zero R_NormedModule) with 0. cbv beta. ring.
    + eapply Rderive_eq; [|exact D2]. ring.
  - split; [|split]; auto_derive; try exact I; ring.
  - split; [|split]; auto_derive; try exact I; ring.
Qed.

(** the up direction of the geodetic frame is the normal of the ellipsoid *)
Lemma geod_normal : forall lat lon,
  let '(x, y, z) := convert (lat, lon, 0) CT_GEODETIC_ABOVE_WGS84 CT_GEOCENTRIC_CARTESIAN in
  x * x / (axis_a * axis_a) + y * y / (axis_a * axis_a) + z * z / (axis_b * axis_b) = 1 /\
  exists k, 0 < k /\
    vrot_sph2cart up lat lon = scale k (x / (axis_a * axis_a), y / (axis_a * axis_a), z / (axis_b * axis_b)).
Proof.
  intros lat lon. rewrite cart_position. unfold position. rewrite normal_curv, <- degree_eq.
  assert (HN := curv_pos WGS84_A WGS84_EPS2 A_pos E2_range (DG2RAD * lat)).
  assert (HN2 := curv_sqr WGS84_A WGS84_EPS2 A_pos E2_range (DG2RAD * lat)).
  assert (H1 := sc2 (DG2RAD * lat)). assert (H2 := sc2 (DG2RAD * lon)).
  set (N := curv WGS84_A WGS84_EPS2 (DG2RAD * lat)) in *.
  assert (Ha : 0 < axis_a) by exact A_pos. assert (Hb : 0 < axis_b) by (unfold axis_b; lra).
  assert (Hab : axis_b * axis_b = (1 - WGS84_EPS2) * (axis_a * axis_a)).
  { rewrite E2_compl. field. lra. }
  split.
  - assert (HN3 : N * N * (1 - WGS84_EPS2 * (sin (DG2RAD * lat) * sin (DG2RAD * lat))) / (axis_a * axis_a) = 1).
    { rewrite HN2. change WGS84_A with axis_a. field. lra. }
    rewrite <- HN3.
    set (s := sin (DG2RAD * lat)) in *. set (k := cos (DG2RAD * lat)) in *.
    set (s' := sin (DG2RAD * lon)) in *. set (k' := cos (DG2RAD * lon)) in *.
    transitivity (N * N * (k * k) * (s' * s' + k' * k') / (axis_a * axis_a)
                  + N * N * (axis_b * axis_b) * (s * s) / (axis_a * axis_a * (axis_a * axis_a))).
    { field. lra. }
    rewrite H2, Hab. replace (k * k) with (1 - s * s) by lra. field. lra.
  - exists (axis_a * axis_a / N). split; [apply Rdiv_lt_0_compat; nra|].
    unfold up. rewrite vrot_sph2cart_eq. cbv zeta. unfold scale. apply triple_eq; field; lra.
Qed.

Lemma geod_height : forall lat lon h,
  convert (lat, lon, h) CT_GEODETIC_ABOVE_WGS84 CT_GEOCENTRIC_CARTESIAN =
  let '(x, y, z) := convert (lat, lon, 0) CT_GEODETIC_ABOVE_WGS84 CT_GEOCENTRIC_CARTESIAN in
  let '(u, v, w) := vrot_sph2cart up lat lon in
  (x + h * u, y + h * v, z + h * w).
Proof.
  intros lat lon h. rewrite !cart_position. unfold position, up. rewrite vrot_sph2cart_eq, <- degree_eq. cbv zeta.
  apply triple_eq; ring.
Qed.
