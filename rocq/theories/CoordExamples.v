(** Concrete cases of the theorems on coordinates. *)

From Coq Require Import Reals Lra ZArith List.
From Coquelicot Require Import Coquelicot.
From Verif Require Import LegendreModel GeoModel CoefModel ShEvalModel ShEvalSpec CoordModel CoordSpec
  Atan2Proofs FerrariProofs CoordProofs ConvertProofs FrameProofs DipoleProofs ShFrameProofs ShEvalExamples.
Import ListNotations.
Open Scope R_scope.

Lemma converted_longitude : forall A v, same_longitude (fun ct => convert v A ct).
Proof.
  intros A [[c0 c1] c2]. unfold same_longitude, convert, get_fconv. destruct A; cbn [ct_eqb].
  - unfold conv_WGS84_to_sphECEF, geodetic2geocentric_sph.
    destruct (geodetic2geocentric_ (DG2RAD * c0) c2 WGS84_A WGS84_EPS2). cbn [fst snd].
    rewrite Rmult_comm, deg_rad. reflexivity.
  - unfold conv_sphECEF_to_WGS84, geocentric_sph2geodetic.
    destruct (geocentric2geodetic_ (c2 * cos (DG2RAD * c0)) (c2 * sin (DG2RAD * c0)) WGS84_A WGS84_EPS2). cbn [fst snd].
    apply deg_rad.
  - unfold conv_cartECEF_to_WGS84, geocentric_cart2geodetic, conv_cartECEF_to_sphECEF, cart2sph.
    destruct (geocentric2geodetic_ (norm2d c0 c1) c2 WGS84_A WGS84_EPS2). cbn [fst snd]. apply Rmult_comm.
Qed.

Lemma vrotate_converted : forall A B C D p v,
  exists w, vrotate v (Some (convert p D A)) (Some (convert p D B)) (ct_number A) (ct_number B) = Ok w /\
    vrotate w (Some (convert p D B)) (Some (convert p D C)) (ct_number B) (ct_number C)
    = vrotate v (Some (convert p D A)) (Some (convert p D C)) (ct_number A) (ct_number C).
Proof. intros A B C D p v. exact (vrotate_compose A B C v (fun ct => convert p D ct) (converted_longitude D p)). Qed.

Lemma ex_unique : unique_coordinates CT_GEOCENTRIC_SPHERICAL (45, 180, 6371.2) /\
  unique_coordinates CT_GEODETIC_ABOVE_WGS84 (- 30, 10, 450) /\
  beyond_evolute (position CT_GEODETIC_ABOVE_WGS84 (- 30, 10, 450)).
Proof.
  destruct (height_beyond (-30) 10 450 ltac:(lra)) as [H1 H2].
  split; [|split; [|exact H2]]; cbn [unique_coordinates]; unfold usual_longitude.
  - split; [lra|]. split; lra.
  - split; [lra|]. split; [lra|exact H1].
Qed.

(** a point on the equator of the ellipsoid *)
Lemma ex_equator :
  convert (0, 0, 0) CT_GEODETIC_ABOVE_WGS84 CT_GEOCENTRIC_CARTESIAN = (6378.137, 0, 0) /\
  convert (6378.137, 0, 0) CT_GEOCENTRIC_CARTESIAN CT_GEODETIC_ABOVE_WGS84 = (0, 0, 0).
Proof.
  assert (E : convert (0, 0, 0) CT_GEODETIC_ABOVE_WGS84 CT_GEOCENTRIC_CARTESIAN = (6378.137, 0, 0)).
  { unfold convert, get_fconv, conv_WGS84_to_cartECEF, geodetic2geocentric_cart, geodetic2geocentric_.
    cbn [ct_eqb]. rewrite Rmult_0_r, sin_0, cos_0.
    replace (1 - WGS84_EPS2 * 0 * 0) with 1 by ring. rewrite sqrt_1. unfold WGS84_A. apply triple_eq; lra. }
  split; [exact E|].
  destruct (height_beyond 0 0 0 ltac:(lra)) as [H1 H2].
  destruct (geod_cart_round 0 0 0 ltac:(lra) H1 H2) as [lon [E1 E2]].
  rewrite E in E1. rewrite E1, E2; [reflexivity|lra|unfold usual_longitude; lra].
Qed.

Lemma ex_rotation : vrot_sph2cart up 0 90 = (0, 1, 0) /\ vrot_sph2cart north 0 90 = (0, 0, 1)
  /\ vrot_sph2cart east 0 90 = (-1, 0, 0).
Proof.
  unfold up, north, east. rewrite !vrot_sph2cart_eq. cbv zeta.
  replace (DG2RAD * 90) with (PI / 2) by (unfold DG2RAD; field).
  rewrite Rmult_0_r, sin_0, cos_0, sin_PI2, cos_PI2.
  split; [|split]; apply triple_eq; ring.
Qed.

(** the pole at the north pole with the longitude 0 is the identity *)
Lemma ex_dipole : get_dipole_rotation_matrix 90 0 = ((1, 0, 0), (0, 1, 0), (0, 0, 1)).
Proof.
  unfold get_dipole_rotation_matrix. rewrite DEG2RAD_eq.
  replace (DG2RAD * 90) with (PI / 2) by (unfold DG2RAD; field).
  rewrite Rmult_0_r, sin_0, cos_0, sin_PI2, cos_PI2. cbv zeta.
  f_equal; [f_equal|]; apply triple_eq; ring.
Qed.

Lemma ex_mut : magnetic_universal_time 90 0 0 90 = 6.
Proof.
  unfold magnetic_universal_time. rewrite DEG2RAD_eq. cbv zeta.
  replace (DG2RAD * (90 - 0)) with (PI / 2) by (unfold DG2RAD; field).
  replace (DG2RAD * 90) with (PI / 2) by (unfold DG2RAD; field).
  rewrite Rmult_0_r, sin_0, cos_0, sin_PI2, cos_PI2.
  replace (1 * 1 * 0 - 0 * 0) with 0 by ring. replace (1 * 1) with 1 by ring.
  unfold atan2. destruct (Rlt_dec 0 0); [lra|]. destruct (Rlt_dec 0 1); [|lra].
  assert (HP := PI_RGT_0). field. lra.
Qed.

Lemma ex_incdec : vincdecnorm (0, 0, -1) = (90, 0, 1).
Proof.
  unfold vincdecnorm, convert, get_fconv, conv_cartECEF_to_sphECEF, cart2sph. cbn [ct_eqb].
  assert (En : norm3d 0 0 (-1) = 1).
  { unfold norm3d. replace (0 * 0 + 0 * 0 + -1 * -1) with 1 by ring. apply sqrt_1. }
  rewrite En. replace (-1 / 1) with (- (1)) by field. rewrite asin_opp, asin_1.
  unfold atan2. destruct (Rlt_dec 0 0); [lra|].
  unfold RAD2DG. assert (HP := PI_RGT_0). apply triple_eq; field; lra.
Qed.

Lemma ex_gradient_cart : forall mem, exists g,
  sheval (nd0 (0, 0, 6371.2)) 3 (nd0 g10) CT_GEOCENTRIC_SPHERICAL CT_GEOCENTRIC_SPHERICAL SM_GRADIENT true (-1)
    1 (1, 1, 1) mem = Ok ([], [(None, Some g)]) /\ magnitude g = 30000.
Proof.
  intros mem. destruct (ex_gradient mem) as [u [E ->]]. exists (-30000, 0, 0). split; [exact E|].
  unfold magnitude, scalar. rewrite <- (sqrt_square 30000) by lra. f_equal. ring.
Qed.

Lemma row_identity : forall v, row_times v ((1, 0, 0), (0, 1, 0), (0, 0, 1)) = v.
Proof. intros [[x y] z]. cbn [row_times]. apply triple_eq; ring. Qed.
