(** Examples for the models in all coordinate systems. *)
From Coq Require Import List ZArith Reals Lra.
From Coquelicot Require Import Coquelicot.
From Verif Require Import ArrModel CoefModel GeoModel ShEvalModel ShEvalSpec CoordModel CoordSpec Atan2Proofs FrameProofs CoordProofs CoordExamples ShFrameProofs MmaFieldSpec CoordFieldSpec.
Import ListNotations.
Open Scope R_scope.
Set Bullet Behavior "Strict Subproofs".

(** above the equator at 90 degrees of longitude *)
Lemma ex_cart_spherical : convert (0, 7000, 0) CT_GEOCENTRIC_CARTESIAN CT_GEOCENTRIC_SPHERICAL = (0, 90, 7000).
Proof.
  unfold convert, get_fconv, conv_cartECEF_to_sphECEF, cart2sph. cbn [ct_eqb].
  assert (N : norm3d 0 7000 0 = 7000) by (unfold norm3d; replace (0 * 0 + 7000 * 7000 + 0 * 0) with (7000 * 7000) by ring; apply sqrt_square; lra).
  assert (A : atan2 7000 0 = PI / 2).
  { pose proof (atan2_polar 7000 (PI / 2) ltac:(lra) ltac:(pose proof PI_RGT_0; lra)) as K. rewrite sin_PI2, cos_PI2, Rmult_1_r, Rmult_0_r in K. exact K. }
  rewrite N, A. replace (0 / 7000) with 0 by field. rewrite asin_0. unfold RAD2DG. pose proof PI_RGT_0. apply triple_eq; field; lra.
Qed.

Lemma ex_off_centre : off_centre CT_GEOCENTRIC_CARTESIAN (0, 7000, 0) /\ ~ off_centre CT_GEOCENTRIC_CARTESIAN (0, 0, 0) /\
  off_centre CT_GEOCENTRIC_SPHERICAL (0, 0, 0).
Proof.
  split; [|split].
  - intros _ [= E]. lra.
  - intro H. exact (H eq_refl eq_refl).
  - intro H. discriminate.
Qed.

(** north, east and up there are the directions of z, minus x and y; the results are doubled *)
Lemma ex_transformed : transformed CT_GEOCENTRIC_CARTESIAN CT_GEOCENTRIC_CARTESIAN (2, 2, 2) (0, 7000, 0) (Some (1, 20, 300)) (Some (-40, 600, 2)) /\
  transformed CT_GEOCENTRIC_CARTESIAN CT_GEOCENTRIC_CARTESIAN (2, 2, 2) (0, 7000, 0) None None.
Proof.
  split; [|reflexivity]. exists (-20, 300, 1). rewrite ex_cart_spherical. split.
  - unfold convert. cbn [ct_eqb in_space]. unfold one_degree. replace (PI / 180 * 90) with (PI / 2) by field.
    rewrite Rmult_0_r, sin_0, cos_0, sin_PI2, cos_PI2. apply triple_eq; ring.
  - cbn [scaled]. f_equal. apply triple_eq; ring.
Qed.
