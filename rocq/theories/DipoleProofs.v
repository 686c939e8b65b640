(** vrotate, the dipole coordinates, the magnetic universal time and vincdecnorm. *)

From Coq Require Import Reals Lra ZArith Lia.
From Coquelicot Require Import Coquelicot.
From Verif Require Import LegendreModel GeoModel CoefModel ShEvalModel CoordModel CoordSpec Atan2Proofs
  FerrariProofs CoordProofs ConvertProofs FrameProofs.
Open Scope R_scope.

(** the rotation computed by vrotate between two of the systems *)
Definition rotation (A B : coord_type) (v : vec) (ca cb : vec) : vec :=
  let '(la, oa, _) := ca in let '(lb, ob, _) := cb in
  match A, B with
  | CT_GEODETIC_ABOVE_WGS84, CT_GEODETIC_ABOVE_WGS84 => v
  | CT_GEOCENTRIC_SPHERICAL, CT_GEOCENTRIC_SPHERICAL => v
  | CT_GEOCENTRIC_CARTESIAN, CT_GEOCENTRIC_CARTESIAN => v
  | CT_GEODETIC_ABOVE_WGS84, CT_GEOCENTRIC_SPHERICAL
  | CT_GEOCENTRIC_SPHERICAL, CT_GEODETIC_ABOVE_WGS84 => vrot_sph2geod v (lb - la)
  | CT_GEODETIC_ABOVE_WGS84, CT_GEOCENTRIC_CARTESIAN
  | CT_GEOCENTRIC_SPHERICAL, CT_GEOCENTRIC_CARTESIAN => vrot_sph2cart v la oa
  | CT_GEOCENTRIC_CARTESIAN, CT_GEODETIC_ABOVE_WGS84
  | CT_GEOCENTRIC_CARTESIAN, CT_GEOCENTRIC_SPHERICAL => vrot_cart2sph v lb ob
  end.

Lemma vrotate_rotation : forall A B v ca cb,
  vrotate v (Some ca) (Some cb) (ct_number A) (ct_number B) = Ok (rotation A B v ca cb).
Proof. intros [] [] v [[la oa] ra] [[lb ob] rb]; reflexivity. Qed.

Lemma sph2geod_cart : forall v a b o, vrot_sph2cart (vrot_sph2geod v (b - a)) b o = vrot_sph2cart v a o.
Proof. intros v a b o. replace b with (a + (b - a)) at 2 by ring. apply sph2geod_sph2cart. Qed.

(** the same vector in the Cartesian frame *)
Definition to_cart (A : coord_type) (v c : vec) : vec :=
  let '(la, oa, _) := c in
  match A with CT_GEOCENTRIC_CARTESIAN => v | _ => vrot_sph2cart v la oa end.

Lemma rotation_cart : forall A B v (c : coord_type -> vec), same_longitude c ->
  to_cart B (rotation A B v (c A) (c B)) (c B) = to_cart A v (c A).
Proof.
  intros A B v c Hl. unfold same_longitude in Hl.
  destruct (c CT_GEODETIC_ABOVE_WGS84) as [[lg og] rg] eqn:Eg.
  destruct (c CT_GEOCENTRIC_SPHERICAL) as [[ls os] rs] eqn:Es.
  destruct (c CT_GEOCENTRIC_CARTESIAN) as [[x y] z] eqn:Ec.
  cbn [fst snd] in Hl. subst os.
  destruct A, B; rewrite ?Eg, ?Es, ?Ec; cbn [rotation to_cart]; try reflexivity;
    try apply sph2geod_cart; apply sph2cart_cart2sph.
Qed.

Lemma to_cart_inj : forall A v w c, to_cart A v c = to_cart A w c -> v = w.
Proof.
  intros A v w [[la oa] r] H. destruct A; cbn [to_cart] in H; try exact H;
    rewrite <- (cart2sph_sph2cart v la oa), <- (cart2sph_sph2cart w la oa), H; reflexivity.
Qed.

Lemma vrotate_compose : forall A B C v (c : coord_type -> vec), same_longitude c ->
  exists w, vrotate v (Some (c A)) (Some (c B)) (ct_number A) (ct_number B) = Ok w /\
    vrotate w (Some (c B)) (Some (c C)) (ct_number B) (ct_number C)
    = vrotate v (Some (c A)) (Some (c C)) (ct_number A) (ct_number C).
Proof.
  intros A B C v c Hl. exists (rotation A B v (c A) (c B)).
  split; [apply vrotate_rotation|]. rewrite !vrotate_rotation. f_equal.
  apply (to_cart_inj C _ _ (c C)). rewrite !rotation_cart by exact Hl. reflexivity.
Qed.

Lemma scalar_to_cart : forall A u v c, scalar (to_cart A u c) (to_cart A v c) = scalar u v.
Proof. intros A u v [[la oa] r]. destruct A; cbn [to_cart]; auto using scalar_sph2cart. Qed.

Lemma vrotate_isometry : forall A B u v ca cb u' v',
  vrotate u (Some ca) (Some cb) (ct_number A) (ct_number B) = Ok u' ->
  vrotate v (Some ca) (Some cb) (ct_number A) (ct_number B) = Ok v' ->
  scalar u' v' = scalar u v.
Proof.
  intros A B u v ca cb u' v' Hu Hv. rewrite vrotate_rotation in Hu, Hv.
  injection Hu as <-. injection Hv as <-.
  destruct ca as [[la oa] ra], cb as [[lb ob] rb], A, B; cbn [rotation];
    auto using scalar_sph2cart, scalar_cart2sph, scalar_sph2geod.
Qed.

(** unsupported systems *)
Lemma vrotate_unsupported : forall v ca cb tin tout, tin <> tout ->
  ~ (0 <= tin <= 2)%Z \/ ~ (0 <= tout <= 2)%Z ->
  vrotate v ca cb tin tout = Err ValueError.
Proof.
  intros v ca cb tin tout Hn H. unfold vrotate, GEODETIC_ABOVE_WGS84, GEOCENTRIC_SPHERICAL, GEOCENTRIC_CARTESIAN.
  destruct (Z.eqb_spec tin tout); [lia|].
  destruct (Z.eqb_spec tin 0); [|destruct (Z.eqb_spec tin 1); [|destruct (Z.eqb_spec tin 2); [|reflexivity]]];
    destruct (Z.eqb_spec tout 0); try lia; destruct (Z.eqb_spec tout 1); try lia;
    destruct (Z.eqb_spec tout 2); try lia; reflexivity.
Qed.

(** the rotation matrix *)
Lemma DEG2RAD_eq : DEG2RAD = DG2RAD.
Proof. unfold DEG2RAD, DG2RAD. field. Qed.

Lemma dot_row : forall v m, dot v m = row_times v m.
Proof. intros [[x y] z] [[[[a b] c] [[d e] f]] [[g h] i]]. reflexivity. Qed.

Lemma dot_transpose : forall v m, dot v (transpose m) = times_column m v.
Proof. intros [[x y] z] [[[[a b] c] [[d e] f]] [[g h] i]]. cbn [dot transpose times_column scalar]. apply triple_eq; ring. Qed.

Lemma matrix_orthogonal : forall lat lon v,
  times_column (get_dipole_rotation_matrix lat lon) (row_times v (get_dipole_rotation_matrix lat lon)) = v /\
  row_times (times_column (get_dipole_rotation_matrix lat lon) v) (get_dipole_rotation_matrix lat lon) = v.
Proof.
  intros lat lon [[x y] z]. unfold get_dipole_rotation_matrix, times_column, row_times, scalar.
  assert (H1 := sc2 (DEG2RAD * lat)). assert (H2 := sc2 (DEG2RAD * lon)). cbv zeta.
  set (s := sin (DEG2RAD * lat)) in *; set (k := cos (DEG2RAD * lat)) in *;
  set (s' := sin (DEG2RAD * lon)) in *; set (k' := cos (DEG2RAD * lon)) in *.
  split; apply triple_eq.
  - transitivity ((x * k' + y * s') * k' * (s * s + k * k) + s' * (x * s' - y * k')); [ring|]. rewrite H1.
    transitivity (x * (s' * s' + k' * k')); [ring|]. rewrite H2. ring.
  - transitivity ((x * k' + y * s') * s' * (s * s + k * k) + k' * (y * k' - x * s')); [ring|]. rewrite H1.
    transitivity (y * (s' * s' + k' * k')); [ring|]. rewrite H2. ring.
  - transitivity (z * (s * s + k * k)); [ring|]. rewrite H1. ring.
  - transitivity ((s * (x * s + z * k)) * (s' * s' + k' * k') + k * (x * k - z * s)); [ring|].
    rewrite H2. transitivity (x * (s * s + k * k)); [ring|]. rewrite H1. ring.
  - transitivity (y * (s' * s' + k' * k')); [ring|]. rewrite H2. ring.
  - transitivity (k * (x * s + z * k) * (s' * s' + k' * k') + s * (z * s - x * k)); [ring|]. rewrite H2.
    transitivity (z * (s * s + k * k)); [ring|]. rewrite H1. ring.
Qed.

Lemma matrix_determinant : forall lat lon, determinant (get_dipole_rotation_matrix lat lon) = 1.
Proof.
  intros lat lon. unfold get_dipole_rotation_matrix, determinant.
  assert (H1 := sc2 (DEG2RAD * lat)). assert (H2 := sc2 (DEG2RAD * lon)). cbv zeta.
  set (s := sin (DEG2RAD * lat)) in *; set (k := cos (DEG2RAD * lat)) in *;
  set (s' := sin (DEG2RAD * lon)) in *; set (k' := cos (DEG2RAD * lon)) in *.
  transitivity ((s * s + k * k) * (s' * s' + k' * k')); [ring|]. rewrite H1, H2. ring.
Qed.

(** the dipole axis becomes the polar axis, and the geographic pole is at the dipole longitude
    of 180 degrees *)
Lemma matrix_axis : forall lat lon,
  row_times (position CT_GEOCENTRIC_SPHERICAL (lat, lon, 1)) (get_dipole_rotation_matrix lat lon) = (0, 0, 1) /\
  row_times (0, 0, 1) (get_dipole_rotation_matrix lat lon) = position CT_GEOCENTRIC_SPHERICAL (lat, 180, 1).
Proof.
  intros lat lon. rewrite !position_sph_eq. unfold get_dipole_rotation_matrix, row_times. rewrite DEG2RAD_eq.
  assert (H1 := sc2 (DG2RAD * lat)). assert (H2 := sc2 (DG2RAD * lon)). cbv zeta.
  replace (DG2RAD * 180) with PI by (unfold DG2RAD; field). rewrite cos_PI, sin_PI.
  set (s := sin (DG2RAD * lat)) in *; set (k := cos (DG2RAD * lat)) in *;
  set (s' := sin (DG2RAD * lon)) in *; set (k' := cos (DG2RAD * lon)) in *.
  split; apply triple_eq; try ring.
  - transitivity (s * k * (s' * s' + k' * k') - s * k); [ring|]. rewrite H2. ring.
  - transitivity (k * k * (s' * s' + k' * k') + s * s); [ring|]. rewrite H2. lra.
Qed.

Lemma row_times_scalar : forall lat lon u v, let m := get_dipole_rotation_matrix lat lon in
  scalar (row_times u m) (row_times v m) = scalar u v.
Proof.
  intros lat lon u v m.
  assert (A : forall a b, scalar (row_times a m) b = scalar a (times_column m b)).
  { intros [[a0 a1] a2] [[b0 b1] b2]. destruct m as [[[[m00 m01] m02] [[m10 m11] m12]] [[m20 m21] m22]].
    cbn [scalar row_times times_column]. ring. }
  rewrite A. unfold m. rewrite (proj1 (matrix_orthogonal lat lon v)). reflexivity.
Qed.

Lemma times_column_scalar : forall lat lon u v, let m := get_dipole_rotation_matrix lat lon in
  scalar (times_column m u) (times_column m v) = scalar u v.
Proof.
  intros lat lon u v m. unfold m. rewrite <- (row_times_scalar lat lon). cbv zeta.
  rewrite !(proj2 (matrix_orthogonal lat lon _)). reflexivity.
Qed.

Lemma scalar_zero : forall v, scalar v v = 0 -> v = (0, 0, 0).
Proof. intros [[x y] z]. cbn [scalar]. intros H. apply triple_eq; nra. Qed.

Lemma row_times_nonzero : forall lat lon v, v <> (0, 0, 0) -> row_times v (get_dipole_rotation_matrix lat lon) <> (0, 0, 0).
Proof.
  intros lat lon v Hv E. apply Hv, scalar_zero. rewrite <- (row_times_scalar lat lon). cbv zeta. rewrite E. cbn [scalar]. ring.
Qed.

(** convert_to_dipole rotates the point *)
Lemma to_dipole_position : forall ct v lat lon, position ct v <> (0, 0, 0) ->
  let d := convert_to_dipole v lat lon ct in
  position CT_GEOCENTRIC_SPHERICAL d = row_times (position ct v) (get_dipole_rotation_matrix lat lon) /\
  usual CT_GEOCENTRIC_SPHERICAL d.
Proof.
  intros ct v lat lon Hv d. unfold d, convert_to_dipole. rewrite cart_position, dot_row.
  set (w := row_times (position ct v) (get_dipole_rotation_matrix lat lon)).
  assert (Hw : w <> (0, 0, 0)) by (apply row_times_nonzero; exact Hv).
  destruct w as [[x y] z].
  destruct (cart_to_sph x y z Hw) as [la [lo [r [E [H1 [H2 [H3 [_ H4]]]]]]]].
  rewrite E. split; [exact H4|]. cbn [usual]. auto.
Qed.

Lemma distance_scalar : forall v, distance v = sqrt (scalar v v).
Proof. intros [[x y] z]. reflexivity. Qed.

Lemma distance_sph : forall lat lon r, 0 <= r -> distance (position CT_GEOCENTRIC_SPHERICAL (lat, lon, r)) = r.
Proof.
  intros lat lon r Hr. rewrite position_sph_eq. unfold distance.
  rewrite <- (sqrt_square r Hr) at 7. f_equal.
  assert (H1 := sc2 (DG2RAD * lat)). assert (H2 := sc2 (DG2RAD * lon)).
  set (s := sin (DG2RAD * lat)) in *; set (k := cos (DG2RAD * lat)) in *;
  set (s' := sin (DG2RAD * lon)) in *; set (k' := cos (DG2RAD * lon)) in *.
  transitivity (r * r * (k * k) * (s' * s' + k' * k') + r * r * (s * s)); [ring|]. rewrite H2.
  transitivity (r * r * (s * s + k * k)); [ring|]. rewrite H1. ring.
Qed.

Lemma to_dipole_radius : forall ct v lat lon, position ct v <> (0, 0, 0) ->
  snd (convert_to_dipole v lat lon ct) = distance (position ct v).
Proof.
  intros ct v lat lon Hv. destruct (to_dipole_position ct v lat lon Hv) as [E Hu].
  destruct (convert_to_dipole v lat lon ct) as [[la lo] r]. destruct Hu as [_ Hr]. cbn [snd].
  rewrite <- (distance_sph la lo r) by lra. rewrite E, !distance_scalar. f_equal.
  apply row_times_scalar.
Qed.

Lemma to_dipole_inverse : forall ct v lat lon, position ct v <> (0, 0, 0) ->
  times_column (get_dipole_rotation_matrix lat lon)
    (position CT_GEOCENTRIC_SPHERICAL (convert_to_dipole v lat lon ct)) = position ct v.
Proof.
  intros ct v lat lon Hv. destruct (to_dipole_position ct v lat lon Hv) as [E _].
  cbv zeta in E. rewrite E. apply matrix_orthogonal.
Qed.

(** vectors rotated from the dipole frame *)
Lemma from_dipole_cart : forall v lat lon lat_d lon_d lat_o lon_o co c,
  (co <> CT_GEOCENTRIC_CARTESIAN -> fst c = (lat_o, lon_o)) ->
  to_cart co (vrot_from_dipole v lat lon lat_d lon_d lat_o lon_o co) c
  = times_column (get_dipole_rotation_matrix lat lon) (vrot_sph2cart v lat_d lon_d).
Proof.
  intros v lat lon lat_d lon_d lat_o lon_o co [[la lo] r] Hc.
  unfold vrot_from_dipole. rewrite dot_transpose.
  destruct co; cbn [ct_eqb to_cart].
  - specialize (Hc ltac:(discriminate)). cbn [fst] in Hc. injection Hc as -> ->. apply sph2cart_cart2sph.
  - specialize (Hc ltac:(discriminate)). cbn [fst] in Hc. injection Hc as -> ->. apply sph2cart_cart2sph.
  - reflexivity.
Qed.

Lemma from_dipole_scalar : forall u v lat lon lat_d lon_d lat_o lon_o co,
  scalar (vrot_from_dipole u lat lon lat_d lon_d lat_o lon_o co)
    (vrot_from_dipole v lat lon lat_d lon_d lat_o lon_o co) = scalar u v.
Proof.
  intros. rewrite <- (scalar_to_cart co _ _ (lat_o, lon_o, 0)).
  rewrite !from_dipole_cart by reflexivity. rewrite times_column_scalar, scalar_sph2cart. reflexivity.
Qed.

(** inclination and declination *)
Lemma incdec : forall v, v <> (0, 0, 0) ->
  exists inc dec, vincdecnorm v = (inc, dec, magnitude v) /\ - 90 <= inc <= 90 /\ - 180 < dec <= 180 /\
    v = (magnitude v * cos (one_degree * inc) * cos (one_degree * dec),
         magnitude v * cos (one_degree * inc) * sin (one_degree * dec),
         - (magnitude v * sin (one_degree * inc))).
Proof.
  intros [[x y] z] Hv. destruct (cart_to_sph x y z Hv) as [la [lo [r [E [H1 [H2 [H3 [_ H4]]]]]]]].
  assert (Er : magnitude (x, y, z) = r).
  { change (magnitude (x, y, z)) with (distance (x, y, z)). rewrite <- H4. apply distance_sph. lra. }
  exists (- la), lo. unfold vincdecnorm. rewrite E, Er.
  split; [reflexivity|]. split; [lra|]. split; [exact H2|].
  rewrite <- H4. cbn [position].
  replace (one_degree * - la) with (- (one_degree * la)) by ring. rewrite cos_neg, sin_neg.
  apply triple_eq; ring.
Qed.

Lemma vnorm_magnitude : forall v, vnorm v = magnitude v.
Proof. intros [[x y] z]. reflexivity. Qed.

(** the magnetic universal time *)
Lemma atan2_scale : forall k y x, 0 < k -> atan2 (k * y) (k * x) = atan2 y x.
Proof.
  intros k y x Hk.
  assert (L : (x <> 0 \/ y <> 0) -> atan2 (k * y) (k * x) = atan2 y x).
  { intros H0. destruct (atan2_cos_sin y x H0) as [Hc Hs]. assert (Hn := norm2d_pos x y H0).
    assert (Hp := atan2_polar (k * norm2d x y) (atan2 y x) (Rmult_lt_0_compat _ _ Hk Hn) (atan2_range y x)).
    rewrite !Rmult_assoc, Hs, Hc in Hp. exact Hp. }
  destruct (Req_dec x 0) as [Ex|Hx]; [destruct (Req_dec y 0) as [Ey|Hy]|]; [|tauto|tauto].
  rewrite Ex, Ey, !Rmult_0_r. reflexivity.
Qed.

Lemma mut_range : forall lat_ngp lon_ngp lat_sol lon_sol,
  0 <= magnetic_universal_time lat_ngp lon_ngp lat_sol lon_sol < 24.
Proof.
  intros. unfold magnetic_universal_time. cbv zeta.
  match goal with |- context [atan2 ?a ?b] => destruct (atan2_range a b); set (t := atan2 a b) in * end.
  assert (HP := PI_RGT_0).
  assert (E : 12 / PI * (PI - t) * PI = 12 * (PI - t)) by (field; lra). split; nra.
Qed.

Lemma mut_longitude : forall lat_ngp lon_ngp lat_sol lon_sol r, 0 < r ->
  let '(_, lon, _) := convert_to_dipole (lat_sol, lon_sol, r) lat_ngp lon_ngp CT_GEOCENTRIC_SPHERICAL in
  magnetic_universal_time lat_ngp lon_ngp lat_sol lon_sol = 12 - lon / 15.
Proof.
  intros lat_ngp lon_ngp lat_sol lon_sol r Hr.
  unfold convert_to_dipole. rewrite cart_position, dot_row.
  destruct (row_times (position CT_GEOCENTRIC_SPHERICAL (lat_sol, lon_sol, r)) (get_dipole_rotation_matrix lat_ngp lon_ngp))
    as [[x y] z] eqn:E.
  unfold convert, get_fconv, conv_cartECEF_to_sphECEF, cart2sph. cbn [ct_eqb].
  rewrite position_sph_eq in E. unfold get_dipole_rotation_matrix, row_times in E. rewrite DEG2RAD_eq in E.
  injection E as Ex Ey _.
  unfold magnetic_universal_time. rewrite DEG2RAD_eq. cbv zeta.
  replace (DG2RAD * (lon_sol - lon_ngp)) with (DG2RAD * lon_sol - DG2RAD * lon_ngp) by ring.
  rewrite cos_minus, sin_minus.
  match goal with |- context [atan2 ?a ?b] =>
    match b with context [sin (DG2RAD * lat_ngp)] => assert (Et : atan2 y x = atan2 a b) end end.
  { etransitivity; [|apply (atan2_scale r); exact Hr]. f_equal; [rewrite <- Ey|rewrite <- Ex]; ring. }
  rewrite <- Et. unfold RAD2DG. assert (HP := PI_RGT_0). field. lra.
Qed.
