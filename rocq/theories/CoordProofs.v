(** The conversions preserve the position. *)

From Coq Require Import Reals Lra.
From Verif Require Import LegendreModel GeoModel ShEvalModel CoordModel CoordSpec Atan2Proofs FerrariProofs.
Open Scope R_scope.

Lemma degree_eq : DG2RAD = one_degree.
Proof. unfold DG2RAD, one_degree. field. Qed.

Lemma degree_pos : 0 < one_degree.
Proof. unfold one_degree. assert (H := PI_RGT_0). lra. Qed.

Lemma rad_deg : forall x, DG2RAD * (x * RAD2DG) = x.
Proof. intros x. unfold DG2RAD, RAD2DG. assert (H := PI_RGT_0). field. lra. Qed.

Lemma deg_rad : forall x, RAD2DG * (DG2RAD * x) = x.
Proof. intros x. unfold DG2RAD, RAD2DG. assert (H := PI_RGT_0). field. lra. Qed.

Lemma degree_rad : forall x, one_degree * (x * RAD2DG) = x.
Proof. intros x. rewrite <- degree_eq. apply rad_deg. Qed.

Lemma lat_deg_le : forall x, - (PI / 2) <= x <= PI / 2 <-> - 90 <= x * RAD2DG <= 90.
Proof.
  intros x. assert (H := PI_RGT_0).
  assert (E : x * RAD2DG * PI = 180 * x) by (unfold RAD2DG; field; lra). split; intros [H1 H2]; split; nra.
Qed.
Lemma lat_deg_lt : forall x, - (PI / 2) < x < PI / 2 <-> - 90 < x * RAD2DG < 90.
Proof.
  intros x. assert (H := PI_RGT_0).
  assert (E : x * RAD2DG * PI = 180 * x) by (unfold RAD2DG; field; lra). split; intros [H1 H2]; split; nra.
Qed.
Lemma lon_deg : forall x, - PI < x <= PI <-> usual_longitude (x * RAD2DG).
Proof.
  intros x. assert (H := PI_RGT_0). unfold usual_longitude.
  assert (E : x * RAD2DG * PI = 180 * x) by (unfold RAD2DG; field; lra). split; intros [H1 H2]; split; nra.
Qed.
Lemma rad_lat_le : forall d, - 90 <= d <= 90 -> - (PI / 2) <= DG2RAD * d <= PI / 2.
Proof. intros d H. apply lat_deg_le. rewrite Rmult_comm, deg_rad. exact H. Qed.
Lemma rad_lat_lt : forall d, - 90 < d < 90 -> - (PI / 2) < DG2RAD * d < PI / 2.
Proof. intros d H. apply lat_deg_lt. rewrite Rmult_comm, deg_rad. exact H. Qed.
Lemma rad_lon : forall d, usual_longitude d -> - PI < DG2RAD * d <= PI.
Proof. intros d H. apply lon_deg. rewrite Rmult_comm, deg_rad. exact H. Qed.

Lemma A_pos : 0 < WGS84_A.
Proof. unfold WGS84_A. lra. Qed.
Lemma E2_range : 0 < WGS84_EPS2 < 1.
Proof.
  unfold WGS84_EPS2, WGS84_A, WGS84_B.
  assert (H : 0 < 6356.7523142 * 6356.7523142 / (6378.137 * 6378.137) < 1).
  { split; [apply Rdiv_lt_0_compat; lra|].
    apply Rmult_lt_reg_r with (6378.137 * 6378.137); [lra|]. unfold Rdiv.
    rewrite Rmult_assoc, Rinv_l by lra. lra. }
  lra.
Qed.

Lemma E2_eq : WGS84_EPS2 * (axis_a * axis_a) = axis_a * axis_a - axis_b * axis_b.
Proof. unfold WGS84_EPS2, axis_a, axis_b, WGS84_A, WGS84_B. field. lra. Qed.

Lemma E2_compl : 1 - WGS84_EPS2 = axis_b * axis_b / (axis_a * axis_a).
Proof. unfold WGS84_EPS2, axis_a, axis_b, WGS84_A, WGS84_B. lra. Qed.

Lemma normal_curv : forall lat, normal_length lat = curv WGS84_A WGS84_EPS2 (DG2RAD * lat).
Proof.
  intros lat. assert (HA := A_pos). assert (HE := E2_range).
  rewrite degree_eq. set (p := one_degree * lat).
  assert (Hcs := sin2_cos2 p). unfold Rsqr in Hcs.
  assert (Hc := curv_arg WGS84_EPS2 HE p).
  assert (Eq : axis_a * axis_a * (cos p * cos p) + axis_b * axis_b * (sin p * sin p)
               = WGS84_A * WGS84_A * (1 - WGS84_EPS2 * sin p * sin p)).
  { change WGS84_A with axis_a.
    replace (axis_b * axis_b) with (axis_a * axis_a - WGS84_EPS2 * (axis_a * axis_a)) by (rewrite E2_eq; ring).
    replace (cos p * cos p) with (1 - sin p * sin p) by lra. ring. }
  unfold normal_length, curv. fold p. rewrite Eq, sqrt_mult, sqrt_square by nra.
  change axis_a with WGS84_A. field.
  assert (0 < sqrt (1 - WGS84_EPS2 * sin p * sin p)) by (apply sqrt_lt_R0; lra). lra.
Qed.

(** the Cartesian coordinates computed by the code are the position *)
Lemma cart_position : forall ct v, convert v ct CT_GEOCENTRIC_CARTESIAN = position ct v.
Proof.
  intros ct [[c0 c1] c2]. destruct ct; unfold convert; cbn [ct_eqb get_fconv position].
  - unfold conv_WGS84_to_cartECEF, geodetic2geocentric_cart, geodetic2geocentric_.
    rewrite normal_curv. unfold curv. rewrite <- E2_compl, <- degree_eq. reflexivity.
  - unfold conv_sphECEF_to_cartECEF, sph2cart. rewrite <- degree_eq. reflexivity.
  - reflexivity.
Qed.

Lemma position_geod_eq : forall lat lon h,
  position CT_GEODETIC_ABOVE_WGS84 (lat, lon, h)
  = let '(p, z) := geodetic2geocentric_ (DG2RAD * lat) h WGS84_A WGS84_EPS2 in
    (p * cos (DG2RAD * lon), p * sin (DG2RAD * lon), z).
Proof. intros. rewrite <- cart_position. reflexivity. Qed.

Lemma position_sph_eq : forall lat lon r,
  position CT_GEOCENTRIC_SPHERICAL (lat, lon, r)
  = (r * cos (DG2RAD * lat) * cos (DG2RAD * lon), r * cos (DG2RAD * lat) * sin (DG2RAD * lon),
     r * sin (DG2RAD * lat)).
Proof. intros. rewrite <- cart_position. reflexivity. Qed.

Lemma evolute_solvable : forall x y z, beyond_evolute (x, y, z) <->
  solvable WGS84_A WGS84_EPS2 (norm2d x y) z.
Proof.
  intros x y z. unfold beyond_evolute, solvable, ferrari_domain.
  assert (HA := A_pos). change WGS84_A with axis_a in *.
  replace (norm2d x y / axis_a * (norm2d x y / axis_a))
    with (axis_a * axis_a * (x * x + y * y) / (axis_a * axis_a * (axis_a * axis_a)))
    by (rewrite <- norm2d_sqr; field; lra).
  replace ((1 - WGS84_EPS2) * (z / axis_a * (z / axis_a)))
    with (axis_b * axis_b * (z * z) / (axis_a * axis_a * (axis_a * axis_a)))
    by (rewrite E2_compl; field; lra).
  replace (WGS84_EPS2 * WGS84_EPS2)
    with ((axis_a * axis_a - axis_b * axis_b) * (axis_a * axis_a - axis_b * axis_b)
          / (axis_a * axis_a * (axis_a * axis_a)))
    by (rewrite <- E2_eq; field; lra).
  set (A := axis_a * axis_a * (x * x + y * y)). set (B := axis_b * axis_b * (z * z)).
  set (C := (axis_a * axis_a - axis_b * axis_b) * (axis_a * axis_a - axis_b * axis_b)).
  set (D := axis_a * axis_a * (axis_a * axis_a)).
  assert (HD : 0 < D) by (unfold D; apply Rmult_lt_0_compat; nra).
  clearbody A B C D. clear HA.
  assert (Hi : 0 < / D) by (apply Rinv_0_lt_compat; exact HD).
  assert (E1 : A / D + B / D = (A + B) * / D) by (field; lra).
  assert (E2 : A / D * (B / D) = A * B * (/ D * / D)) by (field; lra).
  assert (E3 : (C / D - A / D - B / D) * (C / D - A / D - B / D) * (C / D - A / D - B / D)
               = (C - A - B) * (C - A - B) * (C - A - B) * (/ D * / D * / D)) by (field; lra).
  assert (E4 : 27 * (C / D) * (A * B * (/ D * / D)) = 27 * C * (A * B) * (/ D * / D * / D)) by (field; lra).
  rewrite E1, E2, E3, E4. unfold Rdiv.
  assert (Hi2 : 0 < / D * / D) by (apply Rmult_lt_0_compat; exact Hi).
  assert (Hi3 : 0 < / D * / D * / D) by (apply Rmult_lt_0_compat; assumption).
  split.
  - intros [H|[H1 H2]]; [left|right; split].
    + apply Rmult_lt_compat_r; assumption.
    + apply Rmult_lt_0_compat; assumption.
    + apply Rmult_le_compat_r; lra.
  - intros [H|[H1 H2]]; [left|right; split].
    + apply Rmult_lt_reg_r in H; assumption.
    + apply Rmult_lt_reg_r with (/ D * / D); [exact Hi2|]. rewrite Rmult_0_l. exact H1.
    + apply Rmult_le_reg_r in H2; assumption.
Qed.

(** an equal radius in the equatorial plane *)
Lemma norm2d_lon : forall p lon, 0 <= p -> norm2d (p * cos lon) (p * sin lon) = p.
Proof. intros p lon H. apply norm2d_polar. exact H. Qed.

Lemma cos_lat_nonneg : forall lat, - 90 <= lat <= 90 -> 0 <= cos (DG2RAD * lat).
Proof. intros lat H. apply rad_lat_le in H. apply cos_ge_0; lra. Qed.
Lemma cos_lat_pos : forall lat, - 90 < lat < 90 -> 0 < cos (DG2RAD * lat).
Proof. intros lat H. apply rad_lat_lt in H. apply cos_gt_0; lra. Qed.

Lemma above_curv : forall lat h, above_equator_plane lat h <->
  0 < curv WGS84_A WGS84_EPS2 (DG2RAD * lat) * (1 - WGS84_EPS2) + h.
Proof. intros. unfold above_equator_plane. rewrite normal_curv, E2_compl. reflexivity. Qed.

Lemma geod_rad_nonneg : forall lat h p z, - 90 <= lat <= 90 -> above_equator_plane lat h ->
  geodetic2geocentric_ (DG2RAD * lat) h WGS84_A WGS84_EPS2 = (p, z) ->
  0 <= p /\ (- 90 < lat < 90 -> 0 < p) /\ (p <> 0 \/ z <> 0).
Proof.
  intros lat h p z Hl Ha E. apply above_curv in Ha.
  assert (Hc := curv_pos WGS84_A WGS84_EPS2 A_pos E2_range (DG2RAD * lat)).
  assert (HE := E2_range).
  unfold geodetic2geocentric_ in E. fold (curv WGS84_A WGS84_EPS2 (DG2RAD * lat)) in E.
  set (N := curv WGS84_A WGS84_EPS2 (DG2RAD * lat)) in *.
  injection E as Ep Ez.
  assert (Hn : 0 < N + h) by nra.
  assert (H0 := cos_lat_nonneg lat Hl).
  split; [rewrite <- Ep; apply Rmult_le_pos; lra|]. split.
  - intros Hl'. rewrite <- Ep. apply Rmult_lt_0_compat; [lra|]. apply cos_lat_pos. exact Hl'.
  - destruct (Req_dec (cos (DG2RAD * lat)) 0) as [Ec|Ec].
    + right. rewrite <- Ez. intro Hz. apply Rmult_integral in Hz. destruct Hz as [Hz|Hz]; [lra|].
      assert (Hcs := sin2_cos2 (DG2RAD * lat)). unfold Rsqr in Hcs. rewrite Ec, Hz in Hcs. lra.
    + left. rewrite <- Ep. apply Rmult_integral_contrapositive. split; lra.
Qed.

(** Cartesian to spherical coordinates *)
Lemma cart_to_sph : forall x y z, (x, y, z) <> (0, 0, 0) ->
  exists lat lon r, convert (x, y, z) CT_GEOCENTRIC_CARTESIAN CT_GEOCENTRIC_SPHERICAL = (lat, lon, r)
    /\ - 90 <= lat <= 90 /\ usual_longitude lon /\ 0 < r
    /\ ((x <> 0 \/ y <> 0) -> - 90 < lat < 90)
    /\ position CT_GEOCENTRIC_SPHERICAL (lat, lon, r) = (x, y, z).
Proof.
  intros x y z H0.
  assert (Hn : x <> 0 \/ y <> 0 \/ z <> 0).
  { destruct (Req_dec x 0); [|tauto]. destruct (Req_dec y 0); [|tauto]. destruct (Req_dec z 0); [|tauto].
    exfalso. apply H0. congruence. }
  assert (Hr := norm3d_pos x y z Hn).
  exists (asin (z / norm3d x y z) * RAD2DG), (atan2 y x * RAD2DG), (norm3d x y z).
  split; [reflexivity|].
  rewrite norm3d_norm2d in *.
  assert (Hp := norm2d_nonneg x y).
  assert (Hpz : norm2d x y <> 0 \/ z <> 0).
  { destruct Hn as [H|[H|H]]; [left|left|right; exact H];
    assert (0 < norm2d x y) by (apply norm2d_pos; tauto); lra. }
  rewrite (asin_atan2 (norm2d x y) z) by assumption.
  split; [apply lat_deg_le, atan2_range_right, Hp|].
  split; [apply lon_deg, atan2_range|].
  split; [exact Hr|].
  split; [intros H; apply lat_deg_lt, atan2_range_right_lt, norm2d_pos, H|].
  rewrite position_sph_eq, !rad_deg.
  destruct (atan2_cos_sin z (norm2d x y) Hpz) as [Hc Hs]. rewrite Hc, Hs.
  destruct (Req_dec x 0) as [Ex|Ex]; [destruct (Req_dec y 0) as [Ey|Ey]|].
  - assert (E : norm2d x y = 0) by (apply sqr_eq_pos; [exact Hp|lra|]; rewrite norm2d_sqr, Ex, Ey; ring).
    rewrite E, Ex, Ey. f_equal. f_equal; ring.
  - destruct (atan2_cos_sin y x) as [Hc' Hs']; [tauto|]. rewrite Hc', Hs'. reflexivity.
  - destruct (atan2_cos_sin y x) as [Hc' Hs']; [tauto|]. rewrite Hc', Hs'. reflexivity.
Qed.

(** geodetic to spherical coordinates *)
Lemma geod_to_sph : forall lat0 lon0 h, - 90 <= lat0 <= 90 -> above_equator_plane lat0 h ->
  exists lat r, convert (lat0, lon0, h) CT_GEODETIC_ABOVE_WGS84 CT_GEOCENTRIC_SPHERICAL = (lat, lon0, r)
    /\ - 90 <= lat <= 90 /\ 0 < r /\ (- 90 < lat0 < 90 -> - 90 < lat < 90)
    /\ position CT_GEOCENTRIC_SPHERICAL (lat, lon0, r) = position CT_GEODETIC_ABOVE_WGS84 (lat0, lon0, h).
Proof.
  intros lat0 lon0 h Hl Ha.
  destruct (geodetic2geocentric_ (DG2RAD * lat0) h WGS84_A WGS84_EPS2) as [p z] eqn:E.
  destruct (geod_rad_nonneg lat0 h p z Hl Ha E) as [Hp [Hp' H0]].
  exists (atan2 z p * RAD2DG), (norm2d p z). split.
  { unfold convert, get_fconv, conv_WGS84_to_sphECEF, geodetic2geocentric_sph. cbn [ct_eqb].
    rewrite E. f_equal. f_equal. rewrite Rmult_comm. apply deg_rad. }
  split; [apply lat_deg_le, atan2_range_right, Hp|].
  split; [apply norm2d_pos, H0|].
  split; [intros H; apply lat_deg_lt, atan2_range_right_lt, Hp', H|].
  rewrite position_sph_eq, position_geod_eq, E, rad_deg.
  destruct (atan2_cos_sin z p H0) as [Hc Hs]. rewrite Hc, Hs. reflexivity.
Qed.

(** spherical to geodetic coordinates *)
Lemma sph_to_geod : forall lat0 lon0 r, - 90 <= lat0 <= 90 -> 0 < r ->
  beyond_evolute (position CT_GEOCENTRIC_SPHERICAL (lat0, lon0, r)) ->
  exists lat h, convert (lat0, lon0, r) CT_GEOCENTRIC_SPHERICAL CT_GEODETIC_ABOVE_WGS84 = (lat, lon0, h)
    /\ - 90 <= lat <= 90 /\ above_equator_plane lat h /\ (- 90 < lat0 < 90 -> - 90 < lat < 90)
    /\ position CT_GEODETIC_ABOVE_WGS84 (lat, lon0, h) = position CT_GEOCENTRIC_SPHERICAL (lat0, lon0, r).
Proof.
  intros lat0 lon0 r Hl Hr Hb. rewrite position_sph_eq in Hb.
  apply evolute_solvable in Hb.
  assert (H0 := cos_lat_nonneg lat0 Hl).
  assert (Hp : 0 <= r * cos (DG2RAD * lat0)) by (apply Rmult_le_pos; lra).
  rewrite norm2d_lon in Hb by exact Hp.
  destruct (geocentric2geodetic_ (r * cos (DG2RAD * lat0)) (r * sin (DG2RAD * lat0)) WGS84_A WGS84_EPS2)
    as [lat h] eqn:E.
  destruct (geodetic_of_point WGS84_A WGS84_EPS2 A_pos E2_range _ _ Hp Hb lat h E) as [R1 [R2 [R3 R4]]].
  exists (lat * RAD2DG), h. split.
  { unfold convert, get_fconv, conv_sphECEF_to_WGS84, geocentric_sph2geodetic. cbn [ct_eqb].
    rewrite E. rewrite deg_rad, (Rmult_comm RAD2DG lat). reflexivity. }
  split; [apply lat_deg_le, R1|].
  split; [apply above_curv; rewrite rad_deg; exact R2|].
  split.
  { intros Hl'. apply lat_deg_lt, R4. apply Rmult_lt_0_compat; [exact Hr|]. apply cos_lat_pos, Hl'. }
  rewrite position_geod_eq, position_sph_eq, rad_deg, R3. reflexivity.
Qed.

(** Cartesian to geodetic coordinates *)
Lemma cart_to_geod : forall x y z, beyond_evolute (x, y, z) ->
  exists lat lon h, convert (x, y, z) CT_GEOCENTRIC_CARTESIAN CT_GEODETIC_ABOVE_WGS84 = (lat, lon, h)
    /\ - 90 <= lat <= 90 /\ usual_longitude lon /\ above_equator_plane lat h
    /\ ((x <> 0 \/ y <> 0) -> - 90 < lat < 90)
    /\ position CT_GEODETIC_ABOVE_WGS84 (lat, lon, h) = (x, y, z).
Proof.
  intros x y z Hb. apply evolute_solvable in Hb.
  assert (Hp := norm2d_nonneg x y).
  destruct (geocentric2geodetic_ (norm2d x y) z WGS84_A WGS84_EPS2) as [lat h] eqn:E.
  destruct (geodetic_of_point WGS84_A WGS84_EPS2 A_pos E2_range _ _ Hp Hb lat h E) as [R1 [R2 [R3 R4]]].
  exists (lat * RAD2DG), (atan2 y x * RAD2DG), h. split.
  { unfold convert, get_fconv, conv_cartECEF_to_WGS84, geocentric_cart2geodetic. cbn [ct_eqb].
    rewrite E. rewrite (Rmult_comm RAD2DG lat), (Rmult_comm RAD2DG (atan2 y x)). reflexivity. }
  split; [apply lat_deg_le, R1|].
  split; [apply lon_deg, atan2_range|].
  split; [apply above_curv; rewrite rad_deg; exact R2|].
  split; [intros H; apply lat_deg_lt, R4, norm2d_pos, H|].
  rewrite position_geod_eq, !rad_deg, R3.
  destruct (Req_dec x 0) as [Ex|Ex]; [destruct (Req_dec y 0) as [Ey|Ey]|].
  - assert (En : norm2d x y = 0) by (apply sqr_eq_pos; [exact Hp|lra|]; rewrite norm2d_sqr, Ex, Ey; ring).
    rewrite En, Ex, Ey. f_equal. f_equal; ring.
  - destruct (atan2_cos_sin y x) as [Hc' Hs']; [tauto|]. rewrite Hc', Hs'. reflexivity.
  - destruct (atan2_cos_sin y x) as [Hc' Hs']; [tauto|]. rewrite Hc', Hs'. reflexivity.
Qed.
