(** Consistency of the conversions: they preserve the point, the coordinates of a point are
    unique, hence the conversions compose and are inverse to each other. *)

From Coq Require Import Reals Lra.
From Verif Require Import LegendreModel GeoModel ShEvalModel CoordModel CoordSpec Atan2Proofs FerrariProofs CoordProofs.
Open Scope R_scope.

Definition needs (B : coord_type) (pt : vec) : Prop := B = CT_GEODETIC_ABOVE_WGS84 -> beyond_evolute pt.

Lemma beyond_origin : ~ beyond_evolute (0, 0, 0).
Proof.
  unfold beyond_evolute. intros [H|[H _]].
  - replace (axis_a * axis_a * (0 * 0 + 0 * 0) + axis_b * axis_b * (0 * 0)) with 0 in H by ring.
    assert (0 <= (axis_a * axis_a - axis_b * axis_b) * (axis_a * axis_a - axis_b * axis_b)) by apply Rle_0_sqr.
    lra.
  - replace (axis_a * axis_a * (0 * 0 + 0 * 0) * (axis_b * axis_b * (0 * 0))) with 0 in H by ring. lra.
Qed.

Lemma usual_not_origin : forall ct v, usual ct v -> position ct v <> (0, 0, 0).
Proof.
  intros ct [[c0 c1] c2] H. destruct ct; cbn [usual] in H.
  - destruct H as [Hl Ha]. rewrite position_geod_eq.
    destruct (geodetic2geocentric_ (DG2RAD * c0) c2 WGS84_A WGS84_EPS2) as [p z] eqn:E.
    destruct (geod_rad_nonneg c0 c2 p z Hl Ha E) as [_ [_ H0]].
    intro Eq. injection Eq as E1 E2 E3.
    assert (Hcs := sin2_cos2 (DG2RAD * c1)). unfold Rsqr in Hcs. destruct H0 as [H0|H0]; [|lra].
    apply H0. assert (p * p = 0); [|nra].
    replace (p * p) with (p * p * (sin (DG2RAD * c1) * sin (DG2RAD * c1) + cos (DG2RAD * c1) * cos (DG2RAD * c1)))
      by (rewrite Hcs; ring). nra.
  - destruct H as [Hl Hr]. rewrite position_sph_eq. intro Eq. injection Eq as E1 E2 E3.
    assert (H1 := sin2_cos2 (DG2RAD * c0)). assert (H2 := sin2_cos2 (DG2RAD * c1)). unfold Rsqr in *.
    set (s := sin (DG2RAD * c0)) in *. set (c := cos (DG2RAD * c0)) in *.
    set (s' := sin (DG2RAD * c1)) in *. set (c' := cos (DG2RAD * c1)) in *.
    assert (E4 : (c2 * c) * (c2 * c) = 0).
    { replace ((c2 * c) * (c2 * c)) with ((c2 * c) * (c2 * c) * (s' * s' + c' * c')) by (rewrite H2; ring).
      transitivity ((c2 * c * c') * (c2 * c * c') + (c2 * c * s') * (c2 * c * s')); [ring|].
      rewrite E1, E2. ring. }
    assert (E5 : c2 * c2 = 0).
    { replace (c2 * c2) with (c2 * c2 * (s * s + c * c)) by (rewrite H1; ring).
      transitivity ((c2 * s) * (c2 * s) + (c2 * c) * (c2 * c)); [ring|]. rewrite E3, E4. ring. }
    nra.
  - exact H.
Qed.

(** the conversion preserves the point and gives coordinates in the usual ranges *)
Lemma convert_position : forall A B v, usual A v -> needs B (position A v) ->
  position B (convert v A B) = position A v /\ usual B (convert v A B).
Proof.
  intros A B v Hu Hn.
  assert (H0 := usual_not_origin A v Hu).
  destruct B.
  - destruct A.
    + destruct v as [[c0 c1] c2]. unfold convert. cbn [ct_eqb]. auto.
    + destruct v as [[c0 c1] c2]. destruct Hu as [Hl Hr].
      destruct (sph_to_geod c0 c1 c2 Hl Hr (Hn eq_refl)) as [lat [h [E [H1 [H2 [_ H3]]]]]].
      rewrite E. split; [exact H3|]. cbn [usual]. auto.
    + destruct v as [[x y] z].
      destruct (cart_to_geod x y z (Hn eq_refl)) as [lat [lon [h [E [H1 [_ [H2 [_ H3]]]]]]]].
      rewrite E. split; [exact H3|]. cbn [usual]. auto.
  - destruct A.
    + destruct v as [[c0 c1] c2]. destruct Hu as [Hl Ha].
      destruct (geod_to_sph c0 c1 c2 Hl Ha) as [lat [r [E [H1 [H2 [_ H3]]]]]].
      rewrite E. split; [exact H3|]. cbn [usual]. auto.
    + destruct v as [[c0 c1] c2]. unfold convert. cbn [ct_eqb]. auto.
    + destruct v as [[x y] z].
      destruct (cart_to_sph x y z H0) as [lat [lon [r [E [H1 [_ [H2 [_ H3]]]]]]]].
      rewrite E. split; [exact H3|]. cbn [usual]. auto.
  - rewrite cart_position. destruct (position A v) as [[x y] z]. split; [reflexivity|exact H0].
Qed.

Lemma unique_usual : forall ct v, unique_coordinates ct v -> usual ct v.
Proof.
  intros ct [[c0 c1] c2] H. destruct ct; cbn [unique_coordinates usual] in *.
  - destruct H as [H1 [H2 H3]]. split; [lra|exact H3].
  - destruct H as [H1 [H2 H3]]. split; [lra|exact H3].
  - intro E. injection E as E1 E2 E3. tauto.
Qed.

Lemma polar_nonzero : forall p lon, 0 < p -> p * cos lon <> 0 \/ p * sin lon <> 0.
Proof.
  intros p lon Hp. assert (Hcs := sin2_cos2 lon). unfold Rsqr in Hcs.
  destruct (Req_dec (cos lon) 0) as [E|E].
  - right. intro H. apply Rmult_integral in H. destruct H as [H|H]; [lra|]. rewrite E, H in Hcs. lra.
  - left. intro H. apply Rmult_integral in H. destruct H; lra.
Qed.

(** the point off the axis has its latitude off the poles *)
Lemma convert_unique : forall A B v, unique_coordinates A v -> needs B (position A v) ->
  unique_coordinates B (convert v A B).
Proof.
  intros A B v Hu Hn. assert (Hus := unique_usual A v Hu).
  assert (H0 := usual_not_origin A v Hus).
  destruct B.
  - destruct A; destruct v as [[c0 c1] c2].
    + unfold convert. cbn [ct_eqb]. auto.
    + destruct Hu as [Hl [Hlon Hr]]. destruct Hus as [Hl' _].
      destruct (sph_to_geod c0 c1 c2 Hl' Hr (Hn eq_refl)) as [lat [h [E [H1 [H2 [H3 _]]]]]].
      rewrite E. cbn [unique_coordinates]. auto.
    + destruct (cart_to_geod c0 c1 c2 (Hn eq_refl)) as [lat [lon [h [E [H1 [H2 [H3 [H4 _]]]]]]]].
      rewrite E. cbn [unique_coordinates]. auto.
  - destruct A; destruct v as [[c0 c1] c2].
    + destruct Hu as [Hl [Hlon Ha]]. destruct Hus as [Hl' _].
      destruct (geod_to_sph c0 c1 c2 Hl' Ha) as [lat [r [E [H1 [H2 [H3 _]]]]]].
      rewrite E. cbn [unique_coordinates]. auto.
    + unfold convert. cbn [ct_eqb]. auto.
    + destruct (cart_to_sph c0 c1 c2 H0) as [lat [lon [r [E [H1 [H2 [H3 [H4 _]]]]]]]].
      rewrite E. cbn [unique_coordinates]. auto.
  - rewrite cart_position. destruct A; destruct v as [[c0 c1] c2].
    + destruct Hu as [Hl [Hlon Ha]]. destruct Hus as [Hl' _]. rewrite position_geod_eq.
      destruct (geodetic2geocentric_ (DG2RAD * c0) c2 WGS84_A WGS84_EPS2) as [p z] eqn:E.
      destruct (geod_rad_nonneg c0 c2 p z Hl' Ha E) as [_ [Hp _]].
      cbn [unique_coordinates]. apply polar_nonzero, Hp, Hl.
    + destruct Hu as [Hl [Hlon Hr]]. rewrite position_sph_eq. cbn [unique_coordinates].
      apply polar_nonzero. apply Rmult_lt_0_compat; [exact Hr|apply cos_lat_pos, Hl].
    + exact Hu.
Qed.

(** equal polar coordinates in the equatorial plane *)
Lemma polar_eq : forall p p' a a', 0 < p -> 0 < p' -> usual_longitude a -> usual_longitude a' ->
  p * cos (DG2RAD * a) = p' * cos (DG2RAD * a') -> p * sin (DG2RAD * a) = p' * sin (DG2RAD * a') ->
  p = p' /\ a = a'.
Proof.
  intros p p' a a' Hp Hp' Ha Ha' Hc Hs. apply rad_lon in Ha. apply rad_lon in Ha'. split.
  - rewrite <- (norm2d_lon p (DG2RAD * a)) by lra. rewrite Hc, Hs. apply norm2d_lon. lra.
  - rewrite <- (deg_rad a), <- (deg_rad a'). f_equal.
    rewrite <- (atan2_polar p (DG2RAD * a) Hp Ha). rewrite Hc, Hs. apply atan2_polar; assumption.
Qed.

Lemma sph_eq : forall r r' t t', 0 < r -> 0 < r' -> - 90 <= t <= 90 -> - 90 <= t' <= 90 ->
  r * cos (DG2RAD * t) = r' * cos (DG2RAD * t') -> r * sin (DG2RAD * t) = r' * sin (DG2RAD * t') ->
  r = r' /\ t = t'.
Proof.
  intros r r' t t' Hr Hr' Ht Ht' Hc Hs. apply polar_eq; auto; unfold usual_longitude; lra.
Qed.

(** the coordinates are unique *)
Lemma coordinates_unique : forall ct v v', unique_coordinates ct v -> unique_coordinates ct v' ->
  needs ct (position ct v) -> position ct v = position ct v' -> v = v'.
Proof.
  intros ct [[c0 c1] c2] [[d0 d1] d2] Hu Hu' Hn E. destruct ct.
  - destruct Hu as [Hl [Hlon Ha]]. destruct Hu' as [Hl' [Hlon' Ha']].
    assert (Hb := Hn eq_refl).
    rewrite !position_geod_eq in *.
    destruct (geodetic2geocentric_ (DG2RAD * c0) c2 WGS84_A WGS84_EPS2) as [p z] eqn:E1.
    destruct (geodetic2geocentric_ (DG2RAD * d0) d2 WGS84_A WGS84_EPS2) as [p' z'] eqn:E2.
    assert (Hp : 0 < p) by (eapply geod_rad_nonneg; [|exact Ha|exact E1|]; lra).
    assert (Hp' : 0 < p') by (eapply geod_rad_nonneg; [|exact Ha'|exact E2|]; lra).
    injection E as X Y Z. subst z'.
    destruct (polar_eq p p' c1 d1 Hp Hp' Hlon Hlon' X Y) as [Ep Elon]. subst p' d1.
    apply evolute_solvable in Hb. rewrite norm2d_lon in Hb by lra.
    assert (G1 : geocentric2geodetic_ p z WGS84_A WGS84_EPS2 = (DG2RAD * c0, c2)).
    { apply geodetic_unique; [exact A_pos|exact E2_range|apply rad_lat_le; lra|apply above_curv, Ha|exact E1|exact Hb]. }
    assert (G2 : geocentric2geodetic_ p z WGS84_A WGS84_EPS2 = (DG2RAD * d0, d2)).
    { apply geodetic_unique; [exact A_pos|exact E2_range|apply rad_lat_le; lra|apply above_curv, Ha'|exact E2|exact Hb]. }
    rewrite G1 in G2. injection G2 as G2 G3.
    rewrite <- (deg_rad c0), <- (deg_rad d0), G2, G3. reflexivity.
  - destruct Hu as [Hl [Hlon Hr]]. destruct Hu' as [Hl' [Hlon' Hr']].
    rewrite !position_sph_eq in E. injection E as X Y Z.
    destruct (polar_eq _ _ c1 d1 (Rmult_lt_0_compat _ _ Hr (cos_lat_pos c0 Hl))
      (Rmult_lt_0_compat _ _ Hr' (cos_lat_pos d0 Hl')) Hlon Hlon' X Y) as [Ep Elon].
    destruct (sph_eq c2 d2 c0 d0) as [Er Et]; auto; try lra.
    subst. reflexivity.
  - exact E.
Qed.

(** the conversions compose *)
Lemma convert_compose : forall A B C v, unique_coordinates A v -> beyond_evolute (position A v) ->
  convert (convert v A B) B C = convert v A C.
Proof.
  intros A B C v Hu Hb.
  assert (HuB := convert_unique A B v Hu (fun _ => Hb)).
  destruct (convert_position A B v (unique_usual _ _ Hu) (fun _ => Hb)) as [EB _].
  destruct (convert_position A C v (unique_usual _ _ Hu) (fun _ => Hb)) as [EC _].
  assert (HbB : beyond_evolute (position B (convert v A B))) by (rewrite EB; exact Hb).
  destruct (convert_position B C _ (unique_usual _ _ HuB) (fun _ => HbB)) as [EBC _].
  apply (coordinates_unique C).
  - apply convert_unique; [exact HuB|intros _; exact HbB].
  - apply convert_unique; [exact Hu|intros _; exact Hb].
  - intros _. rewrite EBC. exact HbB.
  - rewrite EBC, EB, EC. reflexivity.
Qed.

Lemma convert_same : forall A v, convert v A A = v.
Proof. intros [] v; reflexivity. Qed.

(** without the geodetic coordinates the evolute does not matter *)
Lemma sph_cart_round : forall v, unique_coordinates CT_GEOCENTRIC_SPHERICAL v ->
  convert (convert v CT_GEOCENTRIC_SPHERICAL CT_GEOCENTRIC_CARTESIAN)
    CT_GEOCENTRIC_CARTESIAN CT_GEOCENTRIC_SPHERICAL = v.
Proof.
  intros v Hu.
  assert (HN : forall ct pt, ct <> CT_GEODETIC_ABOVE_WGS84 -> needs ct pt) by (intros ct pt H1 H2; contradiction).
  assert (HuB := convert_unique CT_GEOCENTRIC_SPHERICAL CT_GEOCENTRIC_CARTESIAN v Hu ltac:(apply HN; discriminate)).
  destruct (convert_position CT_GEOCENTRIC_SPHERICAL CT_GEOCENTRIC_CARTESIAN v (unique_usual _ _ Hu)
    ltac:(apply HN; discriminate)) as [EB _].
  destruct (convert_position CT_GEOCENTRIC_CARTESIAN CT_GEOCENTRIC_SPHERICAL _ (unique_usual _ _ HuB)
    ltac:(apply HN; discriminate)) as [EC _].
  apply (coordinates_unique CT_GEOCENTRIC_SPHERICAL).
  - apply convert_unique; [exact HuB|apply HN; discriminate].
  - exact Hu.
  - apply HN; discriminate.
  - rewrite EC, EB. reflexivity.
Qed.

Lemma cart_sph_round : forall pt, pt <> (0, 0, 0) ->
  convert (convert pt CT_GEOCENTRIC_CARTESIAN CT_GEOCENTRIC_SPHERICAL)
    CT_GEOCENTRIC_SPHERICAL CT_GEOCENTRIC_CARTESIAN = pt.
Proof.
  intros [[x y] z] H. destruct (cart_to_sph x y z H) as [lat [lon [r [E [_ [_ [_ [_ Hp]]]]]]]].
  rewrite E, cart_position. exact Hp.
Qed.

(** the poles *)
Lemma sph_cart_round_lat : forall lat lon r, - 90 <= lat <= 90 -> 0 < r ->
  exists lon', convert (convert (lat, lon, r) CT_GEOCENTRIC_SPHERICAL CT_GEOCENTRIC_CARTESIAN)
    CT_GEOCENTRIC_CARTESIAN CT_GEOCENTRIC_SPHERICAL = (lat, lon', r).
Proof.
  intros lat lon r Hl Hr.
  assert (Hu : usual CT_GEOCENTRIC_SPHERICAL (lat, lon, r)) by (split; assumption).
  assert (H0 := usual_not_origin _ _ Hu).
  rewrite cart_position.
  rewrite position_sph_eq in *.
  destruct (cart_to_sph _ _ _ H0) as [lat' [lon' [r' [E [Hl' [Hlon' [Hr' [_ Hp]]]]]]]].
  rewrite E. exists lon'. rewrite position_sph_eq in Hp. injection Hp as X Y Z.
  assert (Hc : r' * cos (DG2RAD * lat') = r * cos (DG2RAD * lat)).
  { assert (H1 := cos_lat_nonneg lat Hl). assert (H2 := cos_lat_nonneg lat' Hl').
    rewrite <- (norm2d_lon (r * cos (DG2RAD * lat)) (DG2RAD * lon)) by (apply Rmult_le_pos; lra).
    rewrite <- (norm2d_lon (r' * cos (DG2RAD * lat')) (DG2RAD * lon')) by (apply Rmult_le_pos; lra).
    rewrite X, Y. reflexivity. }
  destruct (sph_eq r' r lat' lat) as [-> ->]; auto.
Qed.

Lemma geod_unique_api : forall lat lon h p z, - 90 <= lat <= 90 -> above_equator_plane lat h ->
  beyond_evolute (position CT_GEODETIC_ABOVE_WGS84 (lat, lon, h)) ->
  geodetic2geocentric_ (DG2RAD * lat) h WGS84_A WGS84_EPS2 = (p, z) ->
  0 <= p /\ geocentric2geodetic_ p z WGS84_A WGS84_EPS2 = (DG2RAD * lat, h).
Proof.
  intros lat lon h p z Hl Ha Hb E. rewrite position_geod_eq, E in Hb.
  destruct (geod_rad_nonneg lat h p z Hl Ha E) as [Hp _].
  apply evolute_solvable in Hb. rewrite norm2d_lon in Hb by exact Hp.
  split; [exact Hp|].
  apply geodetic_unique; [exact A_pos|exact E2_range|apply rad_lat_le; lra|apply above_curv, Ha|exact E|exact Hb].
Qed.

Lemma geod_sph_round : forall lat lon h, - 90 <= lat <= 90 -> above_equator_plane lat h ->
  beyond_evolute (position CT_GEODETIC_ABOVE_WGS84 (lat, lon, h)) ->
  convert (convert (lat, lon, h) CT_GEODETIC_ABOVE_WGS84 CT_GEOCENTRIC_SPHERICAL)
    CT_GEOCENTRIC_SPHERICAL CT_GEODETIC_ABOVE_WGS84 = (lat, lon, h).
Proof.
  intros lat lon h Hl Ha Hb.
  destruct (geodetic2geocentric_ (DG2RAD * lat) h WGS84_A WGS84_EPS2) as [p z] eqn:E.
  destruct (geod_unique_api lat lon h p z Hl Ha Hb E) as [Hp Eg].
  destruct (geod_rad_nonneg lat h p z Hl Ha E) as [_ [_ H0]].
  unfold convert, get_fconv, conv_WGS84_to_sphECEF, geodetic2geocentric_sph. cbn [ct_eqb]. rewrite E.
  unfold conv_sphECEF_to_WGS84, geocentric_sph2geodetic. rewrite !rad_deg.
  destruct (atan2_cos_sin z p H0) as [Hc Hs]. rewrite Hc, Hs, Eg, !deg_rad. reflexivity.
Qed.

Lemma sph_geod_round : forall lat lon r, - 90 <= lat <= 90 -> 0 < r ->
  beyond_evolute (position CT_GEOCENTRIC_SPHERICAL (lat, lon, r)) ->
  convert (convert (lat, lon, r) CT_GEOCENTRIC_SPHERICAL CT_GEODETIC_ABOVE_WGS84)
    CT_GEODETIC_ABOVE_WGS84 CT_GEOCENTRIC_SPHERICAL = (lat, lon, r).
Proof.
  intros lat lon r Hl Hr Hb.
  rewrite position_sph_eq in Hb. apply evolute_solvable in Hb.
  assert (H0 := cos_lat_nonneg lat Hl).
  assert (Hp : 0 <= r * cos (DG2RAD * lat)) by (apply Rmult_le_pos; lra).
  rewrite norm2d_lon in Hb by exact Hp.
  unfold convert, get_fconv, conv_sphECEF_to_WGS84, geocentric_sph2geodetic. cbn [ct_eqb].
  destruct (geocentric2geodetic_ (r * cos (DG2RAD * lat)) (r * sin (DG2RAD * lat)) WGS84_A WGS84_EPS2)
    as [lat' h] eqn:E.
  destruct (geodetic_of_point WGS84_A WGS84_EPS2 A_pos E2_range _ _ Hp Hb lat' h E) as [_ [_ [R3 _]]].
  unfold conv_WGS84_to_sphECEF, geodetic2geocentric_sph.
  rewrite (Rmult_comm RAD2DG lat'), rad_deg, R3, deg_rad.
  assert (HPI := PI_RGT_0).
  assert (Hlr := rad_lat_le lat Hl).
  rewrite norm2d_polar, atan2_polar by lra.
  rewrite (Rmult_comm _ RAD2DG), (Rmult_comm _ RAD2DG), !deg_rad. reflexivity.
Qed.

Lemma geod_cart_round : forall lat lon h, - 90 <= lat <= 90 -> above_equator_plane lat h ->
  beyond_evolute (position CT_GEODETIC_ABOVE_WGS84 (lat, lon, h)) ->
  exists lon', convert (convert (lat, lon, h) CT_GEODETIC_ABOVE_WGS84 CT_GEOCENTRIC_CARTESIAN)
    CT_GEOCENTRIC_CARTESIAN CT_GEODETIC_ABOVE_WGS84 = (lat, lon', h)
    /\ (- 90 < lat < 90 -> usual_longitude lon -> lon' = lon).
Proof.
  intros lat lon h Hl Ha Hb.
  destruct (geodetic2geocentric_ (DG2RAD * lat) h WGS84_A WGS84_EPS2) as [p z] eqn:E.
  destruct (geod_unique_api lat lon h p z Hl Ha Hb E) as [Hp Eg].
  destruct (geod_rad_nonneg lat h p z Hl Ha E) as [_ [Hp' _]].
  exists (RAD2DG * atan2 (p * sin (DG2RAD * lon)) (p * cos (DG2RAD * lon))).
  split.
  - unfold convert, get_fconv, conv_WGS84_to_cartECEF, geodetic2geocentric_cart. cbn [ct_eqb]. rewrite E.
    unfold conv_cartECEF_to_WGS84, geocentric_cart2geodetic. rewrite norm2d_lon by exact Hp.
    rewrite Eg, deg_rad. reflexivity.
  - intros Hl' Hlon. rewrite atan2_polar; [apply deg_rad|exact (Hp' Hl')|apply rad_lon, Hlon].
Qed.

Lemma cart_geod_round : forall pt, beyond_evolute pt ->
  convert (convert pt CT_GEOCENTRIC_CARTESIAN CT_GEODETIC_ABOVE_WGS84)
    CT_GEODETIC_ABOVE_WGS84 CT_GEOCENTRIC_CARTESIAN = pt.
Proof.
  intros [[x y] z] H. destruct (cart_to_geod x y z H) as [lat [lon [h [E [_ [_ [_ [_ Hp]]]]]]]].
  rewrite E, cart_position. exact Hp.
Qed.

(** 43 km from the centre is enough *)
Lemma far_beyond : forall pt, 43 <= distance pt -> beyond_evolute pt.
Proof.
  intros [[x y] z] H. unfold distance in H. left.
  assert (H1 : 43 * 43 <= x * x + y * y + z * z).
  { assert (Hs : sqrt (x * x + y * y + z * z) * sqrt (x * x + y * y + z * z) = x * x + y * y + z * z)
      by (apply sqrt_sqrt; nra). nra. }
  assert (H2 : 0 <= x * x) by apply Rle_0_sqr. assert (H3 : 0 <= y * y) by apply Rle_0_sqr.
  assert (H4 : 0 <= z * z) by apply Rle_0_sqr.
  unfold axis_a, axis_b. lra.
Qed.

Lemma height_beyond : forall lat lon h, - 6290 <= h ->
  above_equator_plane lat h /\ beyond_evolute (position CT_GEODETIC_ABOVE_WGS84 (lat, lon, h)).
Proof.
  intros lat lon h Hh.
  assert (HN := curv_ge WGS84_A WGS84_EPS2 A_pos E2_range (DG2RAD * lat)).
  assert (HE := E2_range).
  assert (Hlow : 6335 <= WGS84_A * (1 - WGS84_EPS2)).
  { rewrite E2_compl. change WGS84_A with axis_a.
    replace (axis_a * (axis_b * axis_b / (axis_a * axis_a))) with (axis_b * axis_b / axis_a)
      by (field; unfold axis_a; lra).
    apply Rmult_le_reg_r with axis_a; [unfold axis_a; lra|].
    replace (axis_b * axis_b / axis_a * axis_a) with (axis_b * axis_b) by (field; unfold axis_a; lra).
    unfold axis_a, axis_b. lra. }
  split.
  - apply above_curv. nra.
  - apply far_beyond. rewrite position_geod_eq. unfold geodetic2geocentric_.
    fold (curv WGS84_A WGS84_EPS2 (DG2RAD * lat)).
    set (N := curv WGS84_A WGS84_EPS2 (DG2RAD * lat)) in *.
    assert (H1 := sin2_cos2 (DG2RAD * lat)). assert (H2 := sin2_cos2 (DG2RAD * lon)). unfold Rsqr in *.
    set (s := sin (DG2RAD * lat)) in *. set (c := cos (DG2RAD * lat)) in *.
    set (s' := sin (DG2RAD * lon)) in *. set (c' := cos (DG2RAD * lon)) in *.
    unfold distance. rewrite <- (sqrt_square 43) by lra. apply sqrt_le_1; [lra| |].
    + assert (0 <= (N + h) * c * c' * ((N + h) * c * c')) by apply Rle_0_sqr.
      assert (0 <= (N + h) * c * s' * ((N + h) * c * s')) by apply Rle_0_sqr.
      assert (0 <= (N * (1 - WGS84_EPS2) + h) * s * ((N * (1 - WGS84_EPS2) + h) * s)) by apply Rle_0_sqr. lra.
    + replace ((N + h) * c * c' * ((N + h) * c * c') + (N + h) * c * s' * ((N + h) * c * s')
        + (N * (1 - WGS84_EPS2) + h) * s * ((N * (1 - WGS84_EPS2) + h) * s))
        with ((N + h) * (N + h) * (c * c) * (s' * s' + c' * c')
              + (N * (1 - WGS84_EPS2) + h) * (N * (1 - WGS84_EPS2) + h) * (s * s)) by ring.
      rewrite H2.
      assert (G1 : 43 <= N * (1 - WGS84_EPS2) + h) by nra.
      assert (G2 : N * (1 - WGS84_EPS2) + h <= N + h).
      { assert (HA := A_pos). assert (0 <= N * WGS84_EPS2) by (apply Rmult_le_pos; lra). lra. }
      set (m := N * (1 - WGS84_EPS2) + h) in *. set (n := N + h) in *.
      assert (43 * 43 <= m * m) by nra. assert (43 * 43 <= n * n) by nra.
      assert (0 <= c * c) by apply Rle_0_sqr. assert (0 <= s * s) by apply Rle_0_sqr.
      assert (43 * 43 * (c * c) <= n * n * (c * c)) by (apply Rmult_le_compat_r; assumption).
      assert (43 * 43 * (s * s) <= m * m * (s * s)) by (apply Rmult_le_compat_r; assumption).
      lra.
Qed.
