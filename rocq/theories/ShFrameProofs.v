(** The coordinate systems of the evaluation of spherical harmonics. *)

From Coq Require Import Reals Lra ZArith Lia List Bool.
From Coquelicot Require Import Coquelicot.
From Verif Require Import SizeModel LegendreModel GeoModel CoefModel ShEvalModel ShEvalSpec ShEvalProofs ShEvalGradProofs ShEvalLinProofs
  CoordModel CoordSpec Atan2Proofs FerrariProofs CoordProofs ConvertProofs FrameProofs DipoleProofs.
Import ListNotations.
Open Scope R_scope.

Definition omap {A B} (f : A -> B) (x : option A) : option B :=
  match x with Some a => Some (f a) | None => None end.

(** the evaluation through the spherical coordinates and the rotation of the gradient *)
Definition frame_value (D : nat) (internal : bool) (mode : sheval_mode) (coef : coefs)
  (sp : R) (sg : R * R * R) (co : coord_type) (sph out : vec) : option R * option vec :=
  let '(lat, lon, r) := sph in
  let '(fpot, fgrd) := value D internal (DG2RAD * lat) (DG2RAD * lon) r 6371.2 coef mode in
  (omap (fun v => v * sp) fpot, omap (fun g => vmul (rotation CT_GEOCENTRIC_SPHERICAL co g sph out) sg) fgrd).

Definition cart_ok (ci : coord_type) (v : vec) : Prop := ci = CT_GEOCENTRIC_CARTESIAN -> v <> (0, 0, 0).

Lemma sph_geod_lat : forall x y z, (x, y, z) <> (0, 0, 0) ->
  let '(r, th, ph) := cart2sph x y z in
  fst (fst (geocentric_sph2geodetic r th ph WGS84_A WGS84_EPS2))
  = fst (fst (convert (x, y, z) CT_GEOCENTRIC_CARTESIAN CT_GEODETIC_ABOVE_WGS84)).
Proof.
  intros x y z H0. unfold cart2sph.
  assert (Hn : x <> 0 \/ y <> 0 \/ z <> 0).
  { destruct (Req_dec x 0); [|tauto]. destruct (Req_dec y 0); [|tauto]. destruct (Req_dec z 0); [|tauto].
    exfalso. apply H0. congruence. }
  assert (Hp := norm2d_nonneg x y).
  assert (Hpz : norm2d x y <> 0 \/ z <> 0).
  { destruct Hn as [H|[H|H]]; [left|left|right; exact H];
    assert (0 < norm2d x y) by (apply norm2d_pos; tauto); lra. }
  rewrite norm3d_norm2d, asin_atan2 by assumption.
  destruct (atan2_cos_sin z (norm2d x y) Hpz) as [Hc Hs].
  unfold geocentric_sph2geodetic, convert, get_fconv, conv_cartECEF_to_WGS84, geocentric_cart2geodetic.
  cbn [ct_eqb]. rewrite Hc, Hs.
  destruct (geocentric2geodetic_ (norm2d x y) z WGS84_A WGS84_EPS2) as [lat h]. reflexivity.
Qed.

Lemma point_value_frame : forall internal D ci co sp sg mode v coef, cart_ok ci v ->
  point_value (cfg0 internal D ci co sp sg) mode v coef =
  frame_value D internal mode coef sp sg co (convert v ci CT_GEOCENTRIC_SPHERICAL) (convert v ci co).
Proof.
  intros internal D ci co sp [[s0 s1] s2] mode [[x y] z] coef Hc.
  unfold point_value, frame_value, cfg0, model_init, input_coordinates, project_gradient.
  cbn [fst coord_in coord_out elps_a elps_eps2 degree is_internal crad_ref scale_potential
    scale_gradient0 scale_gradient1 scale_gradient2].
  destruct ci.
  - destruct (geodetic2geocentric_sph x y z WGS84_A WGS84_EPS2) as [[r th] ph] eqn:E.
    assert (Es : convert (x, y, z) CT_GEODETIC_ABOVE_WGS84 CT_GEOCENTRIC_SPHERICAL = (th * RAD2DG, ph * RAD2DG, r))
      by (unfold convert, get_fconv, conv_WGS84_to_sphECEF; cbn [ct_eqb]; rewrite E; reflexivity).
    rewrite Es, !rad_deg.
    destruct (value D internal th ph r 6371.2 coef mode) as [fp fg].
    f_equal. destruct fg as [[[a b] c]|]; [|reflexivity]. cbn [omap].
    destruct co.
    + unfold convert. cbn [ct_eqb rotation]. unfold vrot_sph2geod.
      replace (- DG2RAD * (x - th * RAD2DG)) with (th - DG2RAD * x)
        by (rewrite <- (rad_deg th) at 1; ring).
      destruct (rot2d c a (sin (th - DG2RAD * x)) (cos (th - DG2RAD * x))). reflexivity.
    + rewrite Es. reflexivity.
    + cbn [rotation]. destruct (convert (x, y, z) CT_GEODETIC_ABOVE_WGS84 CT_GEOCENTRIC_CARTESIAN) as [[p q] w].
      unfold vrot_sph2cart. rewrite !rad_deg.
      destruct (rot2d c a (sin th) (cos th)) as [t o2]. destruct (rot2d t b (sin ph) (cos ph)). reflexivity.
  - rewrite (convert_same CT_GEOCENTRIC_SPHERICAL).
    destruct (value D internal (DG2RAD * x) (DG2RAD * y) z 6371.2 coef mode) as [fp fg].
    f_equal. destruct fg as [[[a b] c]|]; [|reflexivity]. cbn [omap].
    destruct co.
    + unfold convert. cbn [ct_eqb rotation get_fconv]. unfold conv_sphECEF_to_WGS84.
      destruct (geocentric_sph2geodetic z (DG2RAD * x) (DG2RAD * y) WGS84_A WGS84_EPS2) as [[gl gn] gh].
      unfold vrot_sph2geod.
      replace (- DG2RAD * (gl - x)) with (DG2RAD * x - DG2RAD * gl) by ring.
      destruct (rot2d c a (sin (DG2RAD * x - DG2RAD * gl)) (cos (DG2RAD * x - DG2RAD * gl))). reflexivity.
    + reflexivity.
    + cbn [rotation]. destruct (convert (x, y, z) CT_GEOCENTRIC_SPHERICAL CT_GEOCENTRIC_CARTESIAN) as [[p q] w].
      unfold vrot_sph2cart.
      destruct (rot2d c a (sin (DG2RAD * x)) (cos (DG2RAD * x))) as [t o2].
      destruct (rot2d t b (sin (DG2RAD * y)) (cos (DG2RAD * y))). reflexivity.
  - assert (Hg := sph_geod_lat x y z (Hc eq_refl)).
    destruct (cart2sph x y z) as [[r th] ph] eqn:E.
    assert (Es : convert (x, y, z) CT_GEOCENTRIC_CARTESIAN CT_GEOCENTRIC_SPHERICAL = (th * RAD2DG, ph * RAD2DG, r))
      by (unfold convert, get_fconv, conv_cartECEF_to_sphECEF; cbn [ct_eqb]; rewrite E; reflexivity).
    rewrite Es, !rad_deg.
    destruct (value D internal th ph r 6371.2 coef mode) as [fp fg].
    f_equal. destruct fg as [[[a b] c]|]; [|reflexivity]. cbn [omap].
    destruct co.
    + cbn [rotation]. destruct (convert (x, y, z) CT_GEOCENTRIC_CARTESIAN CT_GEODETIC_ABOVE_WGS84) as [[gl gn] gh].
      destruct (geocentric_sph2geodetic r th ph WGS84_A WGS84_EPS2) as [[gl' gn'] gh'].
      cbn [fst] in Hg. subst gl'. unfold vrot_sph2geod.
      replace (- DG2RAD * (gl - th * RAD2DG)) with (th - DG2RAD * gl)
        by (rewrite <- (rad_deg th) at 1; ring).
      destruct (rot2d c a (sin (th - DG2RAD * gl)) (cos (th - DG2RAD * gl))). reflexivity.
    + rewrite Es. reflexivity.
    + cbn [rotation]. unfold convert. cbn [ct_eqb].
      unfold vrot_sph2cart. rewrite !rad_deg.
      destruct (rot2d c a (sin th) (cos th)) as [t o2]. destruct (rot2d t b (sin ph) (cos ph)). reflexivity.
Qed.

Lemma sheval_frame : forall v csize coef ci co mode internal deg sp sg mem,
  (1 <= csize < 2 ^ 50)%Z -> cart_ok ci v ->
  sheval (nd0 v) csize (nd0 coef) ci co mode internal deg sp sg mem
  = Ok ([], [frame_value (eff_degree csize deg) internal mode coef sp sg co
               (convert v ci CT_GEOCENTRIC_SPHERICAL) (convert v ci co)]).
Proof.
  intros v csize coef ci co mode internal deg sp sg mem Hs Hc.
  destruct (call_ok_size csize deg Hs) as [H1 H2].
  rewrite sheval_point by assumption. rewrite point_value_frame by assumption. reflexivity.
Qed.

Lemma vmul_1 : forall v, vmul v (1, 1, 1) = v.
Proof. intros [[a b] c]. cbn [vmul]. apply triple_eq; ring. Qed.

Lemma value_gradient : forall D internal clat clon crad ref coef,
  exists g, value D internal clat clon crad ref coef SM_GRADIENT = (None, Some g).
Proof. intros. eexists. reflexivity. Qed.

(** the output system rotates the gradient *)
Lemma output_rotation : forall v csize coef ci co internal deg mem g,
  (1 <= csize < 2 ^ 50)%Z -> cart_ok ci v ->
  sheval (nd0 v) csize (nd0 coef) ci CT_GEOCENTRIC_SPHERICAL SM_GRADIENT internal deg 1 (1, 1, 1) mem
    = Ok ([], [(None, Some g)]) ->
  exists g',
    vrotate g (Some (convert v ci CT_GEOCENTRIC_SPHERICAL)) (Some (convert v ci co))
      (ct_number CT_GEOCENTRIC_SPHERICAL) (ct_number co) = Ok g' /\
    sheval (nd0 v) csize (nd0 coef) ci co SM_GRADIENT internal deg 1 (1, 1, 1) mem = Ok ([], [(None, Some g')]) /\
    magnitude g' = magnitude g.
Proof.
  intros v csize coef ci co internal deg mem g Hs Hc H.
  rewrite sheval_frame in H by assumption. rewrite sheval_frame by assumption.
  unfold frame_value in *.
  destruct (convert v ci CT_GEOCENTRIC_SPHERICAL) as [[lat lon] r] eqn:E.
  destruct (value_gradient (eff_degree csize deg) internal (DG2RAD * lat) (DG2RAD * lon) r 6371.2 coef) as [g0 Eg].
  rewrite Eg in *. cbn [omap] in *. rewrite vmul_1 in *. cbn [rotation] in H.
  assert (Hg : g = g0) by congruence. subst g.
  exists (rotation CT_GEOCENTRIC_SPHERICAL co g0 (lat, lon, r) (convert v ci co)).
  split; [apply vrotate_rotation|]. split; [reflexivity|].
  unfold magnitude. f_equal.
  apply (vrotate_isometry CT_GEOCENTRIC_SPHERICAL co g0 g0 (lat, lon, r) (convert v ci co)); apply vrotate_rotation.
Qed.

Lemma output_potential : forall v csize coef ci co co' mode internal deg sp sg mem,
  (1 <= csize < 2 ^ 50)%Z -> cart_ok ci v ->
  exists p g g',
    sheval (nd0 v) csize (nd0 coef) ci co mode internal deg sp sg mem = Ok ([], [(p, g)]) /\
    sheval (nd0 v) csize (nd0 coef) ci co' mode internal deg sp sg mem = Ok ([], [(p, g')]).
Proof.
  intros v csize coef ci co co' mode internal deg sp sg mem Hs Hc.
  rewrite !sheval_frame by assumption. unfold frame_value.
  destruct (convert v ci CT_GEOCENTRIC_SPHERICAL) as [[lat lon] r].
  destruct (value (eff_degree csize deg) internal (DG2RAD * lat) (DG2RAD * lon) r 6371.2 coef mode) as [fp fg].
  eexists; eexists; eexists; split; reflexivity.
Qed.

Lemma unique_cart_ok : forall A v, unique_coordinates A v -> cart_ok A v.
Proof.
  intros A v Hu E. subst A. apply unique_usual in Hu. destruct v as [[x y] z]. exact Hu.
Qed.

(** the result does not depend on the system of the position *)
Lemma input_system : forall A B x csize coef co mode internal deg sp sg mem,
  (forall ix, unique_coordinates A (get x ix) /\ beyond_evolute (position A (get x ix))) ->
  sheval (nd_map (fun v => convert v A B) x) csize coef B co mode internal deg sp sg mem
  = sheval x csize coef A co mode internal deg sp sg mem.
Proof.
  intros A B x csize coef co mode internal deg sp sg mem Hx.
  assert (Hpv : forall ix c, point_value (cfg0 internal (eff_degree csize deg) B co sp sg) mode
      (at_index (nd_map (fun v => convert v A B) x) ix) c
    = point_value (cfg0 internal (eff_degree csize deg) A co sp sg) mode (at_index x ix) c).
  { intros ix c. unfold at_index, nd_map. cbn [dims get].
    destruct (Hx (firstn (length (dims x)) ix)) as [Hu Hb].
    set (v := get x (firstn (length (dims x)) ix)) in *.
    rewrite !point_value_frame.
    - rewrite !convert_compose by assumption. reflexivity.
    - apply unique_cart_ok, Hu.
    - apply unique_cart_ok. apply convert_unique; [exact Hu|intros _; exact Hb]. }
  set (x' := nd_map (fun v => convert v A B) x) in *.
  destruct (sheval x csize coef A co mode internal deg sp sg mem) as [[od out]|e] eqn:E.
  - assert (K : exists r, sheval x' csize coef B co mode internal deg sp sg mem = Ok r).
    { apply sheval_succeeds.
      assert (Q : exists r, sheval x csize coef A co mode internal deg sp sg mem = Ok r) by (eexists; exact E).
      apply sheval_succeeds in Q. exact Q. }
    destruct K as [[od' out'] K]. rewrite K.
    destruct (sheval_value _ _ _ _ _ _ _ _ _ _ _ _ _ E) as [-> ->].
    destruct (sheval_value _ _ _ _ _ _ _ _ _ _ _ _ _ K) as [-> ->].
    change (dims x') with (dims x). do 2 f_equal. apply map_ext. intros ix. apply Hpv.
  - revert E. unfold sheval. cbv zeta. change (dims x') with (dims x).
    destruct (size_to_degree csize <? 0)%Z; [congruence|].
    destruct ((2147483647 <? size_to_degree csize)%Z && (deg <? 0)%Z); [congruence|].
    match goal with |- context [if ?c then Err ValueError else _] => destruct c end; [congruence|].
    match goal with |- context [model_init ?a ?b ?c ?d ?e ?f ?g] => destruct (model_init a b c d e f g) end.
    discriminate.
Qed.

(** the dipole frame *)
Lemma dipole_rotated : forall v csize coef lat_ngp lon_ngp ci co mode internal deg sp sg mem,
  (1 <= csize < 2 ^ 50)%Z -> position ci v <> (0, 0, 0) ->
  let m := get_dipole_rotation_matrix lat_ngp lon_ngp in
  exists p g,
    sheval (nd0 (row_times (position ci v) m)) csize (nd0 coef) CT_GEOCENTRIC_CARTESIAN CT_GEOCENTRIC_CARTESIAN
      mode internal deg sp (1, 1, 1) mem = Ok ([], [(p, g)]) /\
    match g with
    | None => sheval_dipole v csize coef lat_ngp lon_ngp ci co mode internal deg sp sg mem = Ok (p, None)
    | Some f => exists w,
        vrotate (times_column m f) None (Some (convert v ci co))
          (ct_number CT_GEOCENTRIC_CARTESIAN) (ct_number co) = Ok w /\
        sheval_dipole v csize coef lat_ngp lon_ngp ci co mode internal deg sp sg mem = Ok (p, Some (vmul w sg)) /\
        magnitude w = magnitude f
    end.
Proof.
  intros v csize coef lat_ngp lon_ngp ci co mode internal deg sp sg mem Hs Hp m.
  assert (Hm : row_times (position ci v) m <> (0, 0, 0)) by (apply row_times_nonzero; exact Hp).
  assert (Ed : convert (row_times (position ci v) m) CT_GEOCENTRIC_CARTESIAN CT_GEOCENTRIC_SPHERICAL
               = convert_to_dipole v lat_ngp lon_ngp ci).
  { unfold convert_to_dipole. cbv zeta. rewrite (cart_position ci v). reflexivity. }
  rewrite sheval_frame; [|exact Hs|intros _; exact Hm].
  rewrite Ed. rewrite (convert_same CT_GEOCENTRIC_CARTESIAN).
  unfold sheval_dipole. cbv zeta.
  set (d := convert_to_dipole v lat_ngp lon_ngp ci).
  change {| dims := []; get := fun _ : list nat => d |} with (nd0 d).
  change {| dims := []; get := fun _ : list nat => coef |} with (nd0 coef).
  rewrite sheval_frame; [|exact Hs|discriminate].
  rewrite !(convert_same CT_GEOCENTRIC_SPHERICAL). cbn [bind snd].
  unfold frame_value.
  destruct d as [[la lo] r] eqn:Edd.
  destruct (value (eff_degree csize deg) internal (DG2RAD * la) (DG2RAD * lo) r 6371.2 coef mode) as [fp fg].
  eexists; eexists. split; [reflexivity|].
  destruct fg as [g0|]; cbn [omap]; [|reflexivity].
  rewrite !vmul_1. destruct (row_times (position ci v) m) as [[x y] z]. cbn [rotation].
  set (w := rotate_vectors_from_dipole g0 lat_ngp lon_ngp (la, lo, r) v ci co).
  assert (Ew : vrotate (times_column m (vrot_sph2cart g0 la lo)) None (Some (convert v ci co))
    (ct_number CT_GEOCENTRIC_CARTESIAN) (ct_number co) = Ok w).
  { unfold w, rotate_vectors_from_dipole. destruct (convert v ci co) as [[c0 c1] c2].
    unfold vrot_from_dipole. rewrite dot_transpose. destruct co; reflexivity. }
  exists w. split; [exact Ew|]. split; [reflexivity|].
  unfold magnitude. f_equal.
  assert (Ew' : vrotate (times_column m (vrot_sph2cart g0 la lo)) (Some (0, 0, 0)) (Some (convert v ci co))
    (ct_number CT_GEOCENTRIC_CARTESIAN) (ct_number co) = Ok w).
  { rewrite <- Ew. destruct co; reflexivity. }
  rewrite (vrotate_isometry _ _ _ _ _ _ _ _ Ew' Ew').
  unfold m. apply times_column_scalar.
Qed.
