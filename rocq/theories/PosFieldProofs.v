(** The evaluation of the expansion depends on the position only. *)
From Coq Require Import Bool List Arith ZArith Reals Lia Lra.
From Coquelicot Require Import Coquelicot.
From Verif Require Import ArrModel LegendreModel LegendreSpec LegendrePoly LegendreGauss LegendreLow LegendreHigh GeoModel CoefModel
  ShEvalModel ShEvalSpec ShEvalSum ShEvalDeriv ShEvalHarmonic ShEvalProofs ShEvalGradProofs ShEvalLinProofs ShEvalExamples
  CoordModel CoordSpec CoordProofs DipoleProofs ConvertProofs FrameProofs ShFrameProofs FieldSpec GradientProofs MmaFieldSpec PositionProofs MmaFieldProofs
  CoordFieldSpec CoordFieldProofs.
Import ListNotations.
Open Scope R_scope.
Set Bullet Behavior "Strict Subproofs".

Lemma val_gradient_at D internal lat lon r coef : -90 <= lat <= 90 -> 0 < r ->
  (val_el D internal (DG2RAD * lat) (DG2RAD * lon) r 6371.2 coef, val_az D internal (DG2RAD * lat) (DG2RAD * lon) r 6371.2 coef,
   val_rd D internal (DG2RAD * lat) (DG2RAD * lon) r 6371.2 coef) = gradient_at internal (table coef) D lat lon r.
Proof.
  intros Hl Hr. assert (Hr0 : r <> 0) by lra. pose proof (lat_range lat Hl) as Hth. unfold gradient_at. cbv zeta.
  set (th := DG2RAD * lat) in *. set (ph := DG2RAD * lon). pose proof (near_cos th) as Hn. apply triple.
  - apply (Rmult_eq_reg_l r); [|exact Hr0]. rewrite val_el_eq by auto using ref_nz. field. exact Hr0.
  - unfold east_gh. destruct (near th).
    + rewrite val_az_near by auto using ref_nz. now rewrite az_over_cos_low.
    + assert (C : cos th <> 0). { intro C. rewrite C, Rabs_R0 in Hn. lra. }
      rewrite <- az_over_cos_eq, <- val_az_eq by auto using ref_nz. field. auto.
  - now rewrite val_rd_eq by auto using ref_nz.
Qed.

Lemma usual_cart_ok ci x : usual ci x -> cart_ok ci x.
Proof. intros U ->. destruct x as [[a b] c]. exact U. Qed.

Lemma same_position ci ci' co co' x x' csize coef internal deg mem mem' :
  (1 <= csize < 2 ^ 50)%Z -> usual ci x -> usual ci' x' -> position ci x = position ci' x' ->
  exists v g g',
    sheval (nd0 x) csize (nd0 coef) ci co SM_POTENTIAL_AND_GRADIENT internal deg 1 (1, 1, 1) mem = Ok ([], [(Some v, Some g)]) /\
    sheval (nd0 x') csize (nd0 coef) ci' co' SM_POTENTIAL_AND_GRADIENT internal deg 1 (1, 1, 1) mem' = Ok ([], [(Some v, Some g')]) /\
    in_space co (convert x ci co) g = in_space co' (convert x' ci' co') g'.
Proof.
  intros Hc U U' E. rewrite !sheval_frame by (auto using usual_cart_ok).
  destruct (convert_position ci CT_GEOCENTRIC_SPHERICAL x U ltac:(intro; discriminate)) as [P Us].
  destruct (convert_position ci' CT_GEOCENTRIC_SPHERICAL x' U' ltac:(intro; discriminate)) as [P' Us'].
  pose proof (rotation_space ci co x) as Sp. pose proof (rotation_space ci' co' x') as Sp'. unfold vec in *.
  destruct (convert x ci CT_GEOCENTRIC_SPHERICAL) as [[lat lon] r]. destruct (convert x' ci' CT_GEOCENTRIC_SPHERICAL) as [[lat' lon'] r'].
  destruct (gradient_position internal (table coef) (eff_degree csize deg) lat lon r lat' lon' r' Us Us' ltac:(congruence)) as [Ev Eg].
  destruct Us as [Hl Hr], Us' as [Hl' Hr'].
  unfold frame_value. cbn [value omap]. rewrite !val_gradient_at by assumption.
  assert (N1 : r <> 0) by lra. assert (N2 : r' <> 0) by lra.
  rewrite !val_v_eq by auto using lat_range, ref_nz. rewrite !Rmult_1_r, Ev.
  do 3 eexists. split; [reflexivity|]. split; [reflexivity|]. rewrite !vmul_1, Sp, Sp'. exact Eg.
Qed.

(** ** Latitudes beyond the poles *)
Lemma potential_g11 lat lon mem : exists g,
  sheval (nd0 (lat, lon, 6371.2)) 3 (nd0 g11) CT_GEOCENTRIC_SPHERICAL CT_GEOCENTRIC_SPHERICAL SM_POTENTIAL_AND_GRADIENT true (-1) 1 (1, 1, 1) mem
  = Ok ([], [(Some (6371.2 * (cos (asin (sin (DG2RAD * lat))) * cos (DG2RAD * lon))), Some g)]).
Proof.
  rewrite sheval_frame by (try lia; discriminate). rewrite convert_same. unfold frame_value. cbn [value omap].
  rewrite (eff_degree_spec 3 (-1) 1 ltac:(lia) deg3), !Rmult_1_r. eexists.
  match goal with |- context [val_v ?a ?b ?c ?d ?e ?f ?g] => assert (E : val_v a b c d e f g = 6371.2 * (cos (asin (sin c)) * cos d)); [|now rewrite E] end.
  unfold val_v. cbn [sum_f_R0]. rewrite !table_index. change (table g11 0 0) with (0, 0). change (table g11 1 0) with (0, 0). change (table g11 1 1) with (1, 0).
  assert (S11 : forall t, schmidt 1 1 t = cos t).
  { intro t. rewrite schmidt_nf, L_diag. assert (Nn : nf 1 1 = 1) by (unfold nf; cbn; replace (2 * 1 / (1 + 1)) with 1 by field; apply sqrt_1).
    rewrite Nn. cbn. field. }
  rewrite S11. unfold harmonic. cbn [fst snd INR]. unfold rr. rewrite ref_one, Rdiv_1, !pow1. ring_simplify. rewrite ?Rmult_1_l. ring.
Qed.

Lemma degrees_60 : DG2RAD * 60 = PI / 3 /\ DG2RAD * 120 = PI - PI / 3 /\ DG2RAD * 180 = PI.
Proof. unfold DG2RAD. split; [|split]; field. Qed.

Lemma beyond_pole : exists lat lon lat' lon' rad csize coef internal deg,
  position CT_GEOCENTRIC_SPHERICAL (lat, lon, rad) = position CT_GEOCENTRIC_SPHERICAL (lat', lon', rad) /\
  usual CT_GEOCENTRIC_SPHERICAL (lat', lon', rad) /\
  forall mem, exists v g v' g',
    sheval (nd0 (lat, lon, rad)) csize (nd0 coef) CT_GEOCENTRIC_SPHERICAL CT_GEOCENTRIC_SPHERICAL SM_POTENTIAL_AND_GRADIENT internal deg 1 (1, 1, 1) mem = Ok ([], [(Some v, Some g)]) /\
    sheval (nd0 (lat', lon', rad)) csize (nd0 coef) CT_GEOCENTRIC_SPHERICAL CT_GEOCENTRIC_SPHERICAL SM_POTENTIAL_AND_GRADIENT internal deg 1 (1, 1, 1) mem = Ok ([], [(Some v', Some g')]) /\
    v <> v'.
Proof.
  destruct degrees_60 as (D60 & D120 & D180). pose proof PI_RGT_0 as Pp.
  assert (A : asin (sin (DG2RAD * 120)) = PI / 3). { rewrite D120, <- sin_PI_x. replace (PI - (PI - PI / 3)) with (PI / 3) by ring. apply asin_sin. lra. }
  assert (A' : asin (sin (DG2RAD * 60)) = PI / 3) by (rewrite D60; apply asin_sin; lra).
  exists 120, 0, 60, 180, 6371.2, 3%Z, g11, true, (-1)%Z. split; [|split].
  - rewrite !position_sph_eq, D60, D120, D180, Rmult_0_r, cos_0, sin_0, cos_PI, sin_PI, <- (sin_PI_x (PI / 3)).
    replace (cos (PI - PI / 3)) with (- cos (PI / 3)) by (rewrite cos_minus, cos_PI, sin_PI; ring). apply triple; ring.
  - cbn [usual]. lra.
  - intro mem. destruct (potential_g11 120 0 mem) as [g E]. destruct (potential_g11 60 180 mem) as [g' E'].
    rewrite A in E. rewrite A', D180 in E'. do 4 eexists. split; [exact E|]. split; [exact E'|].
    rewrite Rmult_0_r, cos_0, cos_PI, cos_PI3. lra.
Qed.

(** ** The field *)
Lemma field_one internal gh N d0 d1 d2 e0 e1 e2 : usual CT_GEOCENTRIC_SPHERICAL (d0, d1, d2) -> usual CT_GEOCENTRIC_SPHERICAL (e0, e1, e2) ->
  position CT_GEOCENTRIC_SPHERICAL (d0, d1, d2) = position CT_GEOCENTRIC_SPHERICAL (e0, e1, e2) ->
  exists w, (exists g, field_of internal gh N d0 d1 d2 g) /\
    (forall g, field_of internal gh N d0 d1 d2 g -> in_space CT_GEOCENTRIC_SPHERICAL (d0, d1, d2) g = w) /\
    (forall g, field_of internal gh N e0 e1 e2 g -> in_space CT_GEOCENTRIC_SPHERICAL (e0, e1, e2) g = w).
Proof.
  intros U U' E. destruct (field_exists internal gh N d0 d1 d2 (proj1 U) ltac:(pose proof (proj2 U); lra)) as [g G].
  exists (in_space CT_GEOCENTRIC_SPHERICAL (d0, d1, d2) g). split; [now exists g|]. split; intros g' G'.
  - exact (field_position internal gh N _ _ _ _ _ _ _ _ U U eq_refl G' G).
  - exact (field_position internal gh N _ _ _ _ _ _ _ _ U' U (eq_sym E) G' G).
Qed.

(** ** Examples *)
Lemma ex_positions :
  (position CT_GEOCENTRIC_SPHERICAL (30, -180, 7000) = position CT_GEOCENTRIC_SPHERICAL (30, 180, 7000) /\
   usual CT_GEOCENTRIC_SPHERICAL (30, -180, 7000) /\ usual CT_GEOCENTRIC_SPHERICAL (30, 180, 7000)) /\
  (position CT_GEOCENTRIC_SPHERICAL (90, 0, 7000) = position CT_GEOCENTRIC_SPHERICAL (90, 45, 7000) /\
   usual CT_GEOCENTRIC_SPHERICAL (90, 0, 7000) /\ usual CT_GEOCENTRIC_SPHERICAL (90, 45, 7000)) /\
  (position CT_GEOCENTRIC_CARTESIAN (0, 0, 7000) = position CT_GEOCENTRIC_SPHERICAL (90, 45, 7000) /\ usual CT_GEOCENTRIC_CARTESIAN (0, 0, 7000)).
Proof.
  assert (E90 : DG2RAD * 90 = PI / 2) by (unfold DG2RAD; field). destruct degrees_60 as (_ & _ & D180).
  assert (M180 : DG2RAD * -180 = - PI) by (unfold DG2RAD; field).
  split; [|split]; [split; [|split; cbn [usual]; lra]|split; [|split; cbn [usual]; lra]|split].
  - rewrite !position_sph_eq, M180, D180, cos_neg, sin_neg, sin_PI. apply triple; ring.
  - rewrite !position_sph_eq, E90, cos_PI2. apply triple; ring.
  - rewrite position_sph_eq, E90, cos_PI2, sin_PI2. cbn [position]. apply triple; ring.
  - cbn [usual]. intro K. injection K. lra.
Qed.

(** at the north pole the vector is the same for all longitudes, although its components are not *)
Lemma ex_pole mem : forall v g v' g',
  sheval (nd0 (90, 0, 6371.2)) 3 (nd0 g11) CT_GEOCENTRIC_SPHERICAL CT_GEOCENTRIC_SPHERICAL SM_POTENTIAL_AND_GRADIENT true (-1) 1 (1, 1, 1) mem = Ok ([], [(Some v, Some g)]) ->
  sheval (nd0 (90, 90, 6371.2)) 3 (nd0 g11) CT_GEOCENTRIC_SPHERICAL CT_GEOCENTRIC_SPHERICAL SM_POTENTIAL_AND_GRADIENT true (-1) 1 (1, 1, 1) mem = Ok ([], [(Some v', Some g')]) ->
  snd (fst g) = 0 /\ snd (fst g') = -1.
Proof.
  intros v g v' g'. rewrite !sheval_frame by (try lia; discriminate). rewrite !convert_same. unfold frame_value. cbn [value omap].
  rewrite (eff_degree_spec 3 (-1) 1 ltac:(lia) deg3), !Rmult_1_r. cbn [rotation]. rewrite !vmul_1. intros E E'.
  assert (E90 : DG2RAD * 90 = PI / 2) by (unfold DG2RAD; field). rewrite Rmult_0_r, E90 in *. pose proof PI_RGT_0 as Pp.
  assert (K : forall p, val_az 1 true (PI / 2) p 6371.2 6371.2 g11 = - sin p).
  { intro p. rewrite val_az_near by (try exact ref_nz; try lra; rewrite cos_PI2, Rabs_R0; lra). cbn [sum_f_R0 Nat.leb]. change (table g11 1 1) with (1, 0).
    unfold harmonic'. cbn [fst snd INR]. rewrite !Rmult_1_l, sin_PI2, L_diag. unfold radial. rewrite ref_one, !pow1.
    assert (Nn : nf 1 1 = 1) by (unfold nf; cbn; replace (2 * 1 / (1 + 1)) with 1 by field; apply sqrt_1).
    assert (Q : INR (fact (2 * 1)) / (2 ^ 1 * INR (fact 1)) = 1) by (cbn; field).
    rewrite Nn, Q. match goal with |- ?l = _ => transitivity (6371.2 / 6371.2 * - sin p); [unfold Rdiv; ring|] end. rewrite ref_one. ring. }
  injection E as _ <-. injection E' as _ <-. cbn [fst snd]. rewrite !K, sin_0, sin_PI2. lra.
Qed.
