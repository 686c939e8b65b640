(** The coordinates and the base vectors returned by the code are those of the specification. *)

From Coq Require Import Bool List String Reals Arith Lia Lra.
From Coquelicot Require Import Coquelicot.
From Verif Require Import ArrModel GeoModel QdSunModel QdMltModel QdBasisModel QdApexModel.
From Verif Require Import CoordSpec SunSpec QdMltSpec QdBasisSpec QdApexSpec.
From Verif Require Import Atan2Proofs QdSunProofs QdMltProofs QdShcalcProofs QdApexProofs QdApexLoopProofs.
Import ListNotations.
Open Scope R_scope.

(** ** Geodetic position *)
Lemma convrt4_spec gclat rkm gdlat alt : -90 <= gclat <= 90 -> convrt4 gclat rkm = (gdlat, alt) ->
  geodetic_position gclat rkm gdlat alt.
Proof.
  intros H E. assert (C : 0 <= cos (gclat * DTOR)).
  { pose proof PI_RGT_0. apply cos_ge_0; unfold DTOR; nra. }
  assert (E' : (dltcl gclat rkm * RTOD + gclat, rkm * cos (dltcl gclat rkm) - REQ * sqrt (1 - E2 * sin ((dltcl gclat rkm * RTOD + gclat) * DTOR) * sin ((dltcl gclat rkm * RTOD + gclat) * DTOR))) = (gdlat, alt)) by exact E.
  clear E. pose proof (dltcl_sines gclat rkm C) as S. cbv zeta in S.
  unfold geodetic_position, morrison_pines. cbv zeta. rewrite !(one_degree_DTOR gclat).
  change (1 - 6356.752 / 6378.137 * (6356.752 / 6378.137)) with E2. change 6378.137 with REQ.
  match goal with |- _ = _ + ?d /\ _ => replace d with (dltcl gclat rkm) end.
  - assert (G1 : dltcl gclat rkm * RTOD + gclat = gdlat) by congruence.
    assert (G2 : rkm * cos (dltcl gclat rkm) - REQ * sqrt (1 - E2 * sin ((dltcl gclat rkm * RTOD + gclat) * DTOR) * sin ((dltcl gclat rkm * RTOD + gclat) * DTOR)) = alt) by congruence.
    rewrite !one_degree_DTOR. rewrite G1 in G2. split; [|now rewrite <- G2].
    rewrite <- G1. pose proof (degrees (dltcl gclat rkm)). lra.
  - rewrite S. unfold A21, A22, A23, A41, A42, A43, A44, A61, A62, A63, A81, A82, A83, A84, E8, E6, E4.
    generalize E2 (REQ / rkm). intros e q. field.
Qed.

(** ** Coordinates *)
Lemma Req_axis : Req = semi_axis.
Proof. unfold Req, semi_axis. lra. Qed.
Lemma Re_mean : Re = mean_radius.
Proof. unfold Re, mean_radius. rewrite Req_axis. reflexivity. Qed.

Definition cv (f : apex_file) (epoch : R) (k i : nat) : R := coef f epoch k i.

Lemma radians_theta glat : (90 - glat) * dtor = one_degree * (90 - glat).
Proof. unfold dtor, one_degree. ring. Qed.
Lemma radians_phi glon : glon * dtor = one_degree * glon.
Proof. unfold dtor, one_degree. ring. Qed.
Lemma back_degrees x : one_degree * (x / dtor) = x.
Proof. unfold one_degree, dtor. pose proof PI_RGT_0. field. lra. Qed.

Lemma vector_lin f epoch glat glon alt : well_formed f ->
  apex_vector f (cv f epoch) alt glat glon =
  (let v := eval_at f (fun x => harmonic_value x ((90 - glat) * dtor) (glon * dtor)) in
   let sum i := lin f (fun j => coef f epoch j i) (Re / (Re + alt)) v in
   (sum 0%nat, sum 1%nat, sum 2%nat)).
Proof.
  intro W. unfold apex_vector. rewrite <- radians_theta, <- radians_phi, <- Re_mean. cbv zeta.
  rewrite !series_eval by exact W. reflexivity.
Qed.

Lemma cos_sin_atan2 y x : exists r, 0 <= r /\ x = r * cos (atan2 y x) /\ y = r * sin (atan2 y x) /\ r = sqrt (x * x + y * y).
Proof.
  exists (norm2d x y). split; [apply norm2d_nonneg|].
  assert (H : x = norm2d x y * cos (atan2 y x) /\ y = norm2d x y * sin (atan2 y x)); [|destruct H as (H1 & H2); now repeat split].
  destruct (Req_dec x 0) as [Hx|Hx].
  - destruct (Req_dec y 0) as [Hy|Hy].
    + assert (N : norm2d x y = 0).
      { unfold norm2d. rewrite Hx, Hy. replace (0 * 0 + 0 * 0) with 0 by ring. apply sqrt_0. }
      rewrite N, Hx, Hy. split; ring.
    + destruct (atan2_cos_sin y x (or_intror Hy)) as (A1 & A2). now split.
  - destruct (atan2_cos_sin y x (or_introl Hx)) as (A1 & A2). now split.
Qed.

Lemma pure_pointed vecflag f epoch glat glon alt qlat qlon b : well_formed f ->
  pure_out vecflag f epoch glat glon alt = ((qlat, qlon), b) ->
  pointed (apex_vector f (cv f epoch) alt glat glon) qlat qlon /\ -180 <= qlon <= 180.
Proof.
  intros W E. rewrite vector_lin by exact W. cbv zeta. unfold pure_out in E. cbv zeta in E.
  set (x := lin f (fun j => coef f epoch j 0) _ (eval_at f (fun x => harmonic_value x _ _))) in *.
  set (y := lin f (fun j => coef f epoch j 1) _ (eval_at f (fun x => harmonic_value x _ _))) in *.
  set (z := lin f (fun j => coef f epoch j 2) _ (eval_at f (fun x => harmonic_value x _ _))) in *.
  assert (E1 : qlat = atan2 z (sqrt (x * x + y * y)) / dtor) by congruence.
  assert (E2 : qlon = atan2 y x / dtor) by congruence. clear E.
  assert (Hd : 0 < dtor) by (unfold dtor; pose proof PI_RGT_0; lra).
  assert (DP : forall a, a / dtor * (PI / 180) = a) by (intro a; unfold dtor; pose proof PI_RGT_0; field; lra).
  pose proof (atan2_range y x) as R1. pose proof (atan2_range_right z (sqrt (x * x + y * y)) (sqrt_pos _)) as R2.
  pose proof PI_RGT_0 as HP.
  assert (B1 : -180 <= qlon <= 180).
  { rewrite <- (DP (atan2 y x)), <- E2 in R1. split; nra. }
  assert (B2 : -90 <= qlat <= 90).
  { rewrite <- (DP (atan2 z _)), <- E1 in R2. split; nra. }
  split; [|exact B1]. split; [exact B2|].
  destruct (cos_sin_atan2 y x) as (r & Hr & X & Y & Nr). destruct (cos_sin_atan2 z (sqrt (x * x + y * y))) as (d & Hd' & P & Z & _).
  exists d. split; [exact Hd'|]. unfold direction, scaled.
  replace (one_degree * qlat) with (atan2 z (sqrt (x * x + y * y))) by (rewrite E1; symmetry; apply back_degrees).
  replace (one_degree * qlon) with (atan2 y x) by (rewrite E2; symmetry; apply back_degrees).
  apply triple.
  - transitivity (r * cos (atan2 y x)); [exact X|]. rewrite <- Rmult_assoc. f_equal. rewrite Nr at 1. exact P.
  - transitivity (r * sin (atan2 y x)); [exact Y|]. rewrite <- Rmult_assoc. f_equal. rewrite Nr at 1. exact P.
  - exact Z.
Qed.

Lemma coefficients_cv f epoch : well_formed f -> coefficients_at f epoch (cv f epoch).
Proof. intros W k i _ _. now apply coef_spec. Qed.

(** ** Base vectors *)
Lemma curve (x y z l p : R -> R) u x' y' z' l' p' d :
  is_derive x u x' -> is_derive y u y' -> is_derive z u z' -> is_derive l u l' -> is_derive p u p' ->
  locally u (fun s => exists k, x s = k * (cos (l s) * cos (p s)) /\ y s = k * (cos (l s) * sin (p s)) /\ z s = k * sin (l s)) ->
  x u = d * (cos (l u) * cos (p u)) -> y u = d * (cos (l u) * sin (p u)) -> z u = d * sin (l u) ->
  - (cos (p u) * x' + sin (p u) * y') * sin (l u) + cos (l u) * z' = d * l' /\
  - sin (p u) * x' + cos (p u) * y' = d * (cos (l u) * p').
Proof.
  intros Hx Hy Hz Hl Hp L X Y Z.
  assert (Dx : Derive x u = x') by now apply is_derive_unique.
  assert (Dy : Derive y u = y') by now apply is_derive_unique.
  assert (Dz : Derive z u = z') by now apply is_derive_unique.
  assert (Dl : Derive l u = l') by now apply is_derive_unique.
  assert (Dp : Derive p u = p') by now apply is_derive_unique.
  assert (Ex : ex_derive x u) by (eexists; eassumption). assert (Ey : ex_derive y u) by (eexists; eassumption).
  assert (Ez : ex_derive z u) by (eexists; eassumption). assert (El : ex_derive l u) by (eexists; eassumption).
  assert (Ep : ex_derive p u) by (eexists; eassumption).
  assert (S1 : forall a, sin a * sin a + cos a * cos a = 1) by (intro a; exact (sin2_cos2 a)).
  split.
  - set (G := fun s => - (cos (p s) * x s + sin (p s) * y s) * sin (l s) + cos (l s) * z s).
    assert (G0 : is_derive G u 0).
    { apply (is_derive_ext_loc (fun _ => 0)); [|apply (@is_derive_const R_AbsRing)].
      revert L. apply filter_imp. intros s (k & K1 & K2 & K3). unfold G. rewrite K1, K2, K3.
      pose proof (S1 (p s)). replace (- (cos (p s) * (k * (cos (l s) * cos (p s))) + sin (p s) * (k * (cos (l s) * sin (p s)))) * sin (l s) + cos (l s) * (k * sin (l s)))
        with (k * cos (l s) * sin (l s) * (1 - (sin (p s) * sin (p s) + cos (p s) * cos (p s)))) by ring. rewrite H. change (@eq R 0 (k * cos (l s) * sin (l s) * (1 - 1))). ring. }
    assert (G1 : is_derive G u ((- (cos (p u) * x' + sin (p u) * y') * sin (l u) + cos (l u) * z')
      + (sin (p u) * p' * x u - cos (p u) * p' * y u) * sin (l u)
      - (cos (p u) * x u + sin (p u) * y u) * (cos (l u) * l') - sin (l u) * l' * z u)).
    { unfold G. auto_derive; [tauto|].
      change (Derive (fun x0 : R => p x0) u) with (Derive p u). change (Derive (fun x0 : R => l x0) u) with (Derive l u).
      change (Derive (fun x0 : R => x x0) u) with (Derive x u). change (Derive (fun x0 : R => y x0) u) with (Derive y u).
      change (Derive (fun x0 : R => z x0) u) with (Derive z u). rewrite Dx, Dy, Dz, Dl, Dp. ring. }
    apply is_derive_unique in G0. apply is_derive_unique in G1. rewrite G0 in G1. rewrite X, Y, Z in G1.
    pose proof (S1 (p u)) as P1. pose proof (S1 (l u)) as L1.
    match type of G1 with 0 = ?A + ?B - ?C - ?D =>
      replace B with 0 in G1 by ring;
      replace (A + 0 - C - D) with (A - d * l' * (cos (l u) * cos (l u) * (sin (p u) * sin (p u) + cos (p u) * cos (p u)) + sin (l u) * sin (l u))) in G1 by ring end.
    rewrite P1 in G1. replace (cos (l u) * cos (l u) * 1 + sin (l u) * sin (l u)) with 1 in G1 by lra. lra.
  - set (G := fun s => - sin (p s) * x s + cos (p s) * y s).
    assert (G0 : is_derive G u 0).
    { apply (is_derive_ext_loc (fun _ => 0)); [|apply (@is_derive_const R_AbsRing)].
      revert L. apply filter_imp. intros s (k & K1 & K2 & K3). unfold G. rewrite K1, K2. match goal with |- ?a = ?b => change (@eq R a b) end. ring. }
    assert (G1 : is_derive G u ((- sin (p u) * x' + cos (p u) * y') - p' * (cos (p u) * x u + sin (p u) * y u))).
    { unfold G. auto_derive; [tauto|].
      change (Derive (fun x0 : R => p x0) u) with (Derive p u).
      change (Derive (fun x0 : R => x x0) u) with (Derive x u). change (Derive (fun x0 : R => y x0) u) with (Derive y u).
      rewrite Dx, Dy, Dp. ring. }
    apply is_derive_unique in G0. apply is_derive_unique in G1. rewrite G0 in G1. rewrite X, Y in G1.
    pose proof (S1 (p u)) as P1.
    match type of G1 with 0 = ?A - ?B =>
      replace B with (d * (cos (l u) * p') * (sin (p u) * sin (p u) + cos (p u) * cos (p u))) in G1 by ring end.
    rewrite P1 in G1. lra.
Qed.

Lemma direction_unit lat lon : inner (direction lat lon) (direction lat lon) = 1.
Proof.
  unfold inner, direction. pose proof (sin2_cos2 (one_degree * lat)) as A. pose proof (sin2_cos2 (one_degree * lon)) as B.
  unfold Rsqr in *. set (a := cos (one_degree * lat)) in *. set (b := cos (one_degree * lon)) in *.
  set (s := sin (one_degree * lat)) in *. set (t := sin (one_degree * lon)) in *.
  replace (a * b * (a * b) + a * t * (a * t) + s * s) with (a * a * (t * t + b * b) + s * s) by ring. rewrite B. lra.
Qed.

Lemma scaled_length d lat lon : 0 <= d -> vector_length (scaled d (direction lat lon)) = d.
Proof.
  intro H. unfold vector_length. replace (inner (scaled d (direction lat lon)) (scaled d (direction lat lon))) with
    (d * d * inner (direction lat lon) (direction lat lon)) by (unfold inner, scaled, direction; ring).
  rewrite direction_unit, Rmult_1_r. now apply sqrt_square.
Qed.

Lemma pointed_length v lat lon : pointed v lat lon -> v = scaled (vector_length v) (direction lat lon).
Proof. intros (_ & d & Hd & E). rewrite E at 2. rewrite scaled_length by exact Hd. exact E. Qed.

(** two latitudes and longitudes of the direction of a vector which isn't on the axis *)
Lemma pointed_same v a b a' b' : pointed v a b -> pointed v a' b' -> 0 < vector_length v -> -90 < a < 90 ->
  a' = a /\ cos (one_degree * b') = cos (one_degree * b) /\ sin (one_degree * b') = sin (one_degree * b).
Proof.
  intros P Q H A. pose proof (pointed_length _ _ _ P) as E. pose proof (pointed_length _ _ _ Q) as E'.
  set (d := vector_length v) in *. rewrite E in E'. unfold scaled, direction in E'.
  assert (X : d * (cos (one_degree * a) * cos (one_degree * b)) = d * (cos (one_degree * a') * cos (one_degree * b'))) by congruence.
  assert (Y : d * (cos (one_degree * a) * sin (one_degree * b)) = d * (cos (one_degree * a') * sin (one_degree * b'))) by congruence.
  assert (Z : d * sin (one_degree * a) = d * sin (one_degree * a')) by congruence.
  apply Rmult_eq_reg_l in X; [|lra]. apply Rmult_eq_reg_l in Y; [|lra]. apply Rmult_eq_reg_l in Z; [|lra].
  destruct Q as (Q & _). pose proof PI_RGT_0 as HP.
  assert (Ea : a' = a).
  { assert (S : one_degree * a' = one_degree * a).
    { rewrite <- (asin_sin (one_degree * a')), <- (asin_sin (one_degree * a)) by (unfold one_degree; split; nra). now rewrite Z. }
    unfold one_degree in S. apply Rmult_eq_reg_l in S; lra. }
  split; [exact Ea|]. rewrite Ea in X, Y.
  assert (C : 0 < cos (one_degree * a)) by (apply cos_gt_0; unfold one_degree; nra).
  split; apply (Rmult_eq_reg_l (cos (one_degree * a))); lra.
Qed.

Lemma series_north f c rho lat lon : well_formed f ->
  is_derive (fun u => series f c rho (one_degree * (90 - u)) (one_degree * lon)) lat
    (one_degree * - lin f c rho (eval_at f (dtheta ((90 - lat) * dtor) (lon * dtor)))).
Proof.
  intro W. rewrite radians_theta, radians_phi.
  pose proof (is_derive_comp (fun t => series f c rho t (one_degree * lon)) (fun u => one_degree * (90 - u)) lat _ (- one_degree)
    (series_dtheta f c rho (one_degree * (90 - lat)) (one_degree * lon) W)) as H.
  match type of H with _ -> is_derive _ _ ?d => match goal with |- is_derive _ _ ?e => replace e with d end end.
  - apply H. auto_derive; [exact I|ring].
  - change (scal ?a ?b) with (a * b). unfold scal; cbn. unfold mult; cbn. ring.
Qed.
Lemma series_east f c rho lat lon : well_formed f ->
  is_derive (fun u => series f c rho (one_degree * (90 - lat)) (one_degree * u)) lon
    (one_degree * (sin ((90 - lat) * dtor) * lin f c rho (eval_at f (fun x => east_part x ((90 - lat) * dtor) (lon * dtor))))).
Proof.
  intro W. rewrite radians_theta, radians_phi.
  pose proof (is_derive_comp (fun t => series f c rho (one_degree * (90 - lat)) t) (fun u => one_degree * u) lon _ one_degree
    (series_dphi f c rho (one_degree * (90 - lat)) (one_degree * lon) W)) as H.
  match type of H with _ -> is_derive _ _ ?d => match goal with |- is_derive _ _ ?e => replace e with d end end.
  - apply H. auto_derive; [exact I|ring].
  - unfold scal; cbn. unfold mult; cbn. ring.
Qed.

(** the arcs *)
Lemma Jtemp_spec lat : 1 - ecc2 * cos ((90 - lat) * dtor) * cos ((90 - lat) * dtor) = arc_divisor lat / semi_axis ^ 2 /\
  0 < 1 - ecc2 * cos ((90 - lat) * dtor) * cos ((90 - lat) * dtor).
Proof.
  assert (E : cos ((90 - lat) * dtor) = sin (one_degree * lat)).
  { rewrite <- cos_shift. f_equal. unfold dtor, one_degree. field. }
  rewrite E. set (s := sin (one_degree * lat)). assert (C : cos (one_degree * lat) ^ 2 = 1 - s * s).
  { pose proof (sin2_cos2 (one_degree * lat)). unfold Rsqr in *. fold s in H. nra. }
  assert (S : -1 <= s <= 1) by apply SIN_bound. assert (B : 0 < ecc2 < 1) by (unfold ecc2, eps; lra).
  split; [|nra]. unfold arc_divisor. rewrite C. fold s. unfold polar_axis, ecc2, flattening. fold eps.
  assert (A : semi_axis <> 0) by (unfold semi_axis; lra). field. exact A.
Qed.

Lemma north_arc_code lat alt : let Jtemp := 1 - ecc2 * cos ((90 - lat) * dtor) * cos ((90 - lat) * dtor) in
  alt + (1 - ecc2) * (Req / sqrt Jtemp) / Jtemp = north_arc alt lat /\
  (alt + Req / sqrt Jtemp) * sin ((90 - lat) * dtor) = east_arc alt lat /\
  (-400 < alt -> 0 < north_arc alt lat /\ 0 < alt + Req / sqrt Jtemp).
Proof.
  intro J. destruct (Jtemp_spec lat) as (E & P). fold J in E, P.
  assert (A : 0 < semi_axis) by (unfold semi_axis; lra).
  assert (D : arc_divisor lat = semi_axis ^ 2 * J) by (rewrite E; field; lra).
  assert (SD : sqrt (arc_divisor lat) = semi_axis * sqrt J).
  { rewrite D, sqrt_mult by nra. f_equal. rewrite <- Rsqr_pow2. apply sqrt_Rsqr. lra. }
  assert (QJ : 0 < sqrt J) by (now apply sqrt_lt_R0).
  assert (EC : polar_axis ^ 2 = semi_axis ^ 2 * (1 - ecc2)).
  { unfold polar_axis, ecc2, flattening. fold eps. ring. }
  assert (N : alt + (1 - ecc2) * (Req / sqrt J) / J = north_arc alt lat).
  { unfold north_arc. rewrite SD, D, EC, Req_axis. field. repeat split; lra. }
  split; [exact N|]. split.
  - unfold east_arc. rewrite SD, Req_axis.
    replace (sin ((90 - lat) * dtor)) with (cos (one_degree * lat)).
    + field. split; lra.
    + rewrite <- sin_shift. f_equal. unfold dtor, one_degree. field.
  - intro Ha. assert (J1 : J <= 1).
    { unfold J. assert (0 < ecc2) by (unfold ecc2, eps; lra). pose proof (Rle_0_sqr (cos ((90 - lat) * dtor))). unfold Rsqr in *. nra. }
    assert (Q1 : sqrt J <= 1) by (rewrite <- sqrt_1; now apply sqrt_le_1_alt).
    assert (R1 : Req <= Req / sqrt J).
    { apply (Rmult_le_reg_r (sqrt J)); [exact QJ|]. unfold Rdiv. rewrite Rmult_assoc, Rinv_l, Rmult_1_r by lra. unfold Req. nra. }
    split; [|unfold Req in *; lra]. rewrite <- N.
    assert (R2 : (1 - ecc2) * Req <= (1 - ecc2) * (Req / sqrt J) / J).
    { apply (Rmult_le_reg_r J); [exact P|].
      replace ((1 - ecc2) * (Req / sqrt J) / J * J) with ((1 - ecc2) * (Req / sqrt J)) by (field; split; lra).
      assert (ecc2 < 0.01) by (unfold ecc2, eps; lra). unfold Req in *. nra. }
    assert (ecc2 < 0.01) by (unfold ecc2, eps; lra). unfold Req in *. nra.
Qed.

Lemma pure_base f epoch glat glon alt qlat qlon b qlat_at qlon_at lat_n lat_e lon_n lon_e :
  well_formed f -> -400 < alt -> -90 < glat < 90 ->
  pure_out true f epoch glat glon alt = ((qlat, qlon), b) -> -90 < qlat < 90 ->
  0 < vector_length (apex_vector f (cv f epoch) alt glat glon) ->
  qd_functions f (cv f epoch) alt qlat_at qlon_at glat glon ->
  is_derive (fun u => qlat_at u glon) glat lat_n -> is_derive (fun u => qlat_at glat u) glon lat_e ->
  is_derive (fun u => qlon_at u glon) glat lon_n -> is_derive (fun u => qlon_at glat u) glon lon_e ->
  let d := vector_length (apex_vector f (cv f epoch) alt glat glon) in
  let '(f1e, f1n) := richmond_f1 alt glat lat_n lat_e in
  let '(f2e, f2n) := richmond_f2 alt glat qlat lon_n lon_e in
  f11 b = d * f1e /\ f12 b = d * f1n /\ f21 b = d * f2e /\ f22 b = d * f2n /\
  f_ b = d * f1e * (d * f2n) - d * f1n * (d * f2e).
Proof.
  intros W Ha Hg E Hq Hd (LN & LE) DN DE ON OE.
  destruct (pure_pointed _ _ _ _ _ _ _ _ _ W E) as (P & _).
  set (v := apex_vector f (cv f epoch) alt glat glon) in *. intro d. fold d in Hd.
  assert (PN : pointed v (qlat_at glat glon) (qlon_at glat glon)) by (apply (locally_singleton _ _ LN)).
  destruct (pointed_same _ _ _ _ _ P PN Hd Hq) as (Q1 & Q2 & Q3).
  unfold pure_out in E. cbv zeta in E.
  set (theta := (90 - glat) * dtor) in *. set (phi := glon * dtor) in *. set (rho := Re / (Re + alt)) in *.
  set (x := lin f (fun j => coef f epoch j 0) rho (eval_at f (fun x => harmonic_value x theta phi))) in *.
  set (y := lin f (fun j => coef f epoch j 1) rho (eval_at f (fun x => harmonic_value x theta phi))) in *.
  set (z := lin f (fun j => coef f epoch j 2) rho (eval_at f (fun x => harmonic_value x theta phi))) in *.
  assert (EA : atan2 z (sqrt (x * x + y * y)) = one_degree * qlat).
  { assert (E1 : qlat = atan2 z (sqrt (x * x + y * y)) / dtor) by congruence. rewrite E1. symmetry. apply back_degrees. }
  assert (EO : atan2 y x = one_degree * qlon).
  { assert (E1 : qlon = atan2 y x / dtor) by congruence. rewrite E1. symmetry. apply back_degrees. }
  rewrite EA, EO in E.
  assert (Eb : b = snd ((qlat, qlon), b)) by reflexivity. rewrite <- E in Eb. cbn [snd] in Eb. clear E. subst b.
  cbn [f11 f12 f21 f22 f_].
  (* curves *)
  assert (O1 : 0 < one_degree) by (unfold one_degree; pose proof PI_RGT_0; lra).
  assert (V : forall u w, apex_vector f (cv f epoch) alt u w =
     (series f (fun k => coef f epoch k 0) rho (one_degree * (90 - u)) (one_degree * w),
      series f (fun k => coef f epoch k 1) rho (one_degree * (90 - u)) (one_degree * w),
      series f (fun k => coef f epoch k 2) rho (one_degree * (90 - u)) (one_degree * w))).
  { intros u w. unfold apex_vector, rho. cbv zeta. rewrite <- Re_mean. reflexivity. }
  pose proof (pointed_length _ _ _ PN) as PL. fold d in PL. unfold v in PL. rewrite V in PL. unfold scaled, direction in PL.
  assert (X0 := f_equal (fun t => fst (fst t)) PL). assert (Y0 := f_equal (fun t => snd (fst t)) PL). assert (Z0 := f_equal snd PL).
  cbn [fst snd] in X0, Y0, Z0. clear PL.
  assert (SC : forall (g : R -> R) s g', is_derive g s g' -> is_derive (fun u => one_degree * g u) s (one_degree * g')).
  { intros g s g' H. exact (is_derive_scal g s one_degree g' H). }
  destruct (curve (fun u => series f (fun k => coef f epoch k 0) rho (one_degree * (90 - u)) (one_degree * glon))
                  (fun u => series f (fun k => coef f epoch k 1) rho (one_degree * (90 - u)) (one_degree * glon))
                  (fun u => series f (fun k => coef f epoch k 2) rho (one_degree * (90 - u)) (one_degree * glon))
                  (fun u => one_degree * qlat_at u glon) (fun u => one_degree * qlon_at u glon) glat _ _ _ _ _ d
                  (series_north f _ rho glat glon W) (series_north f _ rho glat glon W) (series_north f _ rho glat glon W)
                  (SC _ _ _ DN) (SC _ _ _ ON)) as (N1 & N2); [|exact X0|exact Y0|exact Z0|].
  { revert LN. apply filter_imp. intros u (_ & k & _ & H). rewrite V in H. unfold scaled, direction in H. exists k. repeat split; congruence. }
  destruct (curve (fun u => series f (fun k => coef f epoch k 0) rho (one_degree * (90 - glat)) (one_degree * u))
                  (fun u => series f (fun k => coef f epoch k 1) rho (one_degree * (90 - glat)) (one_degree * u))
                  (fun u => series f (fun k => coef f epoch k 2) rho (one_degree * (90 - glat)) (one_degree * u))
                  (fun u => one_degree * qlat_at glat u) (fun u => one_degree * qlon_at glat u) glon _ _ _ _ _ d
                  (series_east f _ rho glat glon W) (series_east f _ rho glat glon W) (series_east f _ rho glat glon W)
                  (SC _ _ _ DE) (SC _ _ _ OE)) as (M1 & M2); [|exact X0|exact Y0|exact Z0|].
  { revert LE. apply filter_imp. intros u (_ & k & _ & H). rewrite V in H. unfold scaled, direction in H. exists k. repeat split; congruence. }
  cbv beta in N1, N2, M1, M2. rewrite Q1, Q2, Q3 in N1, N2, M1, M2. fold theta phi in N1, N2, M1, M2.
  destruct (north_arc_code glat alt) as (A1 & A2 & A3). cbv zeta in A1, A2, A3. fold theta in A1, A2, A3.
  destruct (A3 Ha) as (A4 & A5).
  unfold richmond_f1, richmond_f2. rewrite A1. rewrite <- A2.
  set (na := north_arc alt glat) in *. set (ea := alt + Req / sqrt (1 - ecc2 * cos theta * cos theta)) in *. rewrite <- Re_mean.
  assert (St : 0 < sin theta).
  { pose proof PI_RGT_0. apply sin_gt_0; unfold theta, dtor; nra. }
  assert (Rp : 0 < Re + alt) by (unfold Re, Req, eps; lra).
  set (cl := cos (one_degree * qlat)) in *. set (sl := sin (one_degree * qlat)) in *.
  set (cp := cos (one_degree * qlon)) in *. set (sp := sin (one_degree * qlon)) in *.
  set (xn := lin f (fun j => coef f epoch j 0) rho (eval_at f (dtheta theta phi))) in *.
  set (yn := lin f (fun j => coef f epoch j 1) rho (eval_at f (dtheta theta phi))) in *.
  set (zn := lin f (fun j => coef f epoch j 2) rho (eval_at f (dtheta theta phi))) in *.
  set (xe := lin f (fun j => coef f epoch j 0) rho (eval_at f (fun x => east_part x theta phi))) in *.
  set (ye := lin f (fun j => coef f epoch j 1) rho (eval_at f (fun x => east_part x theta phi))) in *.
  set (ze := lin f (fun j => coef f epoch j 2) rho (eval_at f (fun x => east_part x theta phi))) in *.
  assert (K1 : - (cp * - xn + sp * - yn) * sl + cl * - zn = d * lat_n).
  { apply (Rmult_eq_reg_l one_degree); [|lra]. rewrite <- Rmult_assoc, (Rmult_comm one_degree d), Rmult_assoc, <- N1. ring. }
  assert (K2 : - sp * - xn + cp * - yn = d * (cl * lon_n)).
  { apply (Rmult_eq_reg_l one_degree); [|lra]. replace (one_degree * (d * (cl * lon_n))) with (d * (cl * (one_degree * lon_n))) by ring.
    rewrite <- N2. ring. }
  assert (K3 : - (cp * xe + sp * ye) * sl + cl * ze = d * lat_e / sin theta).
  { apply (Rmult_eq_reg_l (one_degree * sin theta)); [|nra].
    replace (one_degree * sin theta * (d * lat_e / sin theta)) with (d * (one_degree * lat_e)) by (field; lra). rewrite <- M1. ring. }
  assert (K4 : - sp * xe + cp * ye = d * (cl * lon_e) / sin theta).
  { apply (Rmult_eq_reg_l (one_degree * sin theta)); [|nra].
    replace (one_degree * sin theta * (d * (cl * lon_e) / sin theta)) with (d * (cl * (one_degree * lon_e))) by (field; lra). rewrite <- M2. ring. }
  rewrite K1, K2, K3, K4. repeat split; field; repeat split; lra.
Qed.
