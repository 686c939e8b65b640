(** The magnetic local time of a point of an array is that of the pole of an earlier point:
    proof that it is not the one of its own pole. *)

From Coq Require Import Bool List ZArith Reals Lra Lia.
From Verif Require Import TimeModel GeoModel SunModel QdTimeModel QdSunModel QdMltModel.
From Verif Require Import CoordSpec SunSpec QdSunSpec QdMltSpec.
From Verif Require Import Atan2Proofs SunProofs QdSunProofs QdMltProofs.
Import ListNotations.
Open Scope R_scope.

Lemma dipole_2005 y c : dipole_coefficients y c -> 2005 <= y < 2010 ->
  c = between 2005 (-29554.63, -1669.05, 5077.99) 2010 (-29496.57, -1586.42, 4944.26) y.
Proof.
  intros [(i & y0 & a & y1 & b & A & B & C & ->)|[H _]] Hy; [|lra].
  revert A B. unfold igrf_dipole.
  do 25 (destruct i as [|i]; [cbn [nth_error]; intros A B; injection A as <- <-; injection B as <- <-; first [exfalso; lra | reflexivity]|]).
  intros _ B. destruct i; discriminate B.
Qed.

(** the frame of the pole in the terms of the coefficients *)
Lemma longitude_coordinates c0 c1 c2 s0 s1 s2 phi : 0 < c2 ->
  dipole_longitude (dipole_pole (c0, c1, c2)) (s0, s1, s2) phi ->
  exists rho, c0 * (c1 * s0 + c2 * s1) - s2 * (c1 * c1 + c2 * c2) =
      rho * cos (one_degree * phi) * sqrt (c1 * c1 + c2 * c2 + c0 * c0) /\
    c2 * s0 - c1 * s1 = rho * sin (one_degree * phi).
Proof.
  intros P (rho & _ & X & Y). set (n := sqrt (c1 * c1 + c2 * c2 + c0 * c0)).
  assert (Hn : 0 < n) by (apply sqrt_lt_R0; nra).
  set (h := sqrt (c1 * c1 + c2 * c2)). assert (Hh : 0 < h) by (apply sqrt_lt_R0; nra).
  assert (Hh2 : h * h = c1 * c1 + c2 * c2) by (apply sqrt_sqrt; nra).
  assert (Pole : dipole_pole (c0, c1, c2) = (- c1 / n, - c2 / n, - c0 / n)).
  { unfold dipole_pole, unit_vector, scaled, inner.
    replace (sqrt (- c1 * - c1 + - c2 * - c2 + - c0 * - c0)) with n by (unfold n; f_equal; ring).
    apply triple; field; lra. }
  assert (E : unit_vector (cross (0, 0, 1) (dipole_pole (c0, c1, c2))) = (c2 / h, - c1 / h, 0)).
  { rewrite Pole. replace (cross (0, 0, 1) (- c1 / n, - c2 / n, - c0 / n)) with (scaled (/ n) (c2, - c1, 0)).
    - rewrite unit_scaled by (apply Rinv_0_lt_compat, Hn). unfold unit_vector, scaled, inner.
      replace (sqrt (c2 * c2 + - c1 * - c1 + 0 * 0)) with h by (unfold h; f_equal; ring).
      apply triple; field; lra.
    - unfold scaled, cross. apply triple; field; lra. }
  rewrite E, Pole in X. rewrite E in Y. unfold cross, inner in X, Y.
  exists (rho * h). split.
  - replace (rho * h * cos (one_degree * phi) * n) with (rho * cos (one_degree * phi) * (h * n)) by ring. rewrite <- X. field. lra.
  - replace (rho * h * sin (one_degree * phi)) with (rho * sin (one_degree * phi) * h) by ring. rewrite <- Y.
    field. lra.
Qed.

Lemma form_positive a b c d f x y z : 2.2e6 <= a -> 2.2e6 <= c -> Rabs b <= 0.3e6 -> Rabs d <= 1.8e6 -> Rabs f <= 0.2e6 ->
  0 < x * x + y * y -> 3 * (z * z) <= x * x + y * y ->
  0 < a * (x * x) + b * (x * y) + c * (y * y) + d * (x * z) + f * (y * z).
Proof.
  intros Ha Hc Hb Hd Hf Hp Hz.
  apply abs_le in Hb. apply abs_le in Hd. apply abs_le in Hf.
  assert (B1 : forall k m u v, 0 <= m -> - m <= k <= m -> - m * (u * u * 0.3 + v * v * 0.84) <= k * (u * v)).
  { intros k m u v Hm Hk.
    assert (U : - (u * u * 0.3 + v * v * 0.84) <= u * v <= u * u * 0.3 + v * v * 0.84).
    { pose proof (Rle_0_sqr (0.54 * u + 0.926 * v)) as S1. pose proof (Rle_0_sqr (0.54 * u - 0.926 * v)) as S2.
      pose proof (Rle_0_sqr u). pose proof (Rle_0_sqr v). unfold Rsqr in *. split; nra. }
    set (w := u * v) in *. set (g := u * u * 0.3 + v * v * 0.84) in *.
    assert (0 <= (m - k) * (g + w)) by (apply Rmult_le_pos; lra).
    assert (0 <= (m + k) * (g - w)) by (apply Rmult_le_pos; lra). nra. }
  pose proof (B1 d 1.8e6 x z ltac:(lra) ltac:(lra)) as D. pose proof (B1 f 0.2e6 y z ltac:(lra) ltac:(lra)) as F.
  assert (Bx : - 0.15e6 * (x * x + y * y) <= b * (x * y)).
  { assert (U : - ((x * x + y * y) / 2) <= x * y <= (x * x + y * y) / 2).
    { pose proof (Rle_0_sqr (x + y)) as S1. pose proof (Rle_0_sqr (x - y)) as S2. unfold Rsqr in *. split; lra. }
    set (w := x * y) in *. set (g := (x * x + y * y) / 2) in *. replace (x * x + y * y) with (2 * g) by (unfold g; lra).
    assert (0 <= (0.3e6 - b) * (g + w)) by (apply Rmult_le_pos; lra).
    assert (0 <= (0.3e6 + b) * (g - w)) by (apply Rmult_le_pos; lra). nra. }
  assert (A1 : 2.2e6 * (x * x) <= a * (x * x)) by (pose proof (Rle_0_sqr x); unfold Rsqr in *; nra).
  assert (A2 : 2.2e6 * (y * y) <= c * (y * y)) by (pose proof (Rle_0_sqr y); unfold Rsqr in *; nra).
  pose proof (Rle_0_sqr x). pose proof (Rle_0_sqr y). unfold Rsqr in *. lra.
Qed.

Lemma form_expanded a0 a1 a2 b0 b1 b2 k s0 s1 s2 :
  (a0 * (a1 * s0 + a2 * s1) - s2 * (a1 * a1 + a2 * a2)) * (b2 * s0 - b1 * s1) * (1 + k) -
  (b0 * (b1 * s0 + b2 * s1) - s2 * (b1 * b1 + b2 * b2)) * (a2 * s0 - a1 * s1) =
  (a0 * a1 * b2 * (1 + k) - b0 * b1 * a2) * (s0 * s0) +
  (a0 * (a2 * b2 - a1 * b1) * (1 + k) - b0 * (b2 * a2 - b1 * a1)) * (s0 * s1) +
  (b0 * b2 * a1 - a0 * a2 * b1 * (1 + k)) * (s1 * s1) +
  ((b1 * b1 + b2 * b2) * a2 - (a1 * a1 + a2 * a2) * b2 * (1 + k)) * (s0 * s2) +
  ((a1 * a1 + a2 * a2) * b1 * (1 + k) - (b1 * b1 + b2 * b2) * a1) * (s1 * s2).
Proof. ring. Qed.

(** the two poles, three quarters of a day apart *)
Definition first_pole : vector := (-29554.63, -1669.05, 5077.99).
Definition second_pole : vector :=
  (-29554.63 + 58.06 / 2435, -1669.05 + 82.63 / 2435, 5077.99 - 133.73 / 2435).

Lemma poles_differ s0 s1 s2 phi : 0 < s0 * s0 + s1 * s1 -> 3 * (s2 * s2) <= s0 * s0 + s1 * s1 ->
  dipole_longitude (dipole_pole first_pole) (s0, s1, s2) phi ->
  dipole_longitude (dipole_pole second_pole) (s0, s1, s2) phi -> False.
Proof.
  intros Hp Hz H1 H2. unfold first_pole, second_pole in *.
  apply longitude_coordinates in H1; [|lra]. apply longitude_coordinates in H2; [|lra].
  destruct H1 as (r1 & X1 & Y1), H2 as (r2 & X2 & Y2).
  set (q1 := -1669.05 * -1669.05 + 5077.99 * 5077.99 + -29554.63 * -29554.63) in *.
  match type of X2 with _ = _ * sqrt ?q => set (q2 := q) in * end.
  assert (N1 : sqrt q1 * sqrt q1 = q1) by (apply sqrt_sqrt; unfold q1; lra).
  assert (N2 : sqrt q2 * sqrt q2 = q2) by (apply sqrt_sqrt; unfold q2; lra).
  assert (P1 : 0 < sqrt q1) by (apply sqrt_lt_R0; unfold q1; lra).
  assert (P2 : 0 < sqrt q2) by (apply sqrt_lt_R0; unfold q2; lra).
  set (k := sqrt q2 / sqrt q1 - 1).
  assert (K : sqrt q2 = (1 + k) * sqrt q1) by (unfold k; field; lra).
  assert (Kp : 0 < 1 + k) by (replace (1 + k) with (sqrt q2 / sqrt q1) by (unfold k; lra); apply Rdiv_lt_0_compat; assumption).
  assert (K2 : (1 + k) * (1 + k) * q1 = q2) by (rewrite <- N1, <- N2, K; ring).
  assert (Hk : -1.2e-6 <= k <= -1.1e-6).
  { unfold q1, q2 in K2. split; nra. }
  set (x1 := -29554.63 * (-1669.05 * s0 + 5077.99 * s1) - s2 * (-1669.05 * -1669.05 + 5077.99 * 5077.99)) in *.
  set (y1 := 5077.99 * s0 - -1669.05 * s1) in *.
  match type of X2 with ?l = _ => set (x2 := l) in * end. match type of Y2 with ?l = _ => set (y2 := l) in * end.
  assert (E : x1 * y2 * (1 + k) - x2 * y1 = 0).
  { apply (Rmult_eq_reg_r (sqrt q1)); [|lra]. rewrite X1, X2, Y1, Y2, K. ring. }
  assert (0 < x1 * y2 * (1 + k) - x2 * y1); [|lra]. clear E X1 X2 Y1 Y2 K K2 N1 N2 P1 P2.
  unfold x1, x2, y1, y2. clearbody k. clear x1 x2 y1 y2 q1 q2 r1 r2.
  rewrite form_expanded. apply form_positive; [| | | | |assumption|assumption].
  1-2: lra. all: apply Rabs_le; lra.
Qed.

Lemma same_longitude pole1 pole2 lat lon q mlt :
  magnetic_local_time pole1 lat lon q mlt -> magnetic_local_time pole2 lat lon q mlt ->
  exists phi, dipole_longitude pole1 (direction lat lon) phi /\ dipole_longitude pole2 (direction lat lon) phi.
Proof.
  intros (p1 & k1 & R1 & D1 & E1) (p2 & k2 & R2 & D2 & E2). exists p1. split; [exact D1|].
  assert (E : p1 - p2 = 360 * IZR (k1 - k2)) by (rewrite minus_IZR; lra).
  assert (k1 - k2 = 0)%Z.
  { assert (-1 < k1 - k2 < 1)%Z; [|lia]. split; apply lt_IZR; lra. }
  rewrite H in E. replace p1 with p2 by lra. exact D2.
Qed.

Lemma sun_latitude t lat lon : 0 <= t <= 10000 -> eval_subsol_item t = Returns (lat, lon) ->
  exists s0 s1 s2, direction lat lon = (s0, s1, s2) /\ 0 < s0 * s0 + s1 * s1 /\ 3 * (s2 * s2) <= s0 * s0 + s1 * s1.
Proof.
  intros B H. destruct (item_spec t ltac:(lra)) as (lat' & lon' & u & E & U & _ & _ & V).
  assert (lat = lat') by congruence. assert (lon = lon') by congruence. subst lat' lon'.
  unfold direction. eexists _, _, _. split; [reflexivity|].
  unfold under_the_sun, direction, sun_direction, ecliptic_direction in V.
  assert (V2 := f_equal snd V). cbn [snd] in V2.
  set (n := u + IZR (c_int t - floor t) - 1 / 2) in *.
  assert (Sq : sin (one_degree * lat) * sin (one_degree * lat) <= 1 / 4).
  { rewrite V2. set (l := one_degree * sun_ecliptic_longitude _ _).
    assert (Ob : - (1 / 2) <= sin (one_degree * ecliptic_obliquity n) <= 1 / 2).
    { assert (C : c_int t = floor t) by (apply (proj1 (c_int_day t)); left; lra).
      assert (Hn : -1 <= n <= 10001).
      { unfold n. rewrite C, Z.sub_diag. apply abs_le in U. unfold time_tolerance in U. lra. }
      unfold ecliptic_obliquity, one_degree. pose proof PI_RGT_0.
      assert (A : 0 <= PI / 180 * (23.439 - 4e-7 * n) <= PI / 6) by nra.
      rewrite <- sin_PI6. split.
      - assert (0 <= sin (PI / 180 * (23.439 - 4e-7 * n))) by (apply sin_ge_0; lra). pose proof sin_PI6. lra.
      - apply sin_incr_1; lra. }
    pose proof (SIN_bound l) as Sl. set (a := sin (one_degree * ecliptic_obliquity n)) in *. set (b := sin l) in *.
    assert (a * a <= 1 / 4) by nra. assert (b * b <= 1) by nra. nra. }
  pose proof (sin2_cos2 (one_degree * lat)) as T. unfold Rsqr in T.
  pose proof (sin2_cos2 (one_degree * lon)) as T1. unfold Rsqr in T1.
  set (cl := cos (one_degree * lat)) in *. set (sl := sin (one_degree * lat)) in *.
  replace (cl * cos (one_degree * lon) * (cl * cos (one_degree * lon)) + cl * sin (one_degree * lon) * (cl * sin (one_degree * lon)))
    with (cl * cl * (sin (one_degree * lon) * sin (one_degree * lon) + cos (one_degree * lon) * cos (one_degree * lon))) by ring.
  rewrite T1. lra.
Qed.

Lemma mlt_own_pole any b2 b3 b4 : exists mlts s sun mlt lat lon,
  let points := [(0, 1826.25); (0, 1827)] in
  eval_mlt any points (initial_magcof b2 b3 b4) = Returns (mlts, s) /\ eval_subsol (map snd points) = Returns sun /\
  nth_error mlts 1 = Some mlt /\ nth_error sun 1 = Some (lat, lon) /\
  forall c, dipole_coefficients (2000 + 1827 / 365.25) c -> ~ magnetic_local_time (dipole_pole c) lat lon 0 mlt.
Proof.
  pose proof (eval_pure any [(0, 1826.25); (0, 1827)] _ (initial_good b2 b3 b4)) as A.
  cbn [pure used] in A. cbv zeta in A.
  destruct (Rlt_dec (1826.25 / 365.25 + 2000) 1900); [lra|].
  destruct (item_spec 1826.25 ltac:(lra)) as (lat1 & lon1 & u1 & E1 & _). rewrite E1 in A.
  match type of A with context [Rlt_dec epoch_limit ?x] => destruct (Rlt_dec epoch_limit x) as [D|D] end.
  { exfalso. revert D. apply Rle_not_lt. unfold epoch_limit. apply Rabs_le. lra. }
  destruct (Rlt_dec (1826.25 / 365.25 + 2000) 1900); [lra|].
  destruct (item_spec 1827 ltac:(lra)) as (lat2 & lon2 & u2 & E2 & _ & L2 & _). rewrite E2 in A.
  destruct (eval_mlt any _ _) as [[mlts s]|] eqn:Ev; [|discriminate]. destruct A as [_ A].
  eexists mlts, s, [(lat1, lon1); (lat2, lon2)], _, lat2, lon2. cbv zeta. split; [exact Ev|].
  split; [cbn [map snd eval_subsol]; now rewrite E1, E2|]. split; [injection A as <-; reflexivity|].
  split; [reflexivity|]. intros c Hc H.
  set (e := 1826.25 / 365.25 + 2000) in *.
  destruct (load_field e ltac:(unfold e; lra)) as (c0 & c1 & c2 & F & Pos).
  destruct (pole_angles _ _ _ _ _ F Pos) as [Th Pole].
  pose proof (magloctm_spec 0 lat2 lon2 _ _ _ L2 Th Pole) as M.
  destruct (same_longitude _ _ _ _ _ _ M H) as (phi & D1 & D2).
  destruct F as (_ & F & _). apply dipole_2005 in F; [|unfold e; lra]. apply dipole_2005 in Hc; [|lra].
  assert (C1 : (c0, c1, c2) = first_pole).
  { rewrite F. unfold between, first_pole, e. apply triple; lra. }
  assert (C2 : c = second_pole).
  { rewrite Hc. unfold between, second_pole. apply triple; lra. }
  rewrite C1 in D1. rewrite C2 in D2.
  destruct (sun_latitude 1827 lat2 lon2 ltac:(lra) E2) as (s0 & s1 & s2 & Ed & P1 & P2). rewrite Ed in D1, D2.
  exact (poles_differ s0 s1 s2 phi P1 P2 D1 D2).
Qed.
