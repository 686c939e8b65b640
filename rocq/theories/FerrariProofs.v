(** The solution of the quartic equation in the conversion of geocentric to geodetic
    coordinates. *)

From Coq Require Import Reals Lra.
From Verif Require Import GeoModel Atan2Proofs.
Open Scope R_scope.

Lemma cbrt_pos : forall t, 0 < t ->
  0 < c_pow t (1 / 3) /\ c_pow t (1 / 3) * c_pow t (1 / 3) * c_pow t (1 / 3) = t.
Proof.
  intros t Ht. unfold c_pow. destruct (Req_EM_T t 0) as [E|E]; [lra|].
  split; [apply exp_pos|].
  rewrite <- !Rpower_plus. replace (1 / 3 + 1 / 3 + 1 / 3) with 1 by field.
  apply Rpower_1. exact Ht.
Qed.

Lemma cube_pos : forall x, 0 < x -> 0 < x * x * x.
Proof. intros x H. apply Rmult_lt_0_compat; [apply Rmult_lt_0_compat|]; exact H. Qed.

Lemma quad_pos : forall r t, 0 < t -> 0 < r * t + t * t + r * r.
Proof.
  intros r t H. replace (r * t + t * t + r * r) with ((r + t / 2) * (r + t / 2) + 3 / 4 * (t * t)) by field.
  assert (0 <= (r + t / 2) * (r + t / 2)) by apply Rle_0_sqr. nra.
Qed.

Section Core.

Variables (P Q e2 : R).
Hypothesis HP : 0 <= P.
Hypothesis HQ : 0 <= Q.
Hypothesis He : 0 < e2.

Let ee4 := e2 * e2.
Let rh := (P + Q - ee4) / 6.
Let ss := (1 / 4) * Q * ee4 * P.
Let rh3 := rh * rh * rh.
Let tmp := rh3 + ss + sqrt (ss * (ss + 2 * rh3)).
Let tt := copysign (c_pow (Rabs tmp) (1 / 3)) tmp.
Let uu := rh + tt + rh * rh / tt.
Let vv := sqrt (uu * uu + ee4 * Q).
Let ww := (1 / 2) * e2 * (uu + vv - Q) / vv.
Let kp := 1 + e2 * (sqrt (uu + vv + ww * ww) + ww) / (uu + vv).

Definition ferrari_domain : Prop :=
  ee4 < P + Q \/ (0 < P * Q /\ (ee4 - P - Q) * (ee4 - P - Q) * (ee4 - P - Q) <= 27 * ee4 * (P * Q)).

Hypothesis Hdom : ferrari_domain.

Lemma ss_nonneg : 0 <= ss.
Proof using HP HQ He. unfold ss, ee4. assert (0 <= Q * P) by (apply Rmult_le_pos; auto). nra. Qed.

Lemma dom_cases : 0 < rh \/ (0 < ss /\ 0 <= ss + 2 * rh3).
Proof using HP HQ He Hdom.
  destruct Hdom as [H|[H1 H2]].
  - left. unfold rh. lra.
  - right. split.
    + unfold ss, ee4. assert (0 < e2 * e2) by nra. nra.
    + unfold ss, rh3, rh. 
      replace (1 / 4 * Q * ee4 * P + 2 * ((P + Q - ee4) / 6 * ((P + Q - ee4) / 6) * ((P + Q - ee4) / 6)))
        with ((27 * ee4 * (P * Q) - (ee4 - P - Q) * (ee4 - P - Q) * (ee4 - P - Q)) / 108) by field.
      lra.
Qed.

Lemma disc_nonneg : 0 <= ss * (ss + 2 * rh3).
Proof using HP HQ He Hdom.
  assert (Hs := ss_nonneg). apply Rmult_le_pos; [exact Hs|].
  destruct dom_cases as [H|[H1 H2]]; [|exact H2].
  assert (0 < rh3) by (apply cube_pos; exact H). lra.
Qed.

Lemma tmp_pos : 0 < tmp.
Proof using HP HQ He Hdom.
  assert (Hs := ss_nonneg). assert (Hq := sqrt_pos (ss * (ss + 2 * rh3))). unfold tmp.
  destruct dom_cases as [H|[H1 H2]].
  - assert (0 < rh3) by (apply cube_pos; exact H). lra.
  - lra.
Qed.

Lemma tt_pos : 0 < tt /\ tt * tt * tt = tmp.
Proof using HP HQ He Hdom.
  assert (Ht := tmp_pos). unfold tt, copysign. rewrite (Rabs_pos_eq tmp) by lra.
  destruct (Rlt_dec tmp 0); [lra|]. destruct (cbrt_pos tmp Ht) as [H1 H2].
  rewrite Rabs_pos_eq by lra. auto.
Qed.

Lemma uu_cubic : uu * uu * uu - 3 * rh * (uu * uu) = 2 * ss.
Proof using HP HQ He Hdom.
  destruct tt_pos as [Ht Ht3].
  assert (Hq := sqrt_sqrt _ disc_nonneg).
  assert (Hp := tmp_pos).
  assert (E : tmp + rh3 * rh3 / tmp = 2 * (rh3 + ss)).
  { apply Rmult_eq_reg_r with tmp; [|lra].
    replace ((tmp + rh3 * rh3 / tmp) * tmp) with (tmp * tmp + rh3 * rh3) by (field; lra).
    unfold tmp. set (q := sqrt (ss * (ss + 2 * rh3))) in *. nra. }
  set (y := tt + rh * rh / tt).
  assert (Ey : y * y * y = 2 * (rh3 + ss) + 3 * (rh * rh) * y).
  { rewrite <- E, <- Ht3. unfold y, rh3. field. lra. }
  replace uu with (rh + y) by (unfold uu, y; ring).
  unfold rh3 in Ey. nra.
Qed.

Lemma uu_pos : 0 < uu.
Proof using HP HQ He Hdom.
  destruct tt_pos as [Ht _].
  apply Rmult_lt_reg_r with tt; [exact Ht|].
  replace (uu * tt) with (rh * tt + tt * tt + rh * rh) by (unfold uu; field; lra).
  rewrite Rmult_0_l. apply quad_pos. exact Ht.
Qed.

Lemma vv_props : vv * vv = uu * uu + ee4 * Q /\ uu <= vv.
Proof using HP HQ He Hdom.
  assert (Hu := uu_pos). assert (0 <= ee4 * Q) by (unfold ee4; apply Rmult_le_pos; nra).
  split; [apply sqrt_sqrt; nra|].
  rewrite <- (sqrt_square uu) at 1 by lra. apply sqrt_le_1; nra.
Qed.

Definition ferrari_root : R := sqrt (uu + vv + ww * ww) - ww.

Lemma root_pos : 0 < ferrari_root /\ kp = 1 + e2 / ferrari_root.
Proof using HP HQ He Hdom.
  assert (Hu := uu_pos). destruct vv_props as [_ Hv].
  set (s := sqrt (uu + vv + ww * ww)).
  assert (Hs : s * s = uu + vv + ww * ww) by (apply sqrt_sqrt; nra).
  assert (Hs0 : 0 <= s) by apply sqrt_pos.
  assert (H1 : 0 < s - ww) by nra.
  unfold ferrari_root. fold s. split; [exact H1|].
  unfold kp. fold s. f_equal.
  apply Rmult_eq_reg_r with ((uu + vv) * (s - ww)); [|nra].
  replace (e2 * (s + ww) / (uu + vv) * ((uu + vv) * (s - ww))) with (e2 * (s * s - ww * ww)) by (field; lra).
  replace (e2 / (s - ww) * ((uu + vv) * (s - ww))) with (e2 * (uu + vv)) by (field; lra).
  rewrite Hs. ring.
Qed.

(** the root satisfies the equation of the ellipse *)
Lemma root_quartic :
  let k := ferrari_root in
  P * (k * k) + Q * ((k + e2) * (k + e2)) = (k * (k + e2)) * (k * (k + e2)).
Proof using HP HQ He Hdom.
  intros k.
  assert (Hu := uu_pos). destruct vv_props as [Hv2 Hv].
  assert (Hc := uu_cubic).
  assert (Hk : k * k + 2 * ww * k = uu + vv).
  { unfold k, ferrari_root. set (s := sqrt (uu + vv + ww * ww)).
    assert (Hs : s * s = uu + vv + ww * ww) by (apply sqrt_sqrt; nra). nra. }
  assert (Hw : 2 * ww * vv = e2 * (uu + vv - Q)) by (unfold ww; field; lra).
  assert (Hl : vv * (k * k + e2 * k - uu) = vv * vv + e2 * (Q - uu) * k).
  { assert (H1 : vv * (k * k) + (2 * ww * vv) * k = vv * (uu + vv)) by (rewrite <- Hk; ring).
    rewrite Hw in H1. apply Rminus_diag_uniq. apply Rminus_diag_eq in H1. rewrite <- H1. ring. }
  assert (Hr : ee4 * ((Q - uu) * (Q - uu)) = vv * vv * (P + Q - 2 * uu)).
  { rewrite Hv2. unfold rh, ss in Hc. unfold ee4 in *. lra. }
  set (X := (k * (k + e2)) * (k * (k + e2)) - P * (k * k) - Q * ((k + e2) * (k + e2))).
  assert (HX : vv * vv * X = 0).
  { transitivity ((vv * (k * k + e2 * k - uu)) * (vv * (k * k + e2 * k - uu))
                  - vv * vv * ((P + Q - 2 * uu) * (k * k) + 2 * e2 * (Q - uu) * k + (uu * uu + ee4 * Q))).
    { unfold X, ee4. ring. }
    rewrite Hl, <- Hv2.
    transitivity (k * k * (ee4 * ((Q - uu) * (Q - uu)) - vv * vv * (P + Q - 2 * uu))).
    { unfold ee4. ring. }
    rewrite Hr. ring. }
  assert (X = 0).
  { apply Rmult_integral in HX. destruct HX as [HX|HX]; [|exact HX]. nra. }
  unfold X in *. lra.
Qed.

End Core.

(** the positive root is unique *)
Lemma quartic_unique : forall P Q e2 k1 k2,
  0 <= P -> 0 <= Q -> 0 < e2 -> 0 < k1 -> 0 < k2 ->
  P * (k1 * k1) + Q * ((k1 + e2) * (k1 + e2)) = (k1 * (k1 + e2)) * (k1 * (k1 + e2)) ->
  P * (k2 * k2) + Q * ((k2 + e2) * (k2 + e2)) = (k2 * (k2 + e2)) * (k2 * (k2 + e2)) ->
  k1 = k2.
Proof.
  assert (L : forall P Q e2 k1 k2,
    0 <= P -> 0 <= Q -> 0 < e2 -> 0 < k1 -> k1 < k2 ->
    P * (k1 * k1) + Q * ((k1 + e2) * (k1 + e2)) = (k1 * (k1 + e2)) * (k1 * (k1 + e2)) ->
    P * (k2 * k2) + Q * ((k2 + e2) * (k2 + e2)) = (k2 * (k2 + e2)) * (k2 * (k2 + e2)) -> False).
  { intros P Q e2 k1 k2 HP HQ He H1 H12 E1 E2.
    assert (F1 : P / ((k1 + e2) * (k1 + e2)) + Q / (k1 * k1) = 1).
    { apply Rmult_eq_reg_r with ((k1 * (k1 + e2)) * (k1 * (k1 + e2))).
      - rewrite Rmult_1_l. etransitivity; [|exact E1]. field. lra.
      - assert (0 < k1 * (k1 + e2)) by (apply Rmult_lt_0_compat; lra). nra. }
    assert (F2 : P / ((k2 + e2) * (k2 + e2)) + Q / (k2 * k2) = 1).
    { apply Rmult_eq_reg_r with ((k2 * (k2 + e2)) * (k2 * (k2 + e2))).
      - rewrite Rmult_1_l. etransitivity; [|exact E2]. field. lra.
      - assert (0 < k2 * (k2 + e2)) by (apply Rmult_lt_0_compat; lra). nra. }
    assert (I1 : / ((k2 + e2) * (k2 + e2)) < / ((k1 + e2) * (k1 + e2))).
    { apply Rinv_lt_contravar; [|nra]. apply Rmult_lt_0_compat; nra. }
    assert (I2 : / (k2 * k2) < / (k1 * k1)).
    { apply Rinv_lt_contravar; [|nra]. apply Rmult_lt_0_compat; nra. }
    unfold Rdiv in F1, F2.
    destruct (Req_dec P 0) as [->|HPn].
    - destruct (Req_dec Q 0) as [->|HQn]; [lra|].
      assert (Q * / (k2 * k2) < Q * / (k1 * k1)) by (apply Rmult_lt_compat_l; lra). lra.
    - assert (P * / ((k2 + e2) * (k2 + e2)) < P * / ((k1 + e2) * (k1 + e2))) by (apply Rmult_lt_compat_l; lra).
      assert (Q * / (k2 * k2) <= Q * / (k1 * k1)) by (apply Rmult_le_compat_l; lra). lra. }
  intros P Q e2 k1 k2 HP HQ He H1 H2 E1 E2.
  destruct (Rtotal_order k1 k2) as [H|[H|H]]; [exfalso|exact H|exfalso].
  - exact (L P Q e2 k1 k2 HP HQ He H1 H E1 E2).
  - exact (L P Q e2 k2 k1 HP HQ He H2 H E2 E1).
Qed.

Section Ellipsoid.

Variables (a e2 : R).
Hypothesis Ha : 0 < a.
Hypothesis He : 0 < e2 < 1.

(** the radius of curvature in the prime vertical *)
Definition curv (lat : R) : R := a / sqrt (1 - e2 * sin lat * sin lat).

Lemma curv_arg : forall lat, 1 - e2 <= 1 - e2 * sin lat * sin lat <= 1.
Proof using He.
  intros lat. assert (H := sin2_cos2 lat). unfold Rsqr in H.
  assert (0 <= sin lat * sin lat <= 1) by (split; nra). nra.
Qed.

Lemma curv_pos : forall lat, 0 < curv lat.
Proof using Ha He.
  intros lat. assert (H := curv_arg lat). unfold curv. apply Rdiv_lt_0_compat; [exact Ha|].
  apply sqrt_lt_R0. lra.
Qed.

Lemma curv_sqr : forall lat, curv lat * curv lat * (1 - e2 * (sin lat * sin lat)) = a * a.
Proof using Ha He.
  intros lat. assert (H := curv_arg lat). unfold curv.
  assert (Hs : 0 < sqrt (1 - e2 * sin lat * sin lat)) by (apply sqrt_lt_R0; lra).
  assert (Hq : sqrt (1 - e2 * sin lat * sin lat) * sqrt (1 - e2 * sin lat * sin lat)
               = 1 - e2 * sin lat * sin lat) by (apply sqrt_sqrt; lra).
  replace (1 - e2 * (sin lat * sin lat)) with (1 - e2 * sin lat * sin lat) by ring.
  rewrite <- Hq at 3. field. lra.
Qed.

Lemma curv_ge : forall lat, a <= curv lat.
Proof using Ha He.
  intros lat. assert (H := curv_sqr lat). assert (Hc := curv_pos lat). assert (Hg := curv_arg lat).
  apply Rnot_lt_le. intro L.
  assert (curv lat * curv lat < a * a) by nra. nra.
Qed.

Lemma curv_of_square : forall lat n, 0 < n -> n * n * (1 - e2 * (sin lat * sin lat)) = a * a -> n = curv lat.
Proof using Ha He.
  intros lat n Hn H. assert (Hg := curv_arg lat). assert (Hc := curv_pos lat).
  apply sqr_eq_pos; [lra|lra|].
  apply Rmult_eq_reg_r with (1 - e2 * (sin lat * sin lat)); [|lra].
  rewrite curv_sqr. exact H.
Qed.

(** the points for which the quartic has the solution computed by the code *)
Definition solvable (p z : R) : Prop :=
  ferrari_domain ((p / a) * (p / a)) ((1 - e2) * ((z / a) * (z / a))) e2.

(** the root in terms of the computed values *)
Lemma geodetic_root : forall p z, 0 <= p -> solvable p z ->
  exists k, 0 < k
    /\ p * p * (k * k) + (1 - e2) * (z * z) * ((k + e2) * (k + e2))
       = (k * (k + e2)) * (k * (k + e2)) * (a * a)
    /\ geocentric2geodetic_ p z a e2
       = (atan2 (z * (1 + e2 / k)) p,
          norm2d p (z * (1 + e2 / k)) * (1 / (1 + e2 / k) - (1 - e2)) / e2).
Proof using Ha He.
  intros p z Hp Hd. unfold solvable in Hd.
  set (P := (p / a) * (p / a)) in *. set (Q := (1 - e2) * ((z / a) * (z / a))) in *.
  assert (HP : 0 <= P) by (unfold P; apply Rle_0_sqr).
  assert (HQ : 0 <= Q) by (unfold Q; apply Rmult_le_pos; [lra|apply Rle_0_sqr]).
  assert (He0 : 0 < e2) by lra.
  destruct (root_pos P Q e2 HP HQ He0 Hd) as [Hk Hkp].
  assert (Hq := root_quartic P Q e2 HP HQ He0 Hd). cbv zeta in Hq.
  exists (ferrari_root P Q e2). set (k := ferrari_root P Q e2) in *.
  split; [exact Hk|]. split.
  - etransitivity; [|rewrite <- Hq; reflexivity]. unfold P, Q. field. lra.
  - rewrite <- Hkp. reflexivity.
Qed.

(** the geodetic coordinates computed for a point are coordinates of that point *)
Lemma geodetic_of_point : forall p z, 0 <= p -> solvable p z ->
  forall lat h, geocentric2geodetic_ p z a e2 = (lat, h) ->
  - (PI / 2) <= lat <= PI / 2
  /\ 0 < curv lat * (1 - e2) + h
  /\ geodetic2geocentric_ lat h a e2 = (p, z)
  /\ (0 < p -> - (PI / 2) < lat < PI / 2).
Proof using Ha He.
  intros p z Hp Hd lat h E.
  destruct (geodetic_root p z Hp Hd) as [k [Hk [Hq Eq]]].
  rewrite E in Eq. injection Eq as El Eh. clear E.
  set (kp := 1 + e2 / k) in *.
  assert (Ekp : kp = (k + e2) / k) by (unfold kp; field; lra).
  assert (H0 : p <> 0 \/ z * kp <> 0).
  { destruct (Req_dec p 0) as [Ep|Ep]; [|left; exact Ep]. right. intro Ez.
    assert (Hz : z = 0).
    { apply Rmult_integral in Ez. destruct Ez as [Ez|Ez]; [exact Ez|exfalso].
      assert (0 < kp) by (rewrite Ekp; apply Rdiv_lt_0_compat; lra). lra. }
    rewrite Ep, Hz in Hq.
    assert (0 < k * (k + e2)) by (apply Rmult_lt_0_compat; lra).
    assert (0 < (k * (k + e2)) * (k * (k + e2)) * (a * a)) by (apply Rmult_lt_0_compat; apply Rmult_lt_0_compat; lra).
    lra. }
  set (rho := norm2d p (z * kp)) in *.
  assert (Hrho : 0 < rho) by (apply norm2d_pos; exact H0).
  destruct (atan2_cos_sin (z * kp) p H0) as [Hc Hs]. fold rho in Hc, Hs.
  rewrite <- El in Hc, Hs.
  assert (HN : rho / (k + e2) = curv lat).
  { apply curv_of_square; [apply Rdiv_lt_0_compat; lra|].
    transitivity (((rho * rho) - e2 * ((rho * sin lat) * (rho * sin lat))) / ((k + e2) * (k + e2))).
    { field. lra. }
    rewrite Hs. unfold rho. rewrite norm2d_sqr, Ekp.
    apply Rmult_eq_reg_r with ((k * (k + e2)) * (k * (k + e2))).
    - transitivity (p * p * (k * k) + (1 - e2) * (z * z) * ((k + e2) * (k + e2))).
      + field. lra.
      + rewrite Hq. ring.
    - assert (0 < k * (k + e2)) by (apply Rmult_lt_0_compat; lra). nra. }
  assert (Hh : h = curv lat * (k - (1 - e2))).
  { rewrite Eh, <- HN, Ekp. field. lra. }
  assert (Hcp := curv_pos lat).
  split; [rewrite El; apply atan2_range_right; exact Hp|].
  split; [rewrite Hh; nra|].
  split.
  - unfold geodetic2geocentric_. fold (curv lat). f_equal.
    + rewrite Hh. transitivity (rho * cos lat); [|exact Hc].
      replace rho with (curv lat * (k + e2)) by (rewrite <- HN; field; lra). ring.
    + rewrite Hh. transitivity (k / (k + e2) * (rho * sin lat)).
      * replace rho with (curv lat * (k + e2)) by (rewrite <- HN; field; lra). field. lra.
      * rewrite Hs, Ekp. field. lra.
  - intros Hp'. rewrite El. apply atan2_range_right_lt. exact Hp'.
Qed.

(** the geodetic coordinates of a point are the computed ones *)
Lemma geodetic_unique : forall lat h, - (PI / 2) <= lat <= PI / 2 ->
  0 < curv lat * (1 - e2) + h ->
  forall p z, geodetic2geocentric_ lat h a e2 = (p, z) -> solvable p z ->
  geocentric2geodetic_ p z a e2 = (lat, h).
Proof using Ha He.
  intros lat h Hl Hh p z E Hd.
  unfold geodetic2geocentric_ in E. fold (curv lat) in E. injection E as Ep Ez.
  assert (Hcp := curv_pos lat). assert (Hc2 := curv_sqr lat).
  set (N := curv lat) in *.
  set (k0 := (1 - e2) + h / N).
  assert (Hk0 : 0 < k0).
  { unfold k0. apply Rmult_lt_reg_r with N; [exact Hcp|].
    replace ((1 - e2 + h / N) * N) with (N * (1 - e2) + h) by (field; lra). lra. }
  assert (Hhk : h = N * (k0 - (1 - e2))) by (unfold k0; field; lra).
  assert (Epk : p = N * (k0 + e2) * cos lat) by (rewrite <- Ep, Hhk; ring).
  assert (Ezk : z = N * k0 * sin lat) by (rewrite <- Ez, Hhk; ring).
  assert (Hcos : 0 <= cos lat) by (apply cos_ge_0; lra).
  assert (Hp : 0 <= p) by (rewrite Epk; apply Rmult_le_pos; [apply Rmult_le_pos|]; lra).
  destruct (geodetic_root p z Hp Hd) as [k [Hk [Hq Eq]]].
  assert (Ek : k0 = k).
  { apply (quartic_unique (p * p / (a * a)) ((1 - e2) * (z * z) / (a * a)) e2); try lra.
    - apply Rmult_le_pos; [apply Rle_0_sqr|left; apply Rinv_0_lt_compat; nra].
    - apply Rmult_le_pos; [apply Rmult_le_pos; [lra|apply Rle_0_sqr]|left; apply Rinv_0_lt_compat; nra].
    - apply Rmult_eq_reg_r with (a * a); [|nra].
      transitivity (p * p * (k0 * k0) + (1 - e2) * (z * z) * ((k0 + e2) * (k0 + e2))); [field; lra|].
      rewrite Epk, Ezk.
      assert (Hcs := sin2_cos2 lat). unfold Rsqr in Hcs.
      transitivity ((k0 * (k0 + e2)) * (k0 * (k0 + e2)) * (N * N * (cos lat * cos lat + (1 - e2) * (sin lat * sin lat)))); [ring|].
      rewrite <- Hc2.
      replace (cos lat * cos lat) with (1 - sin lat * sin lat) by lra. ring.
    - apply Rmult_eq_reg_r with (a * a); [|nra].
      transitivity (p * p * (k * k) + (1 - e2) * (z * z) * ((k + e2) * (k + e2))); [field; lra|].
      exact Hq. }
  rewrite <- Ek in Eq. rewrite Eq.
  assert (Ezp : z * (1 + e2 / k0) = N * (k0 + e2) * sin lat) by (rewrite Ezk; field; lra).
  assert (Hr : 0 < N * (k0 + e2)) by (apply Rmult_lt_0_compat; lra).
  assert (HPI := PI_RGT_0).
  rewrite Ezp, Epk, atan2_polar, norm2d_polar by lra.
  f_equal. rewrite Hhk. field. lra.
Qed.

(** a point far enough from the centre is solvable *)
Lemma solvable_far : forall p z,
  a * a * (e2 * e2) < (1 - e2) * (p * p + z * z) -> solvable p z.
Proof using Ha He.
  intros p z H. left. apply Rmult_lt_reg_r with (a * a); [nra|].
  replace ((p / a * (p / a) + (1 - e2) * (z / a * (z / a))) * (a * a))
    with (p * p + (1 - e2) * (z * z)) by (field; lra).
  assert (0 <= p * p) by apply Rle_0_sqr. nra.
Qed.

End Ellipsoid.
