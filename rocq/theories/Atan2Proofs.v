(** The angle computed by atan2 and asin. *)

From Coq Require Import Reals Lra.
From Verif Require Import GeoModel.
Open Scope R_scope.

Lemma norm2d_sqr : forall x y, norm2d x y * norm2d x y = x * x + y * y.
Proof. intros x y. unfold norm2d. apply sqrt_sqrt. nra. Qed.

Lemma norm2d_nonneg : forall x y, 0 <= norm2d x y.
Proof. intros. apply sqrt_pos. Qed.

Lemma norm2d_pos : forall x y, (x <> 0 \/ y <> 0) -> 0 < norm2d x y.
Proof. intros x y H. apply sqrt_lt_R0. destruct H; nra. Qed.

Lemma norm3d_sqr : forall x y z, norm3d x y z * norm3d x y z = x * x + y * y + z * z.
Proof. intros x y z. unfold norm3d. apply sqrt_sqrt. nra. Qed.

Lemma norm3d_nonneg : forall x y z, 0 <= norm3d x y z.
Proof. intros. apply sqrt_pos. Qed.

Lemma norm3d_pos : forall x y z, (x <> 0 \/ y <> 0 \/ z <> 0) -> 0 < norm3d x y z.
Proof. intros x y z H. apply sqrt_lt_R0. destruct H as [|[|]]; nra. Qed.

(** a non-negative number is determined by its square *)
Lemma sqr_eq_pos : forall a b, 0 <= a -> 0 <= b -> a * a = b * b -> a = b.
Proof. intros a b Ha Hb H. apply Rsqr_inj; auto. Qed.

Lemma cos_atan_pos : forall t, 0 < cos (atan t).
Proof. intros t. destruct (atan_bound t). apply cos_gt_0; lra. Qed.

Lemma atan_cos_sin : forall t,
  cos (atan t) * sqrt (1 + t * t) = 1 /\ sin (atan t) * sqrt (1 + t * t) = t.
Proof.
  intros t.
  assert (Hc := cos_atan_pos t).
  assert (Ht : sin (atan t) = t * cos (atan t)).
  { rewrite <- (tan_atan t) at 2. unfold tan. field. lra. }
  assert (Hs : 0 < sqrt (1 + t * t)) by (apply sqrt_lt_R0; nra).
  assert (Hq : sqrt (1 + t * t) * sqrt (1 + t * t) = 1 + t * t) by (apply sqrt_sqrt; nra).
  assert (H1 : sin (atan t) * sin (atan t) + cos (atan t) * cos (atan t) = 1).
  { assert (H := sin2_cos2 (atan t)). unfold Rsqr in H. exact H. }
  assert (Hcs : cos (atan t) * sqrt (1 + t * t) = 1).
  { apply sqr_eq_pos; [nra|lra|]. rewrite Ht in H1.
    replace (cos (atan t) * sqrt (1 + t * t) * (cos (atan t) * sqrt (1 + t * t)))
      with (cos (atan t) * cos (atan t) * (sqrt (1 + t * t) * sqrt (1 + t * t))) by ring.
    rewrite Hq. nra. }
  split; [exact Hcs|]. rewrite Ht, Rmult_assoc, Hcs. ring.
Qed.

Lemma norm2d_ratio : forall x y, x <> 0 -> norm2d x y = Rabs x * sqrt (1 + (y / x) * (y / x)).
Proof.
  intros x y H. apply sqr_eq_pos.
  - apply norm2d_nonneg.
  - apply Rmult_le_pos; [apply Rabs_pos|apply sqrt_pos].
  - rewrite norm2d_sqr.
    replace (Rabs x * sqrt (1 + y / x * (y / x)) * (Rabs x * sqrt (1 + y / x * (y / x))))
      with ((Rabs x * Rabs x) * (sqrt (1 + y / x * (y / x)) * sqrt (1 + y / x * (y / x)))) by ring.
    rewrite sqrt_sqrt by nra.
    replace (Rabs x * Rabs x) with (x * x) by (unfold Rabs; destruct (Rcase_abs x); ring).
    field. exact H.
Qed.

(** the angle points to the position *)
Lemma atan2_cos_sin : forall y x, (x <> 0 \/ y <> 0) ->
  norm2d x y * cos (atan2 y x) = x /\ norm2d x y * sin (atan2 y x) = y.
Proof.
  intros y x H. unfold atan2.
  destruct (Rlt_dec 0 x) as [Hx|Hx]; [|destruct (Rlt_dec x 0) as [Hx'|Hx']].
  - rewrite norm2d_ratio by lra. rewrite (Rabs_pos_eq x) by lra.
    destruct (atan_cos_sin (y / x)) as [Hc Hs]. split.
    + transitivity (x * (cos (atan (y / x)) * sqrt (1 + y / x * (y / x)))); [ring|].
      rewrite Hc. ring.
    + transitivity (x * (sin (atan (y / x)) * sqrt (1 + y / x * (y / x)))); [ring|].
      rewrite Hs. field. lra.
  - rewrite norm2d_ratio by lra. rewrite (Rabs_left x) by lra.
    destruct (atan_cos_sin (y / x)) as [Hc Hs].
    assert (Ec : cos (if Rlt_dec y 0 then atan (y / x) - PI else atan (y / x) + PI) = - cos (atan (y / x))).
    { destruct (Rlt_dec y 0); [rewrite cos_minus|rewrite cos_plus]; rewrite cos_PI, sin_PI; ring. }
    assert (Es : sin (if Rlt_dec y 0 then atan (y / x) - PI else atan (y / x) + PI) = - sin (atan (y / x))).
    { destruct (Rlt_dec y 0); [rewrite sin_minus|rewrite sin_plus]; rewrite cos_PI, sin_PI; ring. }
    rewrite Ec, Es. split.
    + transitivity (x * (cos (atan (y / x)) * sqrt (1 + y / x * (y / x)))); [ring|].
      rewrite Hc. ring.
    + transitivity (x * (sin (atan (y / x)) * sqrt (1 + y / x * (y / x)))); [ring|].
      rewrite Hs. field. lra.
  - assert (x = 0) by lra. subst x. destruct (Rlt_dec 0 y); [|destruct (Rlt_dec y 0)].
    + assert (E : norm2d 0 y = y). { apply sqr_eq_pos; [apply norm2d_nonneg|lra|]. rewrite norm2d_sqr. ring. }
      rewrite E, cos_PI2, sin_PI2. split; ring.
    + assert (E : norm2d 0 y = - y). { apply sqr_eq_pos; [apply norm2d_nonneg|lra|]. rewrite norm2d_sqr. ring. }
      rewrite E, cos_neg, sin_neg, cos_PI2, sin_PI2. split; ring.
    + exfalso. destruct H; lra.
Qed.

Lemma atan2_range : forall y x, - PI < atan2 y x <= PI.
Proof.
  intros y x. assert (HP := PI_RGT_0). unfold atan2. destruct (atan_bound (y / x)) as [Hl Hu].
  destruct (Rlt_dec 0 x); [lra|]. destruct (Rlt_dec x 0) as [Hx|Hx].
  - destruct (Rlt_dec y 0) as [Hy|Hy].
    + assert (0 < atan (y / x)); [|lra].
      rewrite <- atan_0. apply atan_increasing.
      assert (Hi : / x < 0) by (apply Rinv_lt_0_compat; lra). unfold Rdiv. nra.
    + assert (atan (y / x) <= 0); [|lra].
      destruct (Req_dec y 0) as [->|Hn].
      * unfold Rdiv. rewrite Rmult_0_l, atan_0. lra.
      * left. rewrite <- atan_0. apply atan_increasing.
        assert (Hi : / x < 0) by (apply Rinv_lt_0_compat; lra). unfold Rdiv. nra.
  - destruct (Rlt_dec 0 y); [lra|]. destruct (Rlt_dec y 0); lra.
Qed.

Lemma atan2_range_right : forall y x, 0 <= x -> - (PI / 2) <= atan2 y x <= PI / 2.
Proof.
  intros y x Hx. assert (HP := PI_RGT_0). unfold atan2. destruct (atan_bound (y / x)) as [Hl Hu].
  destruct (Rlt_dec 0 x); [lra|]. destruct (Rlt_dec x 0); [lra|].
  destruct (Rlt_dec 0 y); [lra|]. destruct (Rlt_dec y 0); lra.
Qed.

Lemma atan2_range_right_lt : forall y x, 0 < x -> - (PI / 2) < atan2 y x < PI / 2.
Proof.
  intros y x Hx. unfold atan2. destruct (atan_bound (y / x)) as [Hl Hu].
  destruct (Rlt_dec 0 x); lra.
Qed.

(** an angle in (-PI, PI] is determined by its cosine and sine *)
Lemma angle_unique : forall a b, - PI < a <= PI -> - PI < b <= PI ->
  cos a = cos b -> sin a = sin b -> a = b.
Proof.
  intros a b Ha Hb Hc Hs.
  assert (H1 : cos (a - b) = 1).
  { rewrite cos_minus, Hc, Hs. assert (H := sin2_cos2 b). unfold Rsqr in H. lra. }
  assert (H2 : cos (a - b) = 1 - 2 * sin ((a - b) / 2) * sin ((a - b) / 2)).
  { rewrite <- cos_2a_sin. f_equal. field. }
  assert (H3 : sin ((a - b) / 2) = 0) by nra.
  assert (HP := PI_RGT_0).
  destruct (Rtotal_order ((a - b) / 2) 0) as [H|[H|H]].
  - assert (sin ((a - b) / 2) < 0) by (apply sin_lt_0_var; lra). lra.
  - lra.
  - assert (0 < sin ((a - b) / 2)) by (apply sin_gt_0; lra). lra.
Qed.

(** the angle of a point given in polar coordinates *)
Lemma atan2_polar : forall r a, 0 < r -> - PI < a <= PI -> atan2 (r * sin a) (r * cos a) = a.
Proof.
  intros r a Hr Ha.
  assert (Hcs := sin2_cos2 a). unfold Rsqr in Hcs.
  assert (Hn : norm2d (r * cos a) (r * sin a) = r).
  { apply sqr_eq_pos; [apply norm2d_nonneg|lra|]. rewrite norm2d_sqr. nra. }
  assert (H0 : r * cos a <> 0 \/ r * sin a <> 0).
  { destruct (Req_dec (cos a) 0) as [E|E].
    - right. intro E2. apply Rmult_integral in E2. destruct E2; [lra|]. rewrite E in Hcs. nra.
    - left. intro E2. apply Rmult_integral in E2. destruct E2; lra. }
  destruct (atan2_cos_sin (r * sin a) (r * cos a) H0) as [Hc Hs].
  rewrite Hn in Hc, Hs.
  apply angle_unique; [apply atan2_range|exact Ha| |].
  - apply Rmult_eq_reg_l with r; lra.
  - apply Rmult_eq_reg_l with r; lra.
Qed.

Lemma norm2d_polar : forall r a, 0 <= r -> norm2d (r * cos a) (r * sin a) = r.
Proof.
  intros r a Hr. assert (Hcs := sin2_cos2 a). unfold Rsqr in Hcs.
  apply sqr_eq_pos; [apply norm2d_nonneg|lra|]. rewrite norm2d_sqr. nra.
Qed.

(** the latitude computed by asin is the one computed by atan2 *)
Lemma asin_atan2 : forall p z, 0 <= p -> (p <> 0 \/ z <> 0) -> asin (z / norm2d p z) = atan2 z p.
Proof.
  intros p z Hp H0.
  assert (Hn := norm2d_pos p z H0).
  destruct (atan2_cos_sin z p H0) as [Hc Hs].
  assert (E : z / norm2d p z = sin (atan2 z p)).
  { rewrite <- Hs at 1. field. lra. }
  rewrite E. apply asin_sin. destruct (atan2_range_right z p Hp). lra.
Qed.

Lemma norm3d_norm2d : forall x y z, norm3d x y z = norm2d (norm2d x y) z.
Proof.
  intros. apply sqr_eq_pos; [apply norm3d_nonneg|apply norm2d_nonneg|].
  rewrite norm3d_sqr, norm2d_sqr, norm2d_sqr. reflexivity.
Qed.
