(** The size of the field of the degrees of an expansion. *)
From Coq Require Import ZArith Reals Arith List Lia Lra Factorial.
From Coquelicot Require Import Coquelicot.
From Verif Require Import ArrModel LegendreModel ShEvalModel ShEvalProofs ShEvalGradProofs GradientProofs CoordModel CoordSpec CoordProofs ConvertProofs LegendreSpec LegendrePoly LegendreGauss ShEvalSpec ShEvalDeriv ShEvalHarmonic FieldSpec GeoModel TruncationSpec FieldSizeSpec NearPoleProofs SchmidtSumProofs PositionProofs.
Import ListNotations.
Open Scope R_scope.

(** ** Sums of the squares of the derivatives *)
Definition slopes (n : nat) (th : R) : R := sum_f_R0 (fun m => schmidt' n m th ^ 2) n.
Definition orders (n : nat) (th : R) : R := sum_f_R0 (fun m => INR m ^ 2 * schmidt n m th ^ 2) n.
Definition mixed (n : nat) (th : R) : R := sum_f_R0 (fun m => INR m ^ 2 * (schmidt n m th * schmidt' n m th)) n.

Lemma product_sum n th : sum_f_R0 (fun m => schmidt n m th * schmidt' n m th) n = 0.
Proof.
  assert (D : is_derive (fun t => sum_f_R0 (fun m => schmidt n m t ^ 2) n) th (2 * sum_f_R0 (fun m => schmidt n m th * schmidt' n m th) n)).
  { rewrite <- sum_scal. apply (is_derive_sum (fun m t => schmidt n m t ^ 2)). intros m _. eapply Rderive_eq; [|apply is_derive_pow, schmidt_D]. cbn. ring. }
  apply is_derive_unique in D. rewrite (Derive_ext _ (fun _ => 1)) in D by (intro; apply schmidt_sum). rewrite Derive_const in D. lra.
Qed.

Lemma near_inside th : cos th <> 0 -> locally th (fun t => cos t <> 0).
Proof. intro C. apply (continuous_cos th (fun y => y <> 0)). apply open_neq. exact C. Qed.

Lemma slopes_orders n th : cos th <> 0 -> cos th ^ 2 * slopes n th = INR n * (INR n + 1) * cos th ^ 2 - orders n th.
Proof.
  intro C. set (K := INR n * (INR n + 1)).
  assert (D : is_derive (fun t => sum_f_R0 (fun m => schmidt n m t * (cos t * schmidt' n m t)) n) th
    (sum_f_R0 (fun m => cos th * schmidt' n m th ^ 2 + (- K * cos th * schmidt n m th ^ 2 + / cos th * (INR m ^ 2 * schmidt n m th ^ 2))) n)).
  { apply (is_derive_sum (fun m t => schmidt n m t * (cos t * schmidt' n m t))). intros m _.
    eapply Rderive_eq; [|apply Rderive_mult; [apply schmidt_D|apply (schmidt_ode n m th C)]]. unfold K. field. exact C. }
  apply is_derive_unique in D.
  rewrite (Derive_ext _ (fun _ => 0)) in D.
  2:{ intro t. transitivity (cos t * sum_f_R0 (fun m => schmidt n m t * schmidt' n m t) n); [|rewrite product_sum; ring].
      rewrite <- sum_scal. apply sum_ext. intros. ring. }
  rewrite Derive_const in D. rewrite !sum_add, !sum_scal in D. rewrite schmidt_sum in D. fold (slopes n th) (orders n th) in D.
  apply (Rmult_eq_compat_l (cos th)) in D. rewrite Rmult_0_r in D.
  replace (cos th * (cos th * slopes n th + (- K * cos th * 1 + / cos th * orders n th))) with (cos th ^ 2 * slopes n th - K * cos th ^ 2 + orders n th) in D by (field; exact C).
  lra.
Qed.

Lemma orders_derive n th : is_derive (orders n) th (2 * mixed n th).
Proof.
  unfold mixed. rewrite <- sum_scal. apply (is_derive_sum (fun m t => INR m ^ 2 * schmidt n m t ^ 2)). intros m _.
  eapply Rderive_eq; [|apply Rderive_scal, is_derive_pow, schmidt_D]. cbn. ring.
Qed.

Lemma mixed_value n th : cos th <> 0 -> 2 * mixed n th = - (INR n * (INR n + 1)) * (cos th * sin th).
Proof.
  intro C. set (K := INR n * (INR n + 1)).
  pose proof (orders_derive n th) as DE.
  assert (DW : is_derive (fun t => sum_f_R0 (fun m => (cos t * schmidt' n m t) ^ 2) n) th (2 * mixed n th)).
  { apply Rderive_eq with (sum_f_R0 (fun m => 2 * (INR m ^ 2 * (schmidt n m th * schmidt' n m th)) + (- 2 * K * cos th ^ 2) * (schmidt n m th * schmidt' n m th)) n).
    - rewrite sum_add, !sum_scal, product_sum. unfold mixed. ring.
    - apply (is_derive_sum (fun m t => (cos t * schmidt' n m t) ^ 2)). intros m _.
      eapply Rderive_eq; [|apply is_derive_pow, (schmidt_ode n m th C)]. cbn. unfold K. field. exact C. }
  assert (DV : is_derive (fun t => sum_f_R0 (fun m => (cos t * schmidt' n m t) ^ 2) n) th (- 2 * K * (cos th * sin th) - 2 * mixed n th)).
  { apply is_derive_ext_loc with (fun t => K * cos t ^ 2 - orders n t).
    - apply (filter_imp (fun t => cos t <> 0)); [|now apply near_inside]. intros t Ct. unfold K. rewrite <- slopes_orders by exact Ct. unfold slopes.
      rewrite <- sum_scal. apply sum_ext. intros. ring.
    - eapply Rderive_eq; [|apply @is_derive_minus; [apply Rderive_scal, is_derive_pow, is_derive_cos|exact DE]]. unfold minus, plus, opp. cbn. ring. }
  pose proof (is_derive_unique _ _ _ DW) as E1. rewrite (is_derive_unique _ _ _ DV) in E1. lra.
Qed.

Lemma orders_value n th : -(PI / 2) <= th <= PI / 2 -> orders n th = INR n * (INR n + 1) / 2 * cos th ^ 2.
Proof.
  intro H. set (K := INR n * (INR n + 1)). set (f := fun t => orders n t - K / 2 * cos t ^ 2).
  assert (D : forall t, is_derive f t (2 * mixed n t + K * (cos t * sin t))).
  { intro t. unfold f. eapply Rderive_eq; [|apply @is_derive_minus; [apply orders_derive|apply Rderive_scal, is_derive_pow, is_derive_cos]].
    unfold minus, plus, opp. cbn -[mixed]. field. }
  assert (E : f th = f (PI / 2)).
  { destruct (MVT_gen f th (PI / 2) (fun t => 2 * mixed n t + K * (cos t * sin t))) as (z & Hz & E).
    - intros t _. apply D.
    - intros t _. apply continuity_pt_filterlim, @ex_derive_continuous. eexists; apply D.
    - rewrite Rmin_left, Rmax_right in Hz by lra.
      destruct (Req_dec z (PI / 2)) as [->|Nz].
      + rewrite cos_PI2 in E. assert (M : mixed n (PI / 2) = 0).
        { unfold mixed. rewrite (sum_ext _ (fun _ => 0 * 0)); [rewrite sum_scal; ring|]. intros [|m] _; [cbn; ring|]. rewrite schmidt_nf, cos_PI2, pow_i by lia. ring. }
        rewrite M in E. lra.
      + destruct (Req_dec z (- (PI / 2))) as [->|Nz'].
        * assert (M : mixed n (- (PI / 2)) = 0).
          { unfold mixed. rewrite (sum_ext _ (fun _ => 0 * 0)); [rewrite sum_scal; ring|]. intros [|m] _; [cbn; ring|]. rewrite schmidt_nf, cos_neg, cos_PI2, pow_i by lia. ring. }
          rewrite M, cos_neg, cos_PI2 in E. lra.
        * assert (Cz : cos z <> 0) by (apply Rgt_not_eq, cos_gt_0; lra). pose proof (mixed_value n z Cz) as M. fold K in M. rewrite M in E. lra. }
  unfold f in E. rewrite cos_PI2 in E.
  assert (O : orders n (PI / 2) = 0).
  { unfold orders. rewrite (sum_ext _ (fun _ => 0 * 0)); [rewrite sum_scal; ring|]. intros [|m] _; [cbn; ring|]. rewrite schmidt_nf, cos_PI2, pow_i by lia. ring. }
  rewrite O in E. cbn [pow] in *. lra.
Qed.

Lemma slopes_value n th : -(PI / 2) < th < PI / 2 -> slopes n th = INR n * (INR n + 1) / 2.
Proof.
  intro H. assert (C : 0 < cos th) by (apply cos_gt_0; lra). pose proof (slopes_orders n th ltac:(lra)) as A. rewrite orders_value in A by lra.
  apply (Rmult_eq_reg_l (cos th ^ 2)); [|apply pow_nonzero; lra]. lra.
Qed.

(** ** The poles *)
Definition turns (n : nat) (th : R) : R := sum_f_R0 (fun m => (INR m * over_cos n m th) ^ 2) n.

Lemma pole_order_one n x : (1 <= n)%nat -> x ^ 2 = 1 -> (nf n 1 * legendre_deriv n 1 x) ^ 2 = INR n * (INR n + 1) / 2.
Proof.
  intros Hn Hx. pose proof (L_ode n 0 x) as O. change (INR 0) with 0 in O. rewrite Hx in O.
  assert (P : legendre_deriv n 0 x ^ 2 = 1).
  { assert (X : x = 1 \/ x = -1) by (assert ((x - 1) * (x + 1) = 0) as [E|E]%Rmult_integral by (cbn in Hx; lra); lra).
    destruct X as [-> | ->]; [rewrite (proj1 (legendre_ends n)); ring|apply legendre_ends]. }
  pose proof (nf_square_step n 0 ltac:(lia)) as Q. rewrite nf_0 in Q. cbn [Nat.eqb] in Q. change (INR 0) with 0 in Q.
  assert (N1 : 1 <= INR n) by (apply (le_INR 1); exact Hn).
  set (p := legendre_deriv n 0 x) in *. set (q := legendre_deriv n 1 x) in *. set (K := INR n * (INR n + 1)).
  assert (HK : 0 < K) by (unfold K; apply Rmult_lt_0_compat; lra).
  assert (E : 2 * x * q = K * p) by (unfold K; lra).
  assert (E2 : 4 * q ^ 2 = K ^ 2). { transitivity ((2 * x * q) ^ 2); [replace ((2 * x * q) ^ 2) with (4 * x ^ 2 * q ^ 2) by ring; rewrite Hx; ring|]. rewrite E. replace ((K * p) ^ 2) with (K ^ 2 * p ^ 2) by ring. rewrite P. ring. }
  replace ((nf n 1 * q) ^ 2) with (nf n 1 ^ 2 * q ^ 2) by ring. replace (q ^ 2) with (K ^ 2 / 4) by lra.
  assert (Q' : nf n 1 ^ 2 * K = 2) by (unfold K; replace (INR n * (INR n + 1)) with ((INR n - 0) * (INR n + 0 + 1)) by ring; rewrite Q; ring).
  replace (nf n 1 ^ 2 * (K ^ 2 / 4)) with ((nf n 1 ^ 2 * K) * K / 4) by field. rewrite Q'. field.
Qed.

Lemma sum_only_one (f : nat -> R) n : (forall m, m <> 1%nat -> f m = 0) -> sum_f_R0 f n = if Nat.leb 1 n then f 1%nat else 0.
Proof.
  intro H. induction n as [|n IH]; cbn [sum_f_R0 Nat.leb]; [apply H; lia|]. rewrite IH. destruct n as [|n]; cbn [Nat.leb]; [ring|]. rewrite (H (S (S n))) by lia. ring.
Qed.

Lemma turns_value n th : -(PI / 2) <= th <= PI / 2 -> turns n th = INR n * (INR n + 1) / 2.
Proof.
  intro H. destruct (Req_dec (cos th) 0) as [C|C].
  - pose proof (sin2_cos2 th) as Q. unfold Rsqr in Q. rewrite C in Q. unfold turns. rewrite sum_only_one.
    + destruct n as [|n]; cbn [Nat.leb]; [cbn; field|]. rewrite <- (pole_order_one (S n) (sin th)) by (try lia; cbn; lra). unfold over_cos. change (INR 1) with 1. cbn [pred pow]. ring.
    + intros [|[|m]] Hm; [cbn; ring|lia|]. unfold over_cos. cbn [pred]. rewrite C, pow_i by lia. ring.
  - pose proof (orders_value n th H) as E. apply (Rmult_eq_reg_l (cos th ^ 2)); [|now apply pow_nonzero].
    rewrite (Rmult_comm _ (_ / 2)), <- E. unfold turns, orders. rewrite <- sum_scal. apply sum_ext. intros [|m] _; [cbn; ring|].
    rewrite <- over_cos_eq by (auto; lia). field. exact C.
Qed.

Lemma slopes_everywhere n th : -(PI / 2) <= th <= PI / 2 -> slopes n th = INR n * (INR n + 1) / 2.
Proof.
  intro H. destruct (Req_dec (cos th) 0) as [C|C].
  - pose proof (sin2_cos2 th) as Q. unfold Rsqr in Q. rewrite C in Q. unfold slopes. rewrite sum_only_one.
    + destruct n as [|n]; cbn [Nat.leb]; [cbn; field|]. rewrite <- (pole_order_one (S n) (sin th)) by (try lia; cbn; lra). rewrite schmidt'_eq, C.
      change (INR 1) with 1. cbn [pred pow].
      match goal with |- ?a = ?b => replace a with ((sin th * sin th) * b) by ring end. replace (sin th * sin th) with 1 by lra. ring.
    + intros [|[|m]] Hm; [|lia|]; rewrite schmidt'_eq, C; [cbn [INR]; ring|]. cbn [pred]. rewrite !pow_i by lia. ring.
  - apply slopes_value. assert (th <> PI / 2) by (intros ->; apply C, cos_PI2). assert (th <> - (PI / 2)) by (intros ->; apply C; rewrite cos_neg; apply cos_PI2). lra.
Qed.

(** ** One degree in any direction *)
Lemma pair_bound g h x y : Rabs (g * x + h * y) <= sqrt (g ^ 2 + h ^ 2) * sqrt (x ^ 2 + y ^ 2).
Proof.
  pose proof (pow2_ge_0 g). pose proof (pow2_ge_0 h). pose proof (pow2_ge_0 x). pose proof (pow2_ge_0 y).
  rewrite <- sqrt_mult by lra. rewrite <- sqrt_Rsqr_abs. apply sqrt_le_1_alt. unfold Rsqr. pose proof (pow2_ge_0 (g * y - h * x)). nra.
Qed.

Lemma direction_bound (gh : nat -> nat -> R * R) n th ph (w : nat -> R) al be ga : -(PI / 2) <= th <= PI / 2 -> (forall m, w m ^ 2 <= 1) ->
  Rabs (sum_f_R0 (fun m => harmonic (gh n m) m ph * (al * schmidt' n m th + ga * schmidt n m th) + harmonic' (gh n m) m ph * (w m * be * over_cos n m th)) n)
    <= degree_size gh n * sqrt ((al ^ 2 + be ^ 2) * (INR n * (INR n + 1) / 2) + ga ^ 2).
Proof.
  intros Ht Hw. set (a := fun m => al * schmidt' n m th + ga * schmidt n m th). set (b := fun m => w m * be * (INR m * over_cos n m th)).
  apply Rle_trans with (sum_f_R0 (fun m => sqrt (fst (gh n m) ^ 2 + snd (gh n m) ^ 2) * sqrt (a m ^ 2 + b m ^ 2)) n).
  - apply sum_abs_le. intros m _.
    replace (a m ^ 2 + b m ^ 2) with ((cos (INR m * ph) * a m - sin (INR m * ph) * b m) ^ 2 + (sin (INR m * ph) * a m + cos (INR m * ph) * b m) ^ 2).
    2:{ pose proof (sin2_cos2 (INR m * ph)) as Q. unfold Rsqr in Q. set (c := cos _) in *. set (s := sin _) in *.
        transitivity ((s * s + c * c) * (a m ^ 2 + b m ^ 2)); [ring|]. rewrite Q. ring. }
    match goal with |- Rabs ?x <= _ => replace x with (fst (gh n m) * (cos (INR m * ph) * a m - sin (INR m * ph) * b m) + snd (gh n m) * (sin (INR m * ph) * a m + cos (INR m * ph) * b m)) end.
    + apply pair_bound.
    + unfold harmonic, harmonic', a, b. ring.
  - eapply Rle_trans; [apply Rle_abs|]. eapply Rle_trans; [apply (cauchy (fun m => sqrt (fst (gh n m) ^ 2 + snd (gh n m) ^ 2)) (fun m => sqrt (a m ^ 2 + b m ^ 2)))|]. cbn beta.
    apply Rmult_le_compat; try apply sqrt_pos.
    + right. unfold degree_size. f_equal. apply sum_ext. intros m _. apply pow2_sqrt. pose proof (pow2_ge_0 (fst (gh n m))). pose proof (pow2_ge_0 (snd (gh n m))). lra.
    + apply sqrt_le_1_alt.
      apply Rle_trans with (al ^ 2 * slopes n th + 2 * al * ga * sum_f_R0 (fun m => schmidt n m th * schmidt' n m th) n + ga ^ 2 * sum_f_R0 (fun m => schmidt n m th ^ 2) n + be ^ 2 * turns n th).
      * unfold slopes, turns. rewrite <- !sum_scal, <- !sum_add. apply sum_Rle. intros m _. rewrite pow2_sqrt by (pose proof (pow2_ge_0 (a m)); pose proof (pow2_ge_0 (b m)); lra).
        unfold a, b. pose proof (Hw m) as W. set (o := INR m * over_cos n m th). replace ((w m * be * o) ^ 2) with (w m ^ 2 * (be * o) ^ 2) by ring.
        pose proof (pow2_ge_0 (be * o)). nra.
      * rewrite product_sum, schmidt_sum, turns_value, slopes_everywhere by exact Ht. right. ring.
Qed.

(** ** The whole field *)
Lemma rate_square internal n (u1 u2 u3 : R) : (u1 ^ 2 + u2 ^ 2) * (INR n * (INR n + 1) / 2) + (u3 * radial_rate internal n) ^ 2 <=
  (u1 ^ 2 + u2 ^ 2 + u3 ^ 2) * (if internal then INR n + 1 else INR n) ^ 2.
Proof.
  assert (K : INR n * (INR n + 1) / 2 <= (if internal then INR n + 1 else INR n) ^ 2).
  { pose proof (pos_INR n) as P. destruct internal; [nra|]. destruct n as [|n]; [cbn; lra|]. rewrite S_INR in *. pose proof (pos_INR n). nra. }
  unfold radial_rate. pose proof (pow2_ge_0 u1). pose proof (pow2_ge_0 u2).
  replace ((u3 * (if internal then - (INR n + 1) else INR n)) ^ 2) with (u3 ^ 2 * (if internal then INR n + 1 else INR n) ^ 2) by (destruct internal; ring).
  assert ((u1 ^ 2 + u2 ^ 2) * (INR n * (INR n + 1) / 2) <= (u1 ^ 2 + u2 ^ 2) * (if internal then INR n + 1 else INR n) ^ 2) by (apply Rmult_le_compat_l; lra). lra.
Qed.

Definition weight (th : R) (m : nat) : R := if near th then (if Nat.leb m 1 then 1 else 0) else 1.

Lemma along internal gh N lat lon rad u1 u2 u3 : -90 <= lat <= 90 -> rad <> 0 ->
  let '(n, e, u) := gradient_at internal gh N lat lon rad in
  Rabs (u1 * n + u2 * e + u3 * u) <= sqrt (u1 ^ 2 + u2 ^ 2 + u3 ^ 2) * whole_field internal gh N rad.
Proof.
  intros Hl Hr. unfold gradient_at. cbv zeta. pose proof (lat_range lat Hl) as Ht. set (th := DG2RAD * lat) in *. set (ph := DG2RAD * lon).
  assert (Hr' : Rabs rad <> 0) by now apply Rabs_no_R0.
  set (Z := fun n => sum_f_R0 (fun m => harmonic (gh n m) m ph * (u1 * schmidt' n m th + u3 * radial_rate internal n * schmidt n m th) + harmonic' (gh n m) m ph * (weight th m * u2 * over_cos n m th)) n).
  assert (E : u1 * (/ rad * pot_el internal 6371.2 gh N rad th ph) + u2 * (/ rad * az_over_cos internal 6371.2 (east_gh gh th) N rad th ph) + u3 * pot_rd internal 6371.2 gh N rad th ph
    = 6371.2 / rad * sum_f_R0 (fun n => radial internal 6371.2 n rad * Z n) N).
  { unfold pot_el, az_over_cos, pot_rd.
    transitivity (6371.2 / rad * (u1 * sum_f_R0 (fun n => radial internal 6371.2 n rad * sum_f_R0 (fun m => harmonic (gh n m) m ph * schmidt' n m th) n) N
      + u2 * sum_f_R0 (fun n => radial internal 6371.2 n rad * sum_f_R0 (fun m => harmonic' (east_gh gh th n m) m ph * over_cos n m th) n) N
      + u3 * (rad * sum_f_R0 (fun n => radial_rate internal n * radial internal 6371.2 n rad / rad * sum_f_R0 (fun m => harmonic (gh n m) m ph * schmidt n m th) n) N))); [field; exact Hr|].
    f_equal. rewrite <- !sum_scal, <- !sum_add. apply sum_ext. intros n _. unfold Z.
    transitivity (radial internal 6371.2 n rad * (u1 * sum_f_R0 (fun m => harmonic (gh n m) m ph * schmidt' n m th) n
      + u2 * sum_f_R0 (fun m => harmonic' (east_gh gh th n m) m ph * over_cos n m th) n
      + u3 * radial_rate internal n * sum_f_R0 (fun m => harmonic (gh n m) m ph * schmidt n m th) n)); [field; exact Hr|].
    f_equal. rewrite <- !sum_scal, <- !sum_add. apply sum_ext. intros m _.
    replace (harmonic' (east_gh gh th n m) m ph) with (weight th m * harmonic' (gh n m) m ph); [ring|].
    unfold east_gh, weight. destruct (near th); [|ring]. unfold low_orders. destruct (Nat.leb m 1); [ring|]. unfold harmonic'. cbn. ring. }
  rewrite E, Rabs_mult. unfold Rdiv. rewrite Rabs_mult, Rabs_inv, (Rabs_pos_eq 6371.2) by lra. unfold whole_field, Rdiv.
  match goal with |- ?a * _ <= ?s * (?a * ?b) => replace (s * (a * b)) with (a * (s * b)) by ring end.
  apply Rmult_le_compat_l; [apply Rmult_le_pos; [lra|left; apply Rinv_0_lt_compat; now apply Rabs_pos_lt]|].
  rewrite <- sum_scal. apply sum_abs_le. intros n _. rewrite Rabs_mult.
  apply Rle_trans with (Rabs (radial internal 6371.2 n rad) * (degree_size gh n * sqrt ((u1 ^ 2 + u2 ^ 2) * (INR n * (INR n + 1) / 2) + (u3 * radial_rate internal n) ^ 2))).
  - apply Rmult_le_compat_l; [apply Rabs_pos|]. apply (direction_bound gh n th ph (weight th) u1 u2 (u3 * radial_rate internal n)); [exact Ht|].
    intro m. unfold weight. destruct (near th); [destruct (Nat.leb m 1)|]; lra.
  - match goal with |- _ <= ?s * (?k * ?r * ?d) => replace (s * (k * r * d)) with (r * (d * (s * k))) by ring end.
    apply Rmult_le_compat_l; [apply Rabs_pos|]. apply Rmult_le_compat_l; [apply sqrt_pos|].
    assert (Kp : 0 <= (if internal then INR n + 1 else INR n)) by (pose proof (pos_INR n); destruct internal; lra).
    rewrite <- (sqrt_pow2 (if internal then INR n + 1 else INR n)) by exact Kp.
    rewrite <- sqrt_mult by (first [apply pow2_ge_0 | pose proof (pow2_ge_0 u1); pose proof (pow2_ge_0 u2); pose proof (pow2_ge_0 u3); lra]).
    apply sqrt_le_1_alt, rate_square.
Qed.

Lemma field_bound internal gh N lat lon rad g : -90 <= lat <= 90 -> rad <> 0 ->
  field_of internal gh N lat lon rad g -> vector_length g <= whole_field internal gh N rad.
Proof.
  intros Hl Hr F. rewrite (field_unique internal gh N lat lon rad _ _ Hl Hr F (gradient_field internal gh N lat lon rad Hl Hr)).
  pose proof (along internal gh N lat lon rad) as A. destruct (gradient_at internal gh N lat lon rad) as [[n e] u]. cbn [opposite vector_length].
  specialize (A n e u Hl Hr). replace ((- n) ^ 2 + (- e) ^ 2 + (- u) ^ 2) with (n ^ 2 + e ^ 2 + u ^ 2) by ring.
  set (q := n ^ 2 + e ^ 2 + u ^ 2) in *. assert (Hq : 0 <= q) by (pose proof (pow2_ge_0 n); pose proof (pow2_ge_0 e); pose proof (pow2_ge_0 u); unfold q; lra).
  replace (n * n + e * e + u * u) with (sqrt q * sqrt q) in A by (rewrite sqrt_sqrt by exact Hq; unfold q; ring).
  destruct (Req_dec (sqrt q) 0) as [Z|Z].
  - rewrite Z. unfold whole_field. apply Rmult_le_pos; [apply Rmult_le_pos; [lra|left; apply Rinv_0_lt_compat; now apply Rabs_pos_lt]|].
    apply cond_pos_sum. intro k. apply Rmult_le_pos; [apply Rmult_le_pos; [pose proof (pos_INR k); destruct internal; lra|apply Rabs_pos]|apply sqrt_pos].
  - pose proof (sqrt_pos q). rewrite Rabs_pos_eq in A by nra. apply (Rmult_le_reg_l (sqrt q)); [lra|exact A].
Qed.

(** ** Truncation *)
Definition above (gh : nat -> nat -> R * R) (N n m : nat) : R * R := if Nat.leb n N then (0, 0) else gh n m.

Lemma above_gradient internal gh N M lat lon rad : (N <= M)%nat ->
  gradient_at internal (above gh N) M lat lon rad = vector_minus (gradient_at internal gh M lat lon rad) (gradient_at internal gh N lat lon rad).
Proof.
  intro H. assert (G : forall (f g : nat -> R), (forall n, f n = if Nat.leb n N then 0 else g n) -> sum_f_R0 f M = sum_f_R0 g M - sum_f_R0 g N).
  { intros f g E. induction M as [|M IH].
    - replace N with 0%nat in * by lia. cbn [sum_f_R0]. rewrite E. cbn. ring.
    - destruct (Nat.eq_dec N (S M)) as [->|Ne].
      + rewrite (sum_ext f (fun _ => 0 * 0)); [rewrite sum_scal; ring|]. intros i Hi. rewrite E, (proj2 (Nat.leb_le i (S M)) Hi). ring.
      + rewrite !(tech5 _ M), IH by lia. rewrite E, (proj2 (Nat.leb_gt (S M) N)) by lia. ring. }
  unfold gradient_at, vector_minus, pot_el, az_over_cos, pot_rd.
  assert (Hz : forall m p, harmonic (0, 0) m p = 0) by (intros; unfold harmonic; cbn; ring).
  assert (Hz' : forall m p, harmonic' (0, 0) m p = 0) by (intros; unfold harmonic'; cbn; ring).
  f_equal; [f_equal|].
  - rewrite <- !Rmult_minus_distr_l. do 2 f_equal. apply G. intro n. unfold above. destruct (Nat.leb n N); [|reflexivity].
    rewrite (sum_ext _ (fun _ => 0 * 0)); [rewrite sum_scal; ring|]. intros m _. rewrite Hz. ring.
  - rewrite <- !Rmult_minus_distr_l. do 2 f_equal. apply G. intro n. unfold above, east_gh, low_orders. destruct (near _).
    + destruct (Nat.leb n N); [|reflexivity]. rewrite (sum_ext _ (fun _ => 0 * 0)); [rewrite sum_scal; ring|]. intros m _. destruct (Nat.leb m 1); rewrite Hz'; ring.
    + destruct (Nat.leb n N); [|reflexivity]. rewrite (sum_ext _ (fun _ => 0 * 0)); [rewrite sum_scal; ring|]. intros m _. rewrite Hz'. ring.
  - rewrite <- !Rmult_minus_distr_l. f_equal. apply G. intro n. unfold above. destruct (Nat.leb n N); [|reflexivity].
    rewrite (sum_ext _ (fun _ => 0 * 0)); [rewrite sum_scal; ring|]. intros m _. rewrite Hz. ring.
Qed.

Lemma field_truncation internal gh N M lat lon rad g g' : (N <= M)%nat -> -90 <= lat <= 90 -> rad <> 0 ->
  field_of internal gh N lat lon rad g -> field_of internal gh M lat lon rad g' ->
  vector_length (vector_minus g' g) <= remaining_field internal gh N M rad.
Proof.
  intros H Hl Hr F F'.
  rewrite (field_unique internal gh N lat lon rad _ _ Hl Hr F (gradient_field internal gh N lat lon rad Hl Hr)).
  rewrite (field_unique internal gh M lat lon rad _ _ Hl Hr F' (gradient_field internal gh M lat lon rad Hl Hr)).
  replace (vector_minus (opposite (gradient_at internal gh M lat lon rad)) (opposite (gradient_at internal gh N lat lon rad))) with (opposite (gradient_at internal (above gh N) M lat lon rad)).
  2:{ rewrite above_gradient by exact H. destruct (gradient_at internal gh M lat lon rad) as [[a b] c], (gradient_at internal gh N lat lon rad) as [[a' b'] c']. cbn. f_equal; [f_equal|]; ring. }
  eapply Rle_trans; [apply (field_bound internal (above gh N) M lat lon rad); [exact Hl|exact Hr|now apply gradient_field]|].
  right. unfold whole_field, remaining_field. f_equal. apply sum_ext. intros n _. destruct (Nat.leb n N) eqn:E; [|unfold degree_size, above; rewrite E; reflexivity].
  assert (Z : degree_size (above gh N) n = 0); [|rewrite Z; ring]. unfold degree_size. rewrite (sum_ext _ (fun _ => 0 * 0)); [rewrite sum_scal, Rmult_0_l; apply sqrt_0|].
  intros m _. unfold above. rewrite E. cbn. ring.
Qed.
