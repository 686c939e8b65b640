(** The bound of the terms left out close to the poles. *)
From Coq Require Import Bool List Arith ZArith Reals Lia Lra.
From Coquelicot Require Import Coquelicot.
From Verif Require Import ArrModel LegendreModel LegendreSpec LegendrePoly LegendreGauss LegendreLow LegendreHigh GeoModel CoefModel
  ShEvalModel ShEvalSpec ShEvalSum ShEvalDeriv ShEvalHarmonic ShEvalProofs ShEvalGradProofs ShEvalLinProofs ShEvalExamples FieldSpec GradientProofs
  PositionProofs NearPoleSpec.
Import ListNotations.
Open Scope R_scope.
Set Bullet Behavior "Strict Subproofs".

(** ** The Legendre polynomials and their derivatives are largest at 1 *)
Lemma legendre_ends n : legendre_deriv n 0 1 = 1 /\ legendre_deriv n 0 (-1) ^ 2 = 1.
Proof.
  induction n as [|n [I1 I2]].
  - rewrite !L_0_0. lra.
  - pose proof (L_B n 1) as A. pose proof (L_B n (-1)) as B.
    replace (1 ^ 2 - 1) with 0 in A by ring. replace ((-1) ^ 2 - 1) with 0 in B by ring. rewrite Rmult_0_l, Rplus_0_l in A, B.
    assert (P : INR n + 1 <> 0) by (pose proof (pos_INR n); lra). split.
    + apply (Rmult_eq_reg_l (INR n + 1)); [|exact P]. rewrite A, I1. ring.
    + assert (E : legendre_deriv (S n) 0 (-1) = - legendre_deriv n 0 (-1)) by (apply (Rmult_eq_reg_l (INR n + 1)); [|exact P]; rewrite B; ring).
      rewrite E. rewrite <- I2. ring.
Qed.

Lemma legendre_bound n x : -1 <= x <= 1 -> Rabs (legendre_deriv n 0 x) <= 1.
Proof.
  intro Hx. destruct n as [|n]; [rewrite L_0_0, Rabs_R1; lra|].
  set (K := INR (S n) * (INR (S n) + 1)). assert (HK : 0 < K) by (unfold K; rewrite S_INR; pose proof (pos_INR n); apply Rmult_lt_0_compat; lra).
  set (P := legendre_deriv (S n) 0). set (P' := legendre_deriv (S n) 1). set (P'' := legendre_deriv (S n) 2).
  set (f := fun t => P t ^ 2 + (1 - t ^ 2) * P' t ^ 2 / K).
  assert (Df : forall t, is_derive f t (2 * t * P' t ^ 2 / K)).
  { intro t. pose proof (L_is_derive (S n) 0 t) as D0. pose proof (L_is_derive (S n) 1 t) as D1. fold P P' P'' in D0, D1.
    pose proof (L_ode (S n) 0 t) as O. fold P P' P'' in O. change (INR 0) with 0 in O.
    unfold f. auto_derive.
    - split; [now exists (P' t)|]. split; [now exists (P'' t)|trivial].
    - change (Derive (fun x => P x) t) with (Derive P t). change (Derive (fun x => P' x) t) with (Derive P' t).
      rewrite (is_derive_unique _ _ _ D0), (is_derive_unique _ _ _ D1).
      assert (O' : (1 - t ^ 2) * P'' t = 2 * t * P' t - K * P t).
      { unfold K. match type of O with ?l = 0 => transitivity (l + (2 * t * P' t - INR (S n) * (INR (S n) + 1) * P t)); [ring|rewrite O; ring] end. }
      transitivity (2 * P t * P' t + (- 2 * t * P' t ^ 2 + 2 * P' t * ((1 - t ^ 2) * P'' t)) / K); [field; lra|].
      rewrite O'. field. lra. }
  assert (Mf : f x <= 1).
  { destruct (legendre_ends (S n)) as [E1 E2]. fold P in E1, E2.
    assert (F1 : f 1 = 1) by (unfold f; rewrite E1; field; lra). assert (F2 : f (-1) = 1) by (unfold f; rewrite E2; field; lra).
    assert (Sq : forall c, 0 <= P' c ^ 2) by (intro; apply pow2_ge_0).
    destruct (Rle_dec 0 x) as [L|L].
    - rewrite <- F1. destruct (MVT_gen f x 1 (fun t => 2 * t * P' t ^ 2 / K)) as (c & Hc & E).
      + intros t _. apply Df.
      + intros t _. apply derivable_continuous_pt, ex_derive_Reals_0. eexists. apply Df.
      + rewrite Rmin_left, Rmax_right in Hc by lra. assert (0 <= 2 * c * P' c ^ 2 / K * (1 - x)); [|lra].
        apply Rmult_le_pos; [|lra]. apply Rmult_le_pos; [|left; now apply Rinv_0_lt_compat]. apply Rmult_le_pos; [lra|apply Sq].
    - rewrite <- F2. destruct (MVT_gen f (-1) x (fun t => 2 * t * P' t ^ 2 / K)) as (c & Hc & E).
      + intros t _. apply Df.
      + intros t _. apply derivable_continuous_pt, ex_derive_Reals_0. eexists. apply Df.
      + rewrite Rmin_left, Rmax_right in Hc by lra. assert (0 <= 2 * (- c) * P' c ^ 2 / K * (x - -1)); [|unfold Rdiv in *; lra].
        apply Rmult_le_pos; [|lra]. apply Rmult_le_pos; [|left; now apply Rinv_0_lt_compat]. apply Rmult_le_pos; [lra|apply Sq]. }
  assert (Q : P x ^ 2 <= 1).
  { assert (0 <= (1 - x ^ 2) * P' x ^ 2 / K); [|unfold f in Mf; lra].
    apply Rmult_le_pos; [|left; now apply Rinv_0_lt_compat]. apply Rmult_le_pos; [|apply pow2_ge_0]. nra. }
  apply Rabs_le. fold P. nra.
Qed.

Lemma legendre_deriv_bound n : forall k x, -1 <= x <= 1 -> Rabs (legendre_deriv n k x) <= legendre_deriv n k 1.
Proof.
  induction n as [|n IH]; intros k x Hx.
  - destruct k as [|k]; [rewrite !L_0_0, Rabs_R1; lra|]. rewrite !L_above by lia. rewrite Rabs_R0. lra.
  - destruct k as [|k]; [rewrite (proj1 (legendre_ends (S n))); now apply legendre_bound|].
    rewrite !L_A. eapply Rle_trans; [apply Rabs_triang|]. rewrite !Rabs_mult. pose proof (IH (S k) x Hx) as A. pose proof (IH k x Hx) as B.
    pose proof (pos_INR n) as Pn. pose proof (pos_INR k) as Pk. rewrite (Rabs_pos_eq (INR n + 1 + INR k)) by lra.
    apply Rplus_le_compat.
    + apply Rmult_le_compat; [apply Rabs_pos|apply Rabs_pos| |exact A]. apply Rabs_le. lra.
    + apply Rmult_le_compat_l; [lra|exact B].
Qed.

Lemma legendre_at_one n : forall k, (k <= n)%nat -> legendre_deriv n k 1 = INR (fact (n + k)) / (2 ^ k * INR (fact k) * INR (fact (n - k))).
Proof.
  induction k as [|k IH]; intro Hk.
  - rewrite (proj1 (legendre_ends n)), Nat.add_0_r, Nat.sub_0_r. cbn. field. apply INR_fact_neq_0.
  - pose proof (L_ode n k 1) as O. rewrite (IH ltac:(lia)) in O.
    replace (fact (n - k)) with (((n - S k) + 1) * fact (n - S k))%nat in O by (replace (n - k)%nat with (S (n - S k)) by lia; cbn [fact]; lia).
    replace (n + S k)%nat with (S (n + k)) by lia. rewrite (fact_simpl (n + k)), (fact_simpl k), !mult_INR. cbn [pow].
    rewrite mult_INR, plus_INR, minus_INR in O by lia. rewrite !S_INR, plus_INR in *. change (INR 0) with 0 in O.
    pose proof (INR_fact_neq_0 (n - S k)) as F1. pose proof (INR_fact_neq_0 k) as F2. assert (F3 : 2 ^ k <> 0) by (apply pow_nonzero; lra).
    assert (F4 : INR k + 1 <> 0) by (pose proof (pos_INR k); lra).
    assert (F5 : INR n - INR k <> 0). { assert (INR k < INR n) by (apply lt_INR; lia). lra. }
    assert (O' : 2 * (INR k + 1) * legendre_deriv n (S k) 1 = (INR n - INR k) * (INR n + INR k + 1) *
      (INR (fact (n + k)) / (2 ^ k * INR (fact k) * ((INR n - (INR k + 1) + (0 + 1)) * INR (fact (n - S k)))))).
    { replace (1 ^ 2) with 1 in O by ring. lra. }
    apply (Rmult_eq_reg_l (2 * (INR k + 1))); [|lra]. rewrite O'. field. repeat split; auto. lra.
Qed.

Lemma pole_factor_eq n m : (1 <= m <= n)%nat -> nf n m * legendre_deriv n m 1 = pole_factor n m.
Proof.
  intros [H1 H2]. rewrite legendre_at_one by exact H2. unfold nf, pole_factor. destruct (Nat.eqb_spec m 0) as [->|_]; [lia|].
  pose proof (INR_fact_lt_0 (n - m)) as A. pose proof (INR_fact_lt_0 (n + m)) as B. pose proof (INR_fact_lt_0 m) as C.
  assert (D : 0 < 2 ^ m) by (apply pow_lt; lra).
  set (a := INR (fact (n - m))) in *. set (b := INR (fact (n + m))) in *. set (c := INR (fact m)) in *.
  replace (2 * b / a) with ((2 * a / b) * ((b / a) * (b / a))) by (field; lra).
  rewrite sqrt_mult_alt by (apply Rmult_le_pos; [lra|left; now apply Rinv_0_lt_compat]).
  rewrite sqrt_square by (apply Rmult_le_pos; [lra|left; now apply Rinv_0_lt_compat]). field. repeat split; lra.
Qed.

(** ** The terms left out *)
Lemma sum_abs_le f g n : (forall k, (k <= n)%nat -> Rabs (f k) <= g k) -> Rabs (sum_f_R0 f n) <= sum_f_R0 g n.
Proof.
  induction n as [|n IH]; intro H; cbn [sum_f_R0]; [now apply H|].
  eapply Rle_trans; [apply Rabs_triang|]. apply Rplus_le_compat; [apply IH; auto|now apply H].
Qed.

Lemma harmonic'_bound gh m ph : Rabs (harmonic' gh m ph) <= INR m * (Rabs (fst gh) + Rabs (snd gh)).
Proof.
  unfold harmonic'. rewrite Rabs_mult, Rabs_Ropp, (Rabs_pos_eq (INR m)) by apply pos_INR. apply Rmult_le_compat_l; [apply pos_INR|].
  unfold Rminus. eapply Rle_trans; [apply Rabs_triang|]. rewrite Rabs_Ropp, !Rabs_mult.
  assert (S : Rabs (sin (INR m * ph)) <= 1) by (apply Rabs_le; apply SIN_bound). assert (C : Rabs (cos (INR m * ph)) <= 1) by (apply Rabs_le; apply COS_bound).
  pose proof (Rabs_pos (fst gh)). pose proof (Rabs_pos (snd gh)). nra.
Qed.

Lemma over_cos_bound n m th : (2 <= m <= n)%nat -> 0 <= cos th -> Rabs (over_cos n m th) <= cos th * pole_factor n m.
Proof.
  intros [H1 H2] C. rewrite <- pole_factor_eq by lia. unfold over_cos. destruct m as [|[|m]]; [lia|lia|]. cbn [pred].
  rewrite !Rabs_mult, (Rabs_pos_eq (nf n (S (S m)))) by (left; apply nf_pos). rewrite <- RPow_abs, (Rabs_pos_eq (cos th)) by exact C. cbn [pow].
  assert (Pw : 0 <= cos th ^ m <= 1). { split; [now apply pow_le|]. rewrite <- (pow1 m). apply pow_incr. pose proof (COS_bound th). lra. }
  pose proof (legendre_deriv_bound n (S (S m)) (sin th) (SIN_bound th)) as B. pose proof (nf_pos n (S (S m))) as Nf. pose proof (Rabs_pos (legendre_deriv n (S (S m)) (sin th))) as B0.
  rewrite (Rmult_comm (nf n (S (S m)))), !Rmult_assoc. apply Rmult_le_compat_l; [exact C|].
  apply Rle_trans with (1 * (nf n (S (S m)) * legendre_deriv n (S (S m)) 1)); [|lra].
  apply Rmult_le_compat; [apply Pw|apply Rmult_le_pos; lra|apply Pw|]. apply Rmult_le_compat_l; [lra|exact B].
Qed.

Lemma omitted internal gh N rad th ph : rad <> 0 -> 0 <= cos th ->
  Rabs (/ rad * az_over_cos internal 6371.2 (low_orders gh) N rad th ph - / rad * az_over_cos internal 6371.2 gh N rad th ph) <= cos th * omitted_terms internal gh N rad.
Proof.
  intros Hr C. rewrite <- Rmult_minus_distr_l, Rabs_mult, Rabs_inv. unfold omitted_terms, az_over_cos.
  rewrite <- Rmult_minus_distr_l, Rabs_mult, (Rabs_pos_eq 6371.2) by lra.
  match goal with |- _ <= cos th * (6371.2 / Rabs rad * ?s) => apply Rle_trans with (/ Rabs rad * (6371.2 * (cos th * s))); [|right; unfold Rdiv; ring] end.
  apply Rmult_le_compat_l; [left; apply Rinv_0_lt_compat; now apply Rabs_pos_lt|]. apply Rmult_le_compat_l; [lra|].
  unfold Rminus at 1. rewrite <- sum_opp, <- sum_add, <- sum_scal. apply sum_abs_le. intros n _.
  rewrite Ropp_mult_distr_r, <- Rmult_plus_distr_l, Rabs_mult, <- Rmult_assoc, (Rmult_comm (cos th)), Rmult_assoc.
  apply Rmult_le_compat_l; [apply Rabs_pos|]. rewrite <- sum_opp, <- sum_add, <- sum_scal. apply sum_abs_le. intros m Hm.
  unfold low_orders. destruct (Nat.leb_spec m 1) as [L|L].
  - rewrite Rplus_opp_r, Rabs_R0. lra.
  - rewrite harmonic'_zero, Rmult_0_l, Rplus_0_l, Rabs_Ropp, Rabs_mult.
    apply Rle_trans with (INR m * (Rabs (fst (gh n m)) + Rabs (snd (gh n m))) * (cos th * pole_factor n m)); [|right; ring].
    apply Rmult_le_compat; [apply Rabs_pos|apply Rabs_pos|apply harmonic'_bound|apply over_cos_bound; [lia|exact C]].
Qed.

Lemma omitted_nonneg internal gh N rad : rad <> 0 -> 0 <= omitted_terms internal gh N rad.
Proof.
  intro Hr. unfold omitted_terms. apply Rmult_le_pos; [apply Rmult_le_pos; [lra|left; apply Rinv_0_lt_compat; now apply Rabs_pos_lt]|].
  apply cond_pos_sum. intro n. apply Rmult_le_pos; [apply Rabs_pos|]. apply cond_pos_sum. intro m. destruct (Nat.leb m 1); [lra|].
  apply Rmult_le_pos; [apply Rmult_le_pos; [apply pos_INR|pose proof (Rabs_pos (fst (gh n m))); pose proof (Rabs_pos (snd (gh n m))); lra]|].
  unfold pole_factor. apply Rmult_le_pos; [apply sqrt_pos|]. left. apply Rinv_0_lt_compat, Rmult_lt_0_compat; [apply pow_lt; lra|apply INR_fact_lt_0].
Qed.

Lemma east_error internal gh N lat lon rad north east up e : -90 < lat < 90 -> rad <> 0 ->
  field_of internal gh N lat lon rad (north, east, up) ->
  is_derive (fun p => potential internal 6371.2 gh N rad (lat * (PI / 180)) p) (lon * (PI / 180)) (- (rad * cos (lat * (PI / 180)) * e)) ->
  Rabs (east - e) <= 1 / 10 ^ 10 * omitted_terms internal gh N rad /\ (1 / 10 ^ 10 <= cos (lat * (PI / 180)) -> east = e).
Proof.
  intros Hl Hr F D. assert (Hl' : -90 <= lat <= 90) by lra.
  pose proof (field_unique internal gh N lat lon rad _ _ Hl' Hr F (gradient_field internal gh N lat lon rad Hl' Hr)) as E.
  unfold gradient_at, opposite in E. cbv zeta in E. injection E as _ Ee _. rewrite !ShEvalGradProofs.deg_rad in *.
  assert (C : 0 < cos (DG2RAD * lat)). { pose proof PI_RGT_0. apply cos_gt_0; unfold DG2RAD; nra. }
  set (th := DG2RAD * lat) in *. set (ph := DG2RAD * lon) in *.
  assert (Et : e = - (/ rad * az_over_cos internal 6371.2 gh N rad th ph)).
  { rewrite <- az_over_cos_eq by lra. apply is_derive_unique in D.
    assert (D2 : Derive (fun p => potential internal 6371.2 gh N rad th p) ph = pot_az internal 6371.2 gh N rad th ph) by (apply is_derive_unique, potential_az; auto using ref_nz).
    pose proof (eq_trans (eq_sym D2) D) as D3. rewrite D3. field. split; lra. }
  pose proof (near_cos th) as Hn. rewrite Rabs_pos_eq in Hn by lra. unfold east_gh in Ee. destruct (near th).
  - split; [|intro; lra]. rewrite Ee, Et.
    replace (- (/ rad * az_over_cos internal 6371.2 (low_orders gh) N rad th ph) - - (/ rad * az_over_cos internal 6371.2 gh N rad th ph))
      with (- (/ rad * az_over_cos internal 6371.2 (low_orders gh) N rad th ph - / rad * az_over_cos internal 6371.2 gh N rad th ph)) by ring.
    rewrite Rabs_Ropp. eapply Rle_trans; [apply omitted; [exact Hr|lra]|]. apply Rmult_le_compat_r; [now apply omitted_nonneg|lra].
  - rewrite Ee, Et. split; [|reflexivity]. rewrite Rminus_eq_0, Rabs_R0. apply Rmult_le_pos; [lra|now apply omitted_nonneg].
Qed.
