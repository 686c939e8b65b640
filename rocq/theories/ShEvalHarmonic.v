(** Laplace's equation and the limit at the poles. *)

From Coq Require Import Bool List Reals Arith Lra Lia.
From Coquelicot Require Import Coquelicot.
From Verif Require Import LegendreSpec LegendrePoly LegendreGauss LegendreLow LegendreHigh ShEvalSpec ShEvalDeriv.
Open Scope R_scope.

Lemma schmidt'_eq n m th : schmidt' n m th =
  nf n m * (INR m * (- sin th) * cos th ^ pred m * legendre_deriv n m (sin th)
            + cos th ^ m * (cos th * legendre_deriv n (S m) (sin th))).
Proof.
  apply is_derive_unique. apply (Rderive_ext (fun t => nf n m * (cos t ^ m * legendre_deriv n m (sin t)))).
  { intro t. rewrite schmidt_nf. ring. }
  apply Rderive_scal. apply trig_is_derive. apply L_is_derive.
Qed.

(** the associated Legendre equation *)
Lemma schmidt_ode n m th : cos th <> 0 ->
  is_derive (fun t => cos t * schmidt' n m t) th
    (- (INR n * (INR n + 1)) * cos th * schmidt n m th + INR m ^ 2 / cos th * schmidt n m th).
Proof.
  intro C.
  apply (Rderive_ext (fun t => nf n m * (- INR m * (sin t * (cos t ^ m * legendre_deriv n m (sin t)))
     + cos t ^ (S (S m)) * legendre_deriv n (S m) (sin t)))).
  { intro t. rewrite schmidt'_eq. destruct m as [|m]; cbn [pred pow INR]; ring. }
  pose proof (trig_is_derive _ m th _ (L_is_derive n m (sin th))) as D1.
  pose proof (trig_is_derive _ (S (S m)) th _ (L_is_derive n (S m) (sin th))) as D2.
  eapply Rderive_eq; [|apply Rderive_scal; apply @is_derive_plus; [apply Rderive_scal; apply Rderive_mult; [apply sin_is_derive|exact D1]|exact D2]].
  cbv beta. unfold plus; cbn. fold (INR (S m)). rewrite !schmidt_nf.
  pose proof (L_ode n m (sin th)) as O.
  assert (S2 : sin th ^ 2 = 1 - cos th ^ 2) by (pose proof (sin2_cos2 th) as E; unfold Rsqr in E; cbn [pow]; lra).
  set (p0 := legendre_deriv n m (sin th)) in *. set (p1 := legendre_deriv n (S m) (sin th)) in *.
  set (p2 := legendre_deriv n (S (S m)) (sin th)) in *.
  assert (O2 : cos th ^ 2 * p2 = 2 * (INR m + 1) * sin th * p1 - (INR n - INR m) * (INR n + INR m + 1) * p0)
    by (rewrite S2 in O; lra).
  set (c := cos th) in *. set (s := sin th) in *.
  destruct m as [|m].
  - cbn [INR] in O2. cbn [pow INR pred].
    transitivity (nf n 0 * c * (c ^ 2 * p2 - 2 * s * p1)); [cbn [pow]; ring|]. rewrite O2. field. exact C.
  - cbn [pred]. rewrite !S_INR in *. 
    transitivity (nf n (S m) * c ^ m * (- (INR m + 1) * c ^ 2 * p0 + (INR m + 1) ^ 2 * s ^ 2 * p0
      - (INR m + 1) * s * c ^ 2 * p1 - (INR m + 3) * s * c ^ 2 * p1 + c ^ 2 * (c ^ 2 * p2))); [cbn [pow]; ring|].
    rewrite O2, S2. cbn [pow]. field. exact C.
Qed.

Section Laplace.
Variables (internal : bool) (ref : R) (gh : nat -> nat -> R * R) (degree : nat).
Hypothesis Href : ref <> 0.

Definition pot_n (w : nat -> nat -> R) (r th ph : R) : R :=
  ref * sum_f_R0 (fun n => radial internal ref n r *
    sum_f_R0 (fun m => w n m * (harmonic (gh n m) m ph * schmidt n m th)) n) degree.

Lemma lap_r r th ph : r <> 0 ->
  is_derive (fun u => u ^ 2 * pot_rd internal ref gh degree u th ph) r
    (pot_n (fun n _ => INR n * (INR n + 1)) r th ph).
Proof.
  intro Hr. unfold pot_rd, pot_n.
  assert (D : is_derive (fun u => ref * sum_f_R0 (fun n => (u * radial internal ref n u) * (radial_rate internal n *
    sum_f_R0 (fun m => harmonic (gh n m) m ph * schmidt n m th) n)) degree) r
    (ref * sum_f_R0 (fun n => (radial internal ref n r + r * (radial_rate internal n * radial internal ref n r / r))
      * (radial_rate internal n * sum_f_R0 (fun m => harmonic (gh n m) m ph * schmidt n m th) n)) degree)).
  { apply Rderive_scal, is_derive_sum. intros n Hn.
    eapply Rderive_eq; [|apply Rderive_mult; [apply Rderive_mult; [apply @is_derive_id|now apply radial_derive]|apply @is_derive_const]].
    unfold one, zero; cbn. ring. }
  apply (is_derive_ext_loc (fun u => ref * sum_f_R0 (fun n => (u * radial internal ref n u) * (radial_rate internal n *
    sum_f_R0 (fun m => harmonic (gh n m) m ph * schmidt n m th) n)) degree)).
  - exists (mkposreal (Rabs r) (Rabs_pos_lt r Hr)). intros u Hu.
    assert (Hu0 : u <> 0).
    { intros ->. unfold ball in Hu; cbn in Hu; unfold AbsRing_ball, abs, minus, plus, opp in Hu; cbn in Hu.
      rewrite Rplus_0_l, Rabs_Ropp in Hu. lra. }
    rewrite <- (Rmult_assoc (u ^ 2)), (Rmult_comm (u ^ 2)), Rmult_assoc. apply f_equal. rewrite <- sum_scal. apply sum_ext.
    intros n Hn. field. exact Hu0.
  - eapply Rderive_eq; [|exact D]. f_equal. apply sum_ext. intros n Hn. rewrite sum_scal.
    unfold radial_rate. destruct internal; field; exact Hr.
Qed.

Lemma lap_ph r th ph :
  is_derive (fun u => pot_az internal ref gh degree r th u) ph
    (- pot_n (fun _ m => INR m ^ 2) r th ph).
Proof.
  unfold pot_az, pot_n. rewrite Ropp_mult_distr_r. apply Rderive_scal.
  rewrite <- sum_opp. apply is_derive_sum. intros n Hn. rewrite Ropp_mult_distr_r. apply Rderive_scal.
  rewrite <- sum_opp. apply is_derive_sum. intros m Hm.
  eapply Rderive_eq; [|apply Rderive_mult; [apply harmonic'_derive|apply @is_derive_const]].
  unfold zero; cbn. ring.
Qed.

Lemma lap_th r th ph : cos th <> 0 ->
  is_derive (fun u => cos u * pot_el internal ref gh degree r u ph) th
    (- cos th * pot_n (fun n _ => INR n * (INR n + 1)) r th ph + / cos th * pot_n (fun _ m => INR m ^ 2) r th ph).
Proof.
  intro C. unfold pot_el, pot_n.
  apply (Rderive_ext (fun u => ref * sum_f_R0 (fun n => radial internal ref n r *
    sum_f_R0 (fun m => harmonic (gh n m) m ph * (cos u * schmidt' n m u)) n) degree)).
  { intro u. rewrite <- (Rmult_assoc (cos u)), (Rmult_comm (cos u)), Rmult_assoc. apply f_equal. rewrite <- sum_scal. apply sum_ext.
    intros n Hn. rewrite <- (Rmult_assoc (cos u)), (Rmult_comm (cos u)), Rmult_assoc. apply f_equal. rewrite <- sum_scal.
    apply sum_ext. intros m Hm. ring. }
  eapply Rderive_eq; [|apply Rderive_scal, is_derive_sum; intros n Hn; apply Rderive_scal, is_derive_sum; intros m Hm;
    apply Rderive_scal, schmidt_ode; exact C].
  cbv beta. rewrite <- !Rmult_assoc, (Rmult_comm (- cos th)), (Rmult_comm (/ cos th)), !Rmult_assoc, <- Rmult_plus_distr_l. apply f_equal.
  rewrite <- !sum_scal, <- sum_add. apply sum_ext. intros n Hn.
  rewrite <- !Rmult_assoc, (Rmult_comm (- cos th)), (Rmult_comm (/ cos th)), !Rmult_assoc, <- Rmult_plus_distr_l. apply f_equal.
  rewrite <- !sum_scal, <- sum_add. apply sum_ext. intros m Hm. field. exact C.
Qed.

(** Laplace's equation *)
Lemma laplace r th ph : r <> 0 -> cos th <> 0 ->
  let V := potential internal ref gh degree in
  exists d_r d_th d_ph,
    is_derive (fun u => u ^ 2 * Derive (fun w => V w th ph) u) r d_r /\
    is_derive (fun u => cos u * Derive (fun w => V r w ph) u) th d_th /\
    is_derive (fun u => Derive (fun w => V r th w) u) ph d_ph /\
    d_r / r ^ 2 + d_th / (r ^ 2 * cos th) + d_ph / (r ^ 2 * cos th ^ 2) = 0.
Proof.
  intros Hr C V.
  exists (pot_n (fun n _ => INR n * (INR n + 1)) r th ph),
    (- cos th * pot_n (fun n _ => INR n * (INR n + 1)) r th ph + / cos th * pot_n (fun _ m => INR m ^ 2) r th ph),
    (- pot_n (fun _ m => INR m ^ 2) r th ph).
  split; [|split; [|split]].
  - apply (is_derive_ext_loc (fun u => u ^ 2 * pot_rd internal ref gh degree u th ph)); [|now apply lap_r].
    exists (mkposreal (Rabs r) (Rabs_pos_lt r Hr)). intros u Hu.
    assert (Hu0 : u <> 0).
    { intros ->. unfold ball in Hu; cbn in Hu; unfold AbsRing_ball, abs, minus, plus, opp in Hu; cbn in Hu.
      rewrite Rplus_0_l, Rabs_Ropp in Hu. lra. }
    f_equal. symmetry. apply is_derive_unique. now apply potential_rd.
  - apply (Rderive_ext (fun u => cos u * pot_el internal ref gh degree r u ph)); [|now apply lap_th].
    intro u. f_equal. symmetry. apply is_derive_unique. now apply potential_el.
  - apply (Rderive_ext (fun u => pot_az internal ref gh degree r th u)); [|now apply lap_ph].
    intro u. symmetry. apply is_derive_unique. now apply potential_az.
  - field. auto.
Qed.

(** ** The limit at the poles *)
(** S_n^m / cos *)
Definition over_cos (n m : nat) (th : R) : R := nf n m * cos th ^ pred m * legendre_deriv n m (sin th).
Lemma over_cos_eq n m th : (1 <= m)%nat -> cos th <> 0 -> schmidt n m th / cos th = over_cos n m th.
Proof.
  intros Hm C. destruct m as [|m]; [lia|]. rewrite schmidt_nf. unfold over_cos. cbn [pred pow]. field. exact C.
Qed.
Lemma over_cos_continuous n m th : continuity_pt (over_cos n m) th.
Proof.
  apply derivable_continuous_pt. apply ex_derive_Reals_0. unfold over_cos.
  eexists. apply Rderive_mult; [apply Rderive_scal, (is_derive_pow cos (pred m) th (- sin th)), cos_is_derive|].
  apply (Rderive_comp (legendre_deriv n m) sin); [apply L_is_derive|apply sin_is_derive].
Qed.

Definition az_over_cos (r th ph : R) : R :=
  ref * sum_f_R0 (fun n => radial internal ref n r *
    sum_f_R0 (fun m => harmonic' (gh n m) m ph * over_cos n m th) n) degree.

Lemma az_over_cos_eq r th ph : cos th <> 0 ->
  pot_az internal ref gh degree r th ph / cos th = az_over_cos r th ph.
Proof.
  intro C. unfold pot_az, az_over_cos, Rdiv. rewrite Rmult_assoc. f_equal. rewrite Rmult_comm, <- sum_scal.
  apply sum_ext. intros n Hn. rewrite <- Rmult_assoc, (Rmult_comm (/ cos th)), Rmult_assoc. f_equal. rewrite <- sum_scal.
  apply sum_ext. intros m Hm. destruct m as [|m].
  - unfold harmonic'. cbn [INR]. ring.
  - rewrite <- over_cos_eq by (auto; lia). unfold Rdiv. ring.
Qed.

Lemma sum_continuous (f : nat -> R -> R) x n :
  (forall i, (i <= n)%nat -> continuity_pt (f i) x) -> continuity_pt (fun t => sum_f_R0 (fun i => f i t) n) x.
Proof.
  intro H. induction n as [|n IH]; cbn [sum_f_R0].
  - apply H. lia.
  - apply (continuity_pt_plus (fun t => sum_f_R0 (fun i => f i t) n) (f (S n))); [apply IH; intros; apply H; lia|apply H; lia].
Qed.

Lemma az_over_cos_continuous r th ph : continuity_pt (fun t => az_over_cos r t ph) th.
Proof.
  unfold az_over_cos.
  apply (continuity_pt_mult (fun _ => ref)); [now apply continuity_pt_const; intros ? ?|].
  apply sum_continuous. intros n Hn.
  apply (continuity_pt_mult (fun _ => radial internal ref n r)); [now apply continuity_pt_const; intros ? ?|].
  apply sum_continuous. intros m Hm.
  apply (continuity_pt_mult (fun _ => harmonic' (gh n m) m ph)); [now apply continuity_pt_const; intros ? ?|].
  apply over_cos_continuous.
Qed.

Lemma cos_near_pole (pole x : R) : pole = PI / 2 \/ pole = - (PI / 2) -> x <> pole -> Rabs (x - pole) < 1 -> cos x <> 0.
Proof.
  intros Hp Hx Hd. pose proof PI2_1 as P1. pose proof PI_RGT_0 as P0.
  assert (S0 : sin (x - pole) <> 0).
  { apply Rabs_def2 in Hd. destruct (Rlt_or_le 0 (x - pole)) as [L|L].
    - pose proof (sin_gt_0 (x - pole) L ltac:(lra)). lra.
    - pose proof (sin_gt_0 (- (x - pole)) ltac:(lra) ltac:(lra)) as Q. rewrite sin_neg in Q. lra. }
  intro E. apply S0. rewrite sin_minus, E. destruct Hp as [->| ->].
  - rewrite cos_PI2. ring.
  - rewrite cos_neg, cos_PI2. ring.
Qed.

Lemma pole_limit pole r ph : pole = PI / 2 \/ pole = - (PI / 2) -> r <> 0 ->
  is_lim (fun th => Derive (fun u => potential internal ref gh degree r th u) ph / (r * cos th)) pole
    (az_over_cos r pole ph / r).
Proof.
  intros Hp Hr.
  apply (is_lim_ext_loc (fun th => az_over_cos r th ph * / r)).
  - exists (mkposreal 1 Rlt_0_1). intros th Hb Hne.
    assert (C : cos th <> 0) by (apply (cos_near_pole pole); auto).
    assert (E : Derive (fun u => potential internal ref gh degree r th u) ph = pot_az internal ref gh degree r th ph)
      by (apply is_derive_unique, potential_az; auto).
    rewrite E.
    rewrite <- az_over_cos_eq by exact C. field. auto.
  - change (Finite (az_over_cos r pole ph / r)) with (Finite ((fun th => az_over_cos r th ph * / r) pole)).
    apply is_lim_continuity.
    apply (continuity_pt_mult (fun th => az_over_cos r th ph) (fun _ => / r)).
    + apply az_over_cos_continuous.
    + now apply continuity_pt_const; intros ? ?.
Qed.

(** at the poles only the order 1 counts *)
Lemma az_over_cos_pole r th ph : cos th = 0 ->
  az_over_cos r th ph = ref * sum_f_R0 (fun n => radial internal ref n r *
    (if Nat.leb 1 n then harmonic' (gh n 1) 1 ph * (nf n 1 * legendre_deriv n 1 (sin th)) else 0)) degree.
Proof.
  intro C. unfold az_over_cos. f_equal. apply sum_ext. intros n Hn. f_equal.
  assert (E : forall k, sum_f_R0 (fun m => harmonic' (gh n m) m ph * over_cos n m th) k =
    if Nat.leb 1 k then harmonic' (gh n 1) 1 ph * (nf n 1 * legendre_deriv n 1 (sin th)) else 0).
  { induction k as [|k IH]; cbn [sum_f_R0 Nat.leb].
    - unfold harmonic'. cbn [INR]. ring.
    - rewrite IH. unfold over_cos at 1. cbn [pred]. rewrite C. destruct k as [|k]; cbn [Nat.leb pow]; ring. }
  apply E.
Qed.
End Laplace.
