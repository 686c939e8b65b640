(** The gradient of the evaluation for all latitudes, the poles included. *)
From Coq Require Import Bool List Arith ZArith Reals Lia Lra.
From Coquelicot Require Import Coquelicot.
From Verif Require Import ArrModel LegendreModel LegendreSpec LoopProofs LegendrePoly LegendreGauss LegendreLow LegendreHigh LegendreProofs GeoModel SizeModel SizeProofs CoefModel
  ShEvalModel ShEvalSpec ShEvalSum ShEvalDeriv ShEvalHarmonic ShEvalProofs ShEvalGradProofs ShEvalLinProofs ShEvalExamples FieldSpec.
Import ListNotations.
Open Scope R_scope.
Set Bullet Behavior "Strict Subproofs".

Lemma harmonic'_zero m ph : harmonic' (0, 0) m ph = 0.
Proof. unfold harmonic'. cbn [fst snd]. ring. Qed.

(** without the orders above 1 only the order 1 counts *)
Lemma az_over_cos_low internal ref gh degree r th ph :
  az_over_cos internal ref (low_orders gh) degree r th ph = ref * sum_f_R0 (fun n => radial internal ref n r *
    (if Nat.leb 1 n then harmonic' (gh n 1%nat) 1 ph * (nf n 1 * legendre_deriv n 1 (sin th)) else 0)) degree.
Proof.
  unfold az_over_cos. f_equal. apply sum_ext. intros n Hn. f_equal.
  assert (E : forall k, sum_f_R0 (fun m => harmonic' (low_orders gh n m) m ph * over_cos n m th) k =
    if Nat.leb 1 k then harmonic' (gh n 1%nat) 1 ph * (nf n 1 * legendre_deriv n 1 (sin th)) else 0).
  { induction k as [|k IH]; cbn [sum_f_R0 Nat.leb].
    - unfold harmonic'. cbn [INR]. ring.
    - rewrite IH. destruct k as [|k]; cbn [Nat.leb].
      + unfold low_orders, over_cos. cbn [Nat.leb pred pow]. ring.
      + change (low_orders gh n (S (S k))) with ((0, 0) : R * R). rewrite harmonic'_zero. ring. }
  apply E.
Qed.

Lemma sheval_field csize deg D coef internal lat lon rad mem :
  (1 <= csize < 2 ^ 50)%Z -> expansion_degree csize deg D -> -90 <= lat <= 90 -> rad <> 0 ->
  exists north east up,
    sheval (nd0 (lat, lon, rad)) csize (nd0 coef) CT_GEOCENTRIC_SPHERICAL CT_GEOCENTRIC_SPHERICAL SM_GRADIENT internal deg
      1 (1, 1, 1) mem = Ok ([], [(None, Some (north, east, up))]) /\
    field_of internal (fun n m => coef (n * (n + 1) / 2 + m)%nat) D lat lon rad (- north, - east, - up).
Proof.
  intros Hc HD Hl Hr. rewrite (sph_call csize deg coef internal (call_ok_size _ _ Hc)). cbn [value option_map].
  rewrite (eff_degree_spec csize deg D Hc HD), !Rmult_1_r. do 3 eexists. split; [reflexivity|].
  change (fun n m => coef (n * (n + 1) / 2 + m)%nat) with (table coef). unfold field_of. cbv zeta. rewrite !deg_rad.
  pose proof (lat_range lat Hl) as Hth. set (th := DG2RAD * lat) in *. set (ph := DG2RAD * lon).
  assert (Hcos : 0 <= cos th) by (apply cos_ge_0; apply Hth).
  split; [|split; [|split; [|split]]].
  - replace (- (rad * - val_el D internal th ph rad 6371.2 coef)) with (rad * val_el D internal th ph rad 6371.2 coef) by ring.
    rewrite val_el_eq by auto using ref_nz. apply potential_el; auto using ref_nz.
  - rewrite Ropp_involutive, val_rd_eq by auto using ref_nz. apply potential_rd; auto using ref_nz.
  - intro K. replace (- (rad * cos th * - val_az D internal th ph rad 6371.2 coef)) with (rad * cos th * val_az D internal th ph rad 6371.2 coef) by ring.
    rewrite val_az_eq by (auto using ref_nz; rewrite Rabs_pos_eq; lra). apply potential_az; auto using ref_nz.
  - intro K. rewrite val_az_near by (auto using ref_nz; rewrite Rabs_pos_eq; lra). rewrite <- az_over_cos_low, <- az_over_cos_eq by lra.
    eapply Rderive_eq; [|apply potential_az; auto using ref_nz]. field. split; lra.
  - intro K. rewrite val_az_near by (auto using ref_nz; rewrite K, Rabs_R0; lra). rewrite <- az_over_cos_pole by exact K.
    assert (P : th = PI / 2 \/ th = - (PI / 2)).
    { destruct (Rle_lt_or_eq_dec _ _ (proj1 Hth)) as [L1|E1]; [|right; lra]. destruct (Rle_lt_or_eq_dec _ _ (proj2 Hth)) as [L2|E2]; [|left; exact E2].
      pose proof (cos_gt_0 th L1 L2). lra. }
    pose proof (pole_limit internal 6371.2 (table coef) D ref_nz th rad ph P Hr) as Lm.
    replace (- (/ rad * az_over_cos internal 6371.2 (table coef) D rad th ph)) with (- (az_over_cos internal 6371.2 (table coef) D rad th ph / rad)) by (unfold Rdiv; ring).
    exact (is_lim_opp _ _ _ Lm).
Qed.
