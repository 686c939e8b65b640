(** Facts about the rounding to double precision. *)

From Coq Require Import ZArith Reals Lia Lra.
From Flocq Require Import Core.
From Verif Require Import SizeModel SizeProofs FpSpec.
Open Scope R_scope.

Notation fmt := (generic_format radix2 (FLT_exp (-1074) 53)).

#[global] Instance valid_flt : Valid_exp (FLT_exp (-1074) 53).
Proof. apply FLT_exp_valid. unfold Prec_gt_0. lia. Qed.
#[global] Instance mono_flt : Monotone_exp (FLT_exp (-1074) 53).
Proof. apply FLT_exp_monotone. Qed.
#[global] Instance prec_53 : Prec_gt_0 53.
Proof. unfold Prec_gt_0. lia. Qed.

Lemma rnd_fmt x : fmt (rnd x).
Proof. apply generic_format_round; [apply valid_flt|apply valid_rnd_N]. Qed.

Lemma rnd_id x : fmt x -> rnd x = x.
Proof. intro H. apply round_generic; [apply valid_rnd_N|exact H]. Qed.

Lemma bpow_powerRZ e : bpow radix2 e = powerRZ 2 e.
Proof. rewrite bpow_powerRZ. reflexivity. Qed.

Lemma double_fmt x : double x <-> fmt x.
Proof.
  split.
  - intros (m & e & -> & Hm & He). rewrite <- bpow_powerRZ. apply dyadic_format; assumption.
  - intro H. apply FLT_format_generic in H; [|apply prec_53]. destruct H as [f E M L].
    exists (Fnum f), (Fexp f). split; [|split].
    + rewrite E. unfold F2R. rewrite bpow_powerRZ. reflexivity.
    + exact M.
    + exact L.
Qed.

Lemma rnd_0 : rnd 0 = 0.
Proof. apply round_0. apply valid_rnd_N. Qed.

Lemma int_fmt m : (Z.abs m < 2 ^ 53)%Z -> fmt (IZR m).
Proof. intro H. rewrite <- (rnd_int m H). apply rnd_fmt. Qed.

Lemma bpow_fmt k : (-1074 <= k)%Z -> fmt (bpow radix2 k).
Proof. intro H. apply generic_format_bpow. unfold FLT_exp. lia. Qed.

Lemma rnd_pos x : 0 <= x -> 0 <= rnd x.
Proof. intro H. rewrite <- rnd_0. apply rnd_le. exact H. Qed.

Lemma rnd_opp x : rnd (- x) = - rnd x.
Proof. apply round_NE_opp. Qed.

(** The rounding error of a number that is not greater than a power of two *)
Lemma rnd_err x k : (-1000 <= k)%Z -> Rabs x <= bpow radix2 k -> Rabs (rnd x - x) <= bpow radix2 (k - 54).
Proof.
  intros Hk H. destruct (Rle_lt_or_eq_dec _ _ H) as [L|E].
  - eapply Rle_trans; [apply error_le_half_ulp; apply valid_flt|].
    assert (U : ulp radix2 (FLT_exp (-1074) 53) x <= bpow radix2 (k - 53)).
    { destruct (Req_dec x 0) as [->|N].
      - rewrite ulp_FLT_0 by apply prec_53. apply bpow_le. lia.
      - rewrite ulp_neq_0 by exact N. apply bpow_le. unfold cexp, FLT_exp.
        assert (mag radix2 x <= k)%Z by (apply mag_le_bpow; assumption). lia. }
    replace (k - 54)%Z with (-1 + (k - 53))%Z by lia. rewrite bpow_plus.
    change (bpow radix2 (-1)) with (/ 2). apply Rmult_le_compat_l; lra.
  - assert (F : fmt x).
    { destruct (Rcase_abs x) as [N|P].
      - rewrite Rabs_left in E by exact N. replace x with (- bpow radix2 k) by lra.
        apply generic_format_opp. apply bpow_fmt. lia.
      - rewrite Rabs_right in E by exact P. rewrite E. apply bpow_fmt. lia. }
    rewrite rnd_id by exact F. replace (x - x) with 0 by ring. rewrite Rabs_R0. apply bpow_ge_0.
Qed.

(** A number next to a double rounds to it *)
Lemma rnd_near x m e : (-1074 <= e)%Z ->
  Rabs (x - IZR m * bpow radix2 e) < / 2 * bpow radix2 e -> bpow radix2 (e + 52) <= x < bpow radix2 (e + 53) ->
  rnd x = IZR m * bpow radix2 e.
Proof.
  intros He D [B1 B2].
  assert (M : mag radix2 x = (e + 53)%Z :> Z).
  { apply mag_unique. replace (e + 53 - 1)%Z with (e + 52)%Z by lia. rewrite Rabs_pos_eq; [split; assumption|].
    pose proof (bpow_gt_0 radix2 (e + 52)). lra. }
  assert (C : cexp radix2 (FLT_exp (-1074) 53) x = e) by (unfold cexp, FLT_exp; rewrite M; lia).
  unfold rnd, round, F2R, scaled_mantissa. cbn [Fnum Fexp]. rewrite C. f_equal. f_equal. apply Znearest_imp.
  replace (x * bpow radix2 (- e) - IZR m) with ((x - IZR m * bpow radix2 e) * bpow radix2 (- e)).
  - rewrite Rabs_mult, (Rabs_pos_eq (bpow radix2 (- e))) by apply bpow_ge_0.
    apply (Rmult_lt_compat_r (bpow radix2 (- e))) in D; [|apply bpow_gt_0].
    rewrite Rmult_assoc, <- bpow_plus in D. replace (e + - e)%Z with 0%Z in D by lia. simpl (bpow radix2 0) in D. lra.
  - rewrite Rmult_minus_distr_r, Rmult_assoc, <- bpow_plus. replace (e + - e)%Z with 0%Z by lia.
    simpl (bpow radix2 0). ring.
Qed.
