(** Proofs about the size to degree conversion. *)

From Coq Require Import ZArith Reals Lia Lra List.
From Flocq Require Import Core.
From Verif Require Import SizeModel.
Open Scope Z_scope.

#[local] Instance valid_exp : Valid_exp (FLT_exp (-1074) 53).
Proof. apply FLT_exp_valid. unfold Prec_gt_0. lia. Qed.

Lemma dyadic_format (m e : Z) : Z.abs m < 2 ^ 53 -> -1074 <= e ->
  generic_format radix2 (FLT_exp (-1074) 53) (IZR m * bpow radix2 e).
Proof.
  intros Hm He. apply generic_format_FLT. exists (Float radix2 m e); simpl; auto.
Qed.

Lemma rnd_dyadic (m e : Z) : Z.abs m < 2 ^ 53 -> -1074 <= e ->
  rnd (IZR m * bpow radix2 e) = (IZR m * bpow radix2 e)%R.
Proof. intros. apply round_generic; [apply valid_rnd_N|apply dyadic_format; auto]. Qed.

Lemma rnd_int m : Z.abs m < 2 ^ 53 -> rnd (IZR m) = IZR m.
Proof.
  intro H. pose proof (rnd_dyadic m 0 H ltac:(lia)) as E. simpl in E. rewrite Rmult_1_r in E. exact E.
Qed.

Lemma rnd_le x y : (x <= y)%R -> (rnd x <= rnd y)%R.
Proof. apply round_le; [apply valid_exp|apply valid_rnd_N]. Qed.

Lemma size_lower d size : 0 <= d -> (d + 1) * (d + 2) <= 2 * size -> size < 2 ^ 50 ->
  (IZR (2 * d + 3) <= rnd (sqrt (rnd (IZR (8 * size + 1)))))%R.
Proof.
  intros Hd H Hs. rewrite rnd_int by lia.
  assert (Hd2 : 2 * d + 3 < 2 ^ 27) by nia.
  rewrite <- (rnd_int (2 * d + 3)) at 1 by lia. apply rnd_le.
  rewrite <- (sqrt_Rsqr (IZR (2 * d + 3))) by (apply IZR_le; lia).
  apply sqrt_le_1_alt. unfold Rsqr. rewrite <- mult_IZR. apply IZR_le. nia.
Qed.

Lemma size_upper d size : 0 <= d -> 0 <= size -> 2 * size < (d + 2) * (d + 3) -> d < 2 ^ 26 - 3 -> size < 2 ^ 50 ->
  (rnd (sqrt (rnd (IZR (8 * size + 1)))) <= IZR ((2 * d + 5) * 2 ^ 25 - 1) * bpow radix2 (-25))%R.
Proof.
  intros Hd H0 H Hd2 Hs. rewrite rnd_int by lia.
  rewrite <- (rnd_dyadic ((2 * d + 5) * 2 ^ 25 - 1) (-25)) by lia. apply rnd_le.
  set (Y := IZR (2 * d + 5)).
  assert (HY : (5 <= Y < IZR (2 ^ 27))%R) by (split; [apply IZR_le|apply IZR_lt]; lia).
  assert (Ew : (IZR ((2 * d + 5) * 2 ^ 25 - 1) * bpow radix2 (-25) = Y - / IZR (2 ^ 25))%R).
  { rewrite minus_IZR, mult_IZR. fold Y. simpl bpow. change (Z.pow_pos 2 25) with (2 ^ 25).
    assert (IZR (2 ^ 25) <> 0)%R by (apply not_0_IZR; lia). field. auto. }
  rewrite Ew. assert (Hi : (0 < / IZR (2 ^ 25) < 1)%R).
  { split; [apply Rinv_0_lt_compat, IZR_lt; lia|].
    rewrite <- Rinv_1. apply Rinv_lt_contravar; [rewrite Rmult_1_l; apply IZR_lt; lia|apply IZR_lt; lia]. }
  rewrite <- (sqrt_Rsqr (Y - / IZR (2 ^ 25))) by lra. apply sqrt_le_1_alt.
  assert (Hq : (IZR (8 * size + 1) <= Y * Y - 8)%R).
  { unfold Y. rewrite <- mult_IZR, <- minus_IZR. apply IZR_le.
    assert (2 * size + 2 <= (d + 2) * (d + 3)).
    { assert (Z.even ((d + 2) * (d + 3)) = true).
      { replace (d + 3) with (Z.succ (d + 2)) by lia. rewrite Z.even_mul, Z.even_succ.
        rewrite <- Z.negb_even. destruct (Z.even (d + 2)); reflexivity. }
      apply Z.even_spec in H1 as [k Hk]. lia. }
    nia. }
  unfold Rsqr.
  assert (Hm : (Y * / IZR (2 ^ 25) <= 4)%R).
  { apply (Rmult_le_reg_r (IZR (2 ^ 25))); [apply IZR_lt; lia|].
    rewrite Rmult_assoc, Rinv_l, Rmult_1_r by (apply not_0_IZR; lia).
    rewrite <- mult_IZR. change (4 * 2 ^ 25) with (2 ^ 27). lra. }
  nra.
Qed.

(** The degree of a size: the largest degree of which the coefficients fit. *)
Lemma size_degree_ideal d size : -1 <= d -> (d + 1) * (d + 2) <= 2 * size < (d + 2) * (d + 3) ->
  size < 2 ^ 50 ->
  Ztrunc (rnd (/2 * rnd (rnd (sqrt (rnd (IZR (8 * size + 1)))) - 3))) = d.
Proof.
  intros Hd [H1 H2] Hs.
  assert (d = -1 \/ 0 <= d) as [->|Hd0] by lia.
  - assert (size = 0) as -> by lia. rewrite (rnd_int (8 * 0 + 1)) by lia.
    change (8 * 0 + 1) with 1. rewrite sqrt_1, (rnd_int 1) by lia.
    replace (1 - 3)%R with (IZR (-2)) by (simpl; lra). rewrite rnd_int by lia.
    replace (/ 2 * -2)%R with (IZR (-1)) by (simpl; lra). rewrite rnd_int by lia. apply Ztrunc_IZR.
  - assert (Hd2 : d < 2 ^ 26 - 3) by nia.
    pose proof (size_lower d size Hd0 H1 Hs) as L.
    pose proof (size_upper d size Hd0 ltac:(nia) H2 Hd2 Hs) as U.
    set (y := rnd (sqrt _)) in *.
    assert (L2 : (IZR (2 * d) <= rnd (y - 3))%R).
    { rewrite <- (rnd_int (2 * d)) by lia. apply rnd_le. rewrite plus_IZR in L. lra. }
    assert (U2 : (rnd (y - 3) <= IZR ((2 * d + 2) * 2 ^ 25 - 1) * bpow radix2 (-25))%R).
    { rewrite <- (rnd_dyadic ((2 * d + 2) * 2 ^ 25 - 1) (-25)) by lia. apply rnd_le.
      replace ((2 * d + 5) * 2 ^ 25 - 1) with (((2 * d + 2) * 2 ^ 25 - 1) + 3 * 2 ^ 25) in U by lia.
      rewrite plus_IZR, Rmult_plus_distr_r in U.
      assert (IZR (3 * 2 ^ 25) * bpow radix2 (-25) = 3)%R.
      { rewrite mult_IZR. simpl bpow. change (Z.pow_pos 2 25) with (2 ^ 25).
        assert (IZR (2 ^ 25) <> 0)%R by (apply not_0_IZR; lia). field. auto. }
      lra. }
    set (z := rnd (y - 3)) in *.
    assert (L3 : (IZR d <= rnd (/2 * z))%R).
    { rewrite <- (rnd_int d) by lia. apply rnd_le. rewrite mult_IZR in L2. lra. }
    assert (U3 : (rnd (/2 * z) <= IZR ((2 * d + 2) * 2 ^ 25 - 1) * bpow radix2 (-26))%R).
    { rewrite <- (rnd_dyadic ((2 * d + 2) * 2 ^ 25 - 1) (-26)) by lia. apply rnd_le.
      replace (bpow radix2 (-26)) with (/2 * bpow radix2 (-25))%R; [lra|].
      change (-26) with (-1 + -25). rewrite bpow_plus. reflexivity. }
    assert (U4 : (rnd (/2 * z) < IZR (d + 1))%R).
    { eapply Rle_lt_trans; [exact U3|].
      apply (Rmult_lt_reg_r (bpow radix2 26)); [apply bpow_gt_0|].
      rewrite Rmult_assoc, <- bpow_plus. simpl (-26 + 26). simpl (bpow radix2 0). rewrite Rmult_1_r.
      replace (bpow radix2 26) with (IZR (2 ^ 26)) by reflexivity. rewrite <- mult_IZR. apply IZR_lt. lia. }
    rewrite Ztrunc_floor; [|apply IZR_le in Hd0; lra].
    apply Zfloor_imp. lra.
Qed.

Lemma size_to_degree_spec d size : -1 <= d -> (d + 1) * (d + 2) <= 2 * size < (d + 2) * (d + 3) ->
  size < 2 ^ 50 -> size_to_degree size = d.
Proof.
  intros Hd H Hs. unfold size_to_degree. rewrite (size_degree_ideal d size Hd H Hs).
  destruct (Z.eqb_spec (Z.quot ((d + 3) * (d + 2)) 2) size) as [E|E]; auto.
  exfalso. rewrite Z.quot_div_nonneg in E by nia.
  assert (Z.even ((d + 3) * (d + 2)) = true).
  { replace (d + 3) with (Z.succ (d + 2)) by lia. rewrite Z.even_mul, Z.even_succ.
    rewrite <- Z.negb_even. destruct (Z.even (d + 2)); reflexivity. }
  apply Z.even_spec in H0 as [k Hk]. rewrite Hk, Z.mul_comm, Z.div_mul in E by lia. nia.
Qed.

Lemma degree_exists size : 0 <= size -> exists d, -1 <= d /\ (d + 1) * (d + 2) <= 2 * size < (d + 2) * (d + 3).
Proof.
  intro H. pattern size. apply natlike_ind; auto; clear size H.
  - exists (-1). lia.
  - intros x Hx (d & Hd & H1 & H2).
    destruct (Z.lt_decidable (2 * Z.succ x) ((d + 2) * (d + 3))) as [L|L].
    + exists d. lia.
    + exists (d + 1). nia.
Qed.

(** The result is the largest degree of which the packed coefficients fit in the array. *)
Lemma degree_fits size d : 0 <= size < 2 ^ 50 -> -1 <= d ->
  (size_to_degree size = d <-> (d + 1) * (d + 2) <= 2 * size < (d + 2) * (d + 3)).
Proof.
  intros [H Hs] Hd. split; intro E.
  - destruct (degree_exists size H) as (d' & Hd' & H').
    rewrite (size_to_degree_spec d' size Hd' H' Hs) in E. subst d'. exact H'.
  - apply size_to_degree_spec; auto.
Qed.

Lemma degree_of_full_size d size : 0 <= d -> 2 * size = (d + 1) * (d + 2) -> size < 2 ^ 50 ->
  size_to_degree size = d.
Proof. intros Hd E Hs. apply size_to_degree_spec; nia. Qed.

Lemma degree_largest size : 0 <= size < 2 ^ 50 ->
  let d := size_to_degree size in
  -1 <= d /\ (d + 1) * (d + 2) <= 2 * size /\
  forall d', 0 <= d' -> (d' + 1) * (d' + 2) <= 2 * size -> d' <= d.
Proof.
  intros [H Hs]. destruct (degree_exists size H) as (d & Hd & H').
  rewrite (size_to_degree_spec d size Hd H' Hs). cbv zeta. split; auto. split; [lia|]. intros d' H0 H1. nia.
Qed.

(** ** The smallest degree *)

Lemma get_max_degree_loop_spec ds i a m :
  let r := get_max_degree_loop ds i a m in
  snd r <= m /\ (forall d, In d ds -> snd r <= d) /\
  (r = (a, m) \/ exists k, nth_error ds k = Some (snd r) /\ fst r = i + Z.of_nat k).
Proof.
  revert i a m. induction ds as [|d ds IH]; intros i a m; cbn [get_max_degree_loop].
  - split; [simpl; lia|]. split; [intros ? []|auto].
  - destruct (Z.ltb_spec d m) as [L|L].
    + destruct (IH (i + 1) i d) as (A & B & C). split; [lia|]. split.
      * intros x [<-|Hx]; auto.
      * right. destruct C as [C|(k & Hk & E)].
        -- exists 0%nat. rewrite C. simpl. split; auto. lia.
        -- exists (S k). split; auto. lia.
    + destruct (IH (i + 1) a m) as (A & B & C). split; [lia|]. split.
      * intros x [<-|Hx]; auto. lia.
      * destruct C as [C|(k & Hk & E)]; auto. right. exists (S k). split; auto. lia.
Qed.

Lemma get_max_degree_spec degrees idx d : degrees <> nil -> get_max_degree degrees = (idx, d) ->
  nth_error degrees (Z.to_nat idx) = Some d /\ 0 <= idx /\ forall x, In x degrees -> d <= x.
Proof.
  destruct degrees as [|d0 ds]; [congruence|]. intros _ E. unfold get_max_degree in E.
  destruct (get_max_degree_loop_spec ds 1 0 d0) as (A & B & C). rewrite E in *. simpl fst in *. simpl snd in *.
  split; [|split].
  - destruct C as [C|(k & Hk & ->)].
    + injection C as -> ->. reflexivity.
    + replace (Z.to_nat (1 + Z.of_nat k)) with (S k) by lia. exact Hk.
  - destruct C as [C|(k & Hk & ->)]; [injection C as -> ->|]; lia.
  - intros x [<-|Hx]; auto.
Qed.

Lemma ex_size : size_to_degree 3 = 1 /\ size_to_degree 105 = 13.
Proof. split; apply degree_of_full_size; lia. Qed.
