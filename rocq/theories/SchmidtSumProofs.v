(** The squares of the Schmidt functions of a degree sum up to one. *)
From Coq Require Import ZArith Reals Arith List Lia Lra Factorial.
From Coquelicot Require Import Coquelicot.
From Verif Require Import ArrModel LegendreModel LegendreSpec LegendrePoly LegendreGauss LegendreProofs ShEvalExamples NearPoleProofs NearPoleSpec CoefModel ShEvalModel ShEvalSpec ShEvalProofs TruncationSpec.
Import ListNotations.
Open Scope R_scope.

Lemma nf_square n m : nf n m ^ 2 = (if Nat.eqb m 0 then 1 else 2) * INR (fact (n - m)) / INR (fact (n + m)).
Proof.
  unfold nf. rewrite pow2_sqrt; [reflexivity|]. apply Rmult_le_pos; [apply Rmult_le_pos; [destruct (Nat.eqb m 0); lra|apply pos_INR]|].
  left. apply Rinv_0_lt_compat, INR_fact_lt_0.
Qed.

Lemma nf_square_step n m : (S m <= n)%nat ->
  nf n (S m) ^ 2 * ((INR n - INR m) * (INR n + INR m + 1)) = (if Nat.eqb m 0 then 2 else 1) * nf n m ^ 2.
Proof.
  intro H. rewrite !nf_square. cbn [Nat.eqb].
  assert (A : INR (fact (n - m)) = (INR n - INR m) * INR (fact (n - S m))).
  { replace (n - m)%nat with (S (n - S m)) by lia. rewrite <- minus_INR by lia. replace (n - m)%nat with (S (n - S m)) by lia.
    change (fact (S (n - S m))) with (S (n - S m) * fact (n - S m))%nat. now rewrite mult_INR. }
  assert (B : INR (fact (n + S m)) = (INR n + INR m + 1) * INR (fact (n + m))).
  { replace (n + S m)%nat with (S (n + m)) by lia. change (fact (S (n + m))) with (S (n + m) * fact (n + m))%nat.
    rewrite mult_INR, S_INR, plus_INR. reflexivity. }
  rewrite A, B. pose proof (INR_fact_lt_0 (n + m)) as P1. pose proof (pos_INR n). pose proof (pos_INR m).
  destruct (Nat.eqb m 0); field; split; lra.
Qed.

(** cos(th)^m P_n^(m)(sin th) and its derivative *)
Definition plain (n m : nat) (th : R) : R := cos th ^ m * legendre_deriv n m (sin th).

Lemma plain_derive_0 n th : is_derive (plain n 0) th (plain n 1 th).
Proof.
  unfold plain. eapply is_derive_ext; [intro t; symmetry; rewrite pow_O, Rmult_1_l; reflexivity|].
  evar_last; [apply (is_derive_comp (legendre_deriv n 0) sin); [apply L_is_derive|apply is_derive_sin]|]. cbn. unfold scal; cbn; unfold mult; cbn. ring.
Qed.

Lemma plain_derive n m th : is_derive (plain n (S m)) th (/ 2 * (plain n (S (S m)) th - (INR n - INR m) * (INR n + INR m + 1) * plain n m th)).
Proof.
  unfold plain. evar_last.
  - apply (is_derive_mult (fun t => cos t ^ S m) (fun t => legendre_deriv n (S m) (sin t))).
    + apply is_derive_pow, is_derive_cos.
    + apply (is_derive_comp (legendre_deriv n (S m)) sin); [apply L_is_derive|apply is_derive_sin].
    + intros; apply Rmult_comm.
  - unfold plus, scal; cbn [pred]; cbn -[INR pow]; unfold mult; cbn -[INR pow].
    pose proof (L_ode n m (sin th)) as O. pose proof (sin2_cos2 th) as Q. unfold Rsqr in Q.
    replace (1 - sin th ^ 2) with (cos th ^ 2) in O by (cbn; lra). rewrite S_INR. cbn [pow].
    set (c := cos th) in *. set (s := sin th) in *. set (P2 := legendre_deriv n (S (S m)) s) in *. set (P1 := legendre_deriv n (S m) s) in *. set (P0 := legendre_deriv n m s) in *.
    replace ((INR n - INR m) * (INR n + INR m + 1) * (c ^ m * P0)) with (c ^ m * ((INR n - INR m) * (INR n + INR m + 1) * P0)) by ring.
    replace ((INR n - INR m) * (INR n + INR m + 1) * P0) with (2 * (INR m + 1) * s * P1 - c ^ 2 * P2) by lra. field.
Qed.

Lemma partial_sum n th : forall k, (k <= n)%nat ->
  is_derive (fun t => sum_f_R0 (fun m => nf n m ^ 2 * plain n m t ^ 2) k) th
    ((if Nat.eqb k 0 then 2 else 1) * nf n k ^ 2 * plain n k th * plain n (S k) th).
Proof.
  induction k as [|k IH]; intro Hk.
  - cbn [sum_f_R0]. evar_last; [apply is_derive_scal, is_derive_pow, plain_derive_0|]. cbn -[nf]. unfold scal; cbn -[nf]; unfold mult; cbn -[nf]. ring.
  - cbn [sum_f_R0]. evar_last; [apply @is_derive_plus; [apply IH; lia|apply is_derive_scal, is_derive_pow, plain_derive]|].
    unfold plus, scal; cbn -[nf INR pow Nat.eqb]; unfold mult; cbn -[nf INR pow Nat.eqb]. rewrite (eq_refl : Nat.eqb (S k) 0 = false).
    pose proof (nf_square_step n k ltac:(lia)) as E. set (c := (INR n - INR k) * (INR n + INR k + 1)) in *.
    set (w := if Nat.eqb k 0 then 2 else 1) in *. rewrite <- E. change (INR 2) with 2. field_simplify. ring.
Qed.

Lemma schmidt_sum n th : sum_f_R0 (fun m => schmidt n m th ^ 2) n = 1.
Proof.
  set (f := fun t => sum_f_R0 (fun m => nf n m ^ 2 * plain n m t ^ 2) n).
  assert (D : forall t, is_derive f t 0).
  { intro t. evar_last; [apply (partial_sum n t n); lia|]. unfold plain at 2. rewrite L_above by lia. ring. }
  assert (C : f th = f (PI / 2)).
  { destruct (MVT_gen f th (PI / 2) (fun _ => 0)) as (z & _ & E); [intros; apply D| |lra].
    intros; apply continuity_pt_filterlim, @ex_derive_continuous. eexists; apply D. }
  transitivity (f th).
  - apply sum_eq. intros m _. rewrite schmidt_nf. unfold plain. ring.
  - rewrite C. unfold f. transitivity (sum_f_R0 (fun m => if Nat.eqb m 0 then 1 else 0) n).
    + apply sum_eq. intros [|m] _; unfold plain; rewrite cos_PI2, sin_PI2.
      * cbn [Nat.eqb]. rewrite nf_0, (proj1 (legendre_ends n)). ring.
      * cbn [Nat.eqb]. rewrite pow_i by lia. ring.
    + clear. induction n as [|n IH]; [reflexivity|]. cbn [sum_f_R0]. rewrite IH. cbn [Nat.eqb]. ring.
Qed.

Lemma square_le_sum (s : nat -> R) n m : (m <= n)%nat -> s m ^ 2 <= sum_f_R0 (fun m => s m ^ 2) n.
Proof.
  induction n as [|n IH]; intro H; cbn [sum_f_R0]; [replace m with 0%nat by lia; lra|].
  destruct (Nat.eq_dec m (S n)) as [->|Ne].
  - assert (0 <= sum_f_R0 (fun m => s m ^ 2) n) by (apply cond_pos_sum; intro; apply pow2_ge_0). lra.
  - specialize (IH ltac:(lia)). pose proof (pow2_ge_0 (s (S n))). lra.
Qed.

Lemma schmidt_bound n m th : (m <= n)%nat -> Rabs (schmidt n m th) <= 1.
Proof.
  intro H. pose proof (square_le_sum (fun m => schmidt n m th) n m H) as A. cbn beta in A. rewrite schmidt_sum in A.
  apply Rabs_le. split; nra.
Qed.

Lemma schmidt_pole_bound n m th : (1 <= m <= n)%nat -> Rabs (schmidt n m th) <= Rabs (cos th) ^ m * pole_factor n m.
Proof.
  intro H. rewrite schmidt_nf, <- pole_factor_eq by exact H. rewrite !Rabs_mult, (Rabs_pos_eq (nf n m)) by (left; apply nf_pos). rewrite RPow_abs.
  rewrite (Rmult_comm (nf n m)), !Rmult_assoc. apply Rmult_le_compat_l; [apply Rabs_pos|]. apply Rmult_le_compat_l; [left; apply nf_pos|].
  apply legendre_deriv_bound, SIN_bound.
Qed.

(** ** The returned arrays *)
Lemma legendre_unit lats degree mem junk i lat n : nth_error lats i = Some lat -> -90 <= lat <= 90 -> (n <= degree)%nat ->
  sum_f_R0 (fun m => fst (legendre lats degree mem junk) (i * nm_size degree + nm_index n m)%nat ^ 2) n = 1.
Proof.
  intros Hi Hl Hn. rewrite <- (schmidt_sum n (lat * PI / 180)). apply sum_eq. intros m Hm. rewrite (legendre_value lats degree mem junk i lat n m Hi Hl); [reflexivity|lia].
Qed.

Lemma legendre_small lats degree mem junk i lat n m : nth_error lats i = Some lat -> -90 <= lat <= 90 -> (m <= n <= degree)%nat ->
  let p := Rabs (fst (legendre lats degree mem junk) (i * nm_size degree + nm_index n m)%nat) in
  p <= 1 /\ ((1 <= m)%nat -> p <= Rabs (cos (lat * PI / 180)) ^ m * pole_factor n m).
Proof.
  intros Hi Hl Hn. cbn zeta. rewrite (legendre_value lats degree mem junk i lat n m Hi Hl Hn). split; [apply schmidt_bound; lia|]. intro. apply schmidt_pole_bound. lia.
Qed.

(** ** The potential *)
Lemma cauchy (a b : nat -> R) n : Rabs (sum_f_R0 (fun m => a m * b m) n) <= sqrt (sum_f_R0 (fun m => a m ^ 2) n) * sqrt (sum_f_R0 (fun m => b m ^ 2) n).
Proof.
  assert (Pa : forall (f : nat -> R) k, 0 <= sum_f_R0 (fun m => f m ^ 2) k) by (intros; apply cond_pos_sum; intro; apply pow2_ge_0).
  induction n as [|n IH]; cbn [sum_f_R0].
  - rewrite Rabs_mult, <- !Rsqr_pow2, !sqrt_Rsqr_abs. lra.
  - set (A := sum_f_R0 (fun m => a m ^ 2) n) in *. set (B := sum_f_R0 (fun m => b m ^ 2) n) in *.
    pose proof (Pa a n : 0 <= A) as HA. pose proof (Pa b n : 0 <= B) as HB.
    eapply Rle_trans; [apply Rabs_triang|]. rewrite Rabs_mult. rewrite <- sqrt_mult by (pose proof (pow2_ge_0 (a (S n))); pose proof (pow2_ge_0 (b (S n))); lra).
    apply Rle_trans with (sqrt A * sqrt B + Rabs (a (S n)) * Rabs (b (S n))); [lra|].
    rewrite <- (sqrt_pow2 (sqrt A * sqrt B + Rabs (a (S n)) * Rabs (b (S n)))).
    2:{ apply Rplus_le_le_0_compat; apply Rmult_le_pos; try apply sqrt_pos; apply Rabs_pos. }
    apply sqrt_le_1_alt. rewrite <- (pow2_abs (a (S n))), <- (pow2_abs (b (S n))).
    pose proof (pow2_sqrt A HA) as EA. pose proof (pow2_sqrt B HB) as EB. set (x := sqrt A) in *. set (y := sqrt B) in *. rewrite <- EA, <- EB.
    set (u := Rabs (a (S n))). set (v := Rabs (b (S n))). pose proof (pow2_ge_0 (x * v - y * u)). nra.
Qed.

Lemma degree_bound (gh : nat -> nat -> R * R) n th ph :
  Rabs (sum_f_R0 (fun m => (fst (gh n m) * cos (INR m * ph) + snd (gh n m) * sin (INR m * ph)) * schmidt n m th) n) <= degree_size gh n.
Proof.
  eapply Rle_trans; [apply (cauchy (fun m => fst (gh n m) * cos (INR m * ph) + snd (gh n m) * sin (INR m * ph)) (fun m => schmidt n m th))|]. cbn beta.
  rewrite schmidt_sum, sqrt_1, Rmult_1_r. apply sqrt_le_1_alt. apply sum_Rle. intros m _.
  pose proof (sin2_cos2 (INR m * ph)) as Q. unfold Rsqr in Q. set (c := cos _) in *. set (s := sin _) in *.
  pose proof (pow2_ge_0 (fst (gh n m) * s - snd (gh n m) * c)). nra.
Qed.

Lemma truncation internal gh N M rad th ph : (N <= M)%nat ->
  Rabs (potential internal 6371.2 gh M rad th ph - potential internal 6371.2 gh N rad th ph) <= remaining_degrees internal gh N M rad.
Proof.
  intro H. unfold potential, remaining_degrees. rewrite <- Rmult_minus_distr_l, Rabs_mult, (Rabs_pos_eq 6371.2) by lra. apply Rmult_le_compat_l; [lra|].
  induction M as [|M IH].
  - replace N with 0%nat by lia. cbn [sum_f_R0 Nat.leb]. unfold Rminus. rewrite Rplus_opp_r, Rabs_R0. lra.
  - destruct (Nat.eq_dec N (S M)) as [->|Ne].
    + unfold Rminus. rewrite Rplus_opp_r, Rabs_R0. apply cond_pos_sum. intro n. destruct (Nat.leb n (S M)); [lra|]. apply Rmult_le_pos; [apply Rabs_pos|apply sqrt_pos].
    + specialize (IH ltac:(lia)). match goal with |- Rabs (sum_f_R0 ?F _ - _) <= sum_f_R0 ?G _ => rewrite (tech5 F M), (tech5 G M) end. rewrite (proj2 (Nat.leb_gt (S M) N)) by lia.
      match goal with |- Rabs (?a + ?b - ?c) <= _ => replace (a + b - c) with ((a - c) + b) by ring end.
      eapply Rle_trans; [apply Rabs_triang|]. apply Rplus_le_compat; [exact IH|]. rewrite Rabs_mult. apply Rmult_le_compat_l; [apply Rabs_pos|apply degree_bound].
Qed.

Lemma whole internal gh M rad th ph : Rabs (potential internal 6371.2 gh M rad th ph) <=
  6371.2 * sum_f_R0 (fun n => Rabs (radial internal 6371.2 n rad) * degree_size gh n) M.
Proof.
  unfold potential. rewrite Rabs_mult, (Rabs_pos_eq 6371.2) by lra. apply Rmult_le_compat_l; [lra|]. apply sum_abs_le. intros n _.
  rewrite Rabs_mult. apply Rmult_le_compat_l; [apply Rabs_pos|apply degree_bound].
Qed.

Lemma sheval_truncation csize deg deg' N M coef internal co sp sg lat lon rad mem mem' v w :
  (1 <= csize < 2 ^ 50)%Z -> expansion_degree csize deg N -> expansion_degree csize deg' M -> (N <= M)%nat -> -90 <= lat <= 90 -> rad <> 0 ->
  sheval (nd0 (lat, lon, rad)) csize (nd0 coef) CT_GEOCENTRIC_SPHERICAL co SM_POTENTIAL internal deg sp sg mem = Ok ([], [(Some v, None)]) ->
  sheval (nd0 (lat, lon, rad)) csize (nd0 coef) CT_GEOCENTRIC_SPHERICAL co SM_POTENTIAL internal deg' sp sg mem' = Ok ([], [(Some w, None)]) ->
  let gh := fun n m => coef (n * (n + 1) / 2 + m)%nat in
  Rabs (w - v) <= Rabs sp * remaining_degrees internal gh N M rad /\
  Rabs w <= Rabs sp * (6371.2 * sum_f_R0 (fun n => Rabs (radial internal 6371.2 n rad) * degree_size gh n) M).
Proof.
  intros Hc HN HM NM Hl Hr E1 E2. cbn zeta.
  rewrite (potential_any_output csize deg N coef internal co sp sg lat lon rad mem Hc HN Hl Hr) in E1.
  rewrite (potential_any_output csize deg' M coef internal co sp sg lat lon rad mem' Hc HM Hl Hr) in E2.
  injection E1 as <-. injection E2 as <-. split.
  - rewrite <- Rmult_minus_distr_l, Rabs_mult. apply Rmult_le_compat_l; [apply Rabs_pos|]. now apply truncation.
  - rewrite Rabs_mult. apply Rmult_le_compat_l; [apply Rabs_pos|]. apply whole.
Qed.
