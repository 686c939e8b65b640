(** Proofs about the double precision time conversions. *)

From Coq Require Import Bool ZArith Reals Lia Lra.
From Flocq Require Import Core.
From Verif Require Import SizeModel SizeProofs FpSpec FpProofs TimeModel TimeSpec TimeProofs DecimalProofs FpTimeModel.
Open Scope R_scope.

Notation pow2 := (bpow radix2).

Lemma pow2_9 : pow2 9 = 512. Proof. reflexivity. Qed.
Lemma pow2_m8 : pow2 (-8) = / 256. Proof. reflexivity. Qed.
Lemma pow2_m44 : pow2 (-44) = / 17592186044416. Proof. reflexivity. Qed.
Lemma pow2_m45 : pow2 (-45) = / 35184372088832. Proof. reflexivity. Qed.
Lemma pow2_m51 : pow2 (-51) = / 2251799813685248. Proof. reflexivity. Qed.
Lemma pow2_m53 : pow2 (-53) = / 9007199254740992. Proof. reflexivity. Qed.
Lemma pow2_m54 : pow2 (-54) = / 18014398509481984. Proof. reflexivity. Qed.
Lemma pow2_m62 : pow2 (-62) = / 4611686018427387904. Proof. reflexivity. Qed.

(** ** The constants *)

Lemma per_day_err y : Rabs (years_per_day_fl y - years_per_day y) <= / 4611686018427387904.
Proof.
  rewrite <- pow2_m62. unfold years_per_day_fl, years_per_day.
  destruct (is_leap_year y); apply (rnd_err _ (-8)); try lia; rewrite pow2_m8; rewrite Rabs_pos_eq; lra.
Qed.

Lemma per_day_pos y : 0 <= years_per_day_fl y.
Proof. unfold years_per_day_fl. destruct (is_leap_year y); apply rnd_pos; lra. Qed.

Lemma per_day_range y : / 366 <= years_per_day y <= / 365.
Proof. unfold years_per_day. destruct (is_leap_year y); lra. Qed.

Lemma per_day_days y : years_per_day y * IZR (days_per_year y) = 1.
Proof. rewrite per_day. destruct (days_pos y) as [D _]. apply IZR_le in D. apply Rinv_l. lra. Qed.

Lemma days_range y : 365 <= IZR (days_per_year y) <= 366.
Proof. destruct (days_pos y) as [D D']. apply IZR_le in D, D'. lra. Qed.

Lemma days_fmt y : fmt (IZR (days_per_year y)).
Proof. apply int_fmt. pose proof (days_pos y). lia. Qed.

(** A number just above one rounds to one *)
Lemma rnd_one_up x : x <= 1 + 3 / 36028797018963968 -> rnd x <= 1.
Proof.
  intro H. apply Rle_trans with (rnd (1 + 3 / 36028797018963968)); [apply rnd_le; exact H|].
  rewrite (rnd_near _ (2 ^ 52) (-52)); try lia.
  - apply Req_le. change (IZR (2 ^ 52)) with 4503599627370496. change (pow2 (-52)) with (/ 4503599627370496). lra.
  - change (IZR (2 ^ 52)) with 4503599627370496. change (pow2 (-52)) with (/ 4503599627370496).
    replace (_ - _) with (3 / 36028797018963968) by lra. rewrite Rabs_pos_eq; lra.
  - change (pow2 (-52 + 52)) with 1. change (pow2 (-52 + 53)) with 2. lra.
Qed.

(** ** The fraction of a year *)

Definition frac_fl (a : R) (y : Z) : R := rnd (rnd a * years_per_day_fl y).

Lemma frac_fl_le a a' y : a <= a' -> frac_fl a y <= frac_fl a' y.
Proof. intro H. apply rnd_le, Rmult_le_compat_r; [apply per_day_pos|apply rnd_le; exact H]. Qed.

Lemma frac_fl_0 y : frac_fl 0 y = 0.
Proof. unfold frac_fl. rewrite rnd_0, Rmult_0_l. apply rnd_0. Qed.

Lemma frac_fl_range a y : 0 <= a <= IZR (days_per_year y) -> 0 <= frac_fl a y <= 1.
Proof.
  intros [A B]. split.
  - rewrite <- (frac_fl_0 y). apply frac_fl_le. exact A.
  - eapply Rle_trans; [apply frac_fl_le; exact B|]. unfold frac_fl. rewrite (rnd_id (IZR (days_per_year y))) by apply days_fmt.
    apply rnd_one_up. pose proof (per_day_err y) as E. apply Rabs_le_inv in E.
    pose proof (per_day_days y) as D1. pose proof (days_range y) as D2.
    set (n := IZR (days_per_year y)) in *. set (p := years_per_day_fl y) in *. set (q := years_per_day y) in *.
    assert (n * (p - q) <= 366 * / 4611686018427387904).
    { apply Rle_trans with (n * / 4611686018427387904); [apply Rmult_le_compat_l; lra|apply Rmult_le_compat_r; lra]. }
    assert (n * p = 1 + n * (p - q)) by (rewrite <- D1; ring). lra.
Qed.

Lemma frac_fl_err a y : 0 <= a <= IZR (days_per_year y) ->
  Rabs (frac_fl a y - a * years_per_day y) <= / 2251799813685248.
Proof.
  intros H. pose proof (days_range y) as D2.
  assert (E1 : Rabs (rnd a - a) <= / 35184372088832).
  { rewrite <- pow2_m45. apply (rnd_err a 9); [lia|]. rewrite pow2_9, Rabs_pos_eq; lra. }
  pose proof (per_day_err y) as E2. pose proof (per_day_range y) as Q.
  pose proof (per_day_pos y) as P0.
  assert (R0 : 0 <= rnd a) by (apply rnd_pos; lra).
  apply Rabs_le_inv in E1, E2. unfold frac_fl.
  set (p := years_per_day_fl y) in *. set (q := years_per_day y) in *. set (r := rnd a) in *.
  assert (X : Rabs (r * p - a * q) <= / 4503599627370496).
  { replace (r * p - a * q) with ((r - a) * p + a * (p - q)) by ring.
    eapply Rle_trans; [apply Rabs_triang|].
    assert (Rabs ((r - a) * p) <= / 35184372088832 * / 256).
    { rewrite Rabs_mult. apply Rmult_le_compat; try apply Rabs_pos; [apply Rabs_le; lra|]. rewrite Rabs_pos_eq; lra. }
    assert (Rabs (a * (p - q)) <= 366 * / 4611686018427387904).
    { rewrite Rabs_mult. apply Rmult_le_compat; try apply Rabs_pos; [rewrite Rabs_pos_eq; lra|apply Rabs_le; lra]. }
    lra. }
  apply Rabs_le_inv in X.
  assert (A0 : 0 <= a * q <= 366 * / 365) by (split; [apply Rmult_le_pos; lra|apply Rmult_le_compat; lra]).
  assert (Y : Rabs (rnd (r * p) - r * p) <= / 9007199254740992).
  { rewrite <- pow2_m53. apply (rnd_err _ 1); [lia|]. change (pow2 1) with 2. apply Rabs_le. lra. }
  apply Rabs_le_inv in Y. apply Rabs_le. lra.
Qed.

(** ** The range of the years *)

Ltac Zify.zify_post_hook ::= Z.to_euclidean_division_equations.
Lemma year_small y : (-4799 <= y)%Z -> (mjd2k_year_start y <= 500000000)%Z -> (-4799 <= y <= 1999999)%Z.
Proof.
  intros H S. split; [exact H|]. destruct (Z_le_gt_dec y 1582) as [L|G]; [lia|].
  rewrite year_start_g in S by lia. unfold start_g, start_j in S. lia.
Qed.

Lemma start_small y : (-4799 <= y <= 2000001)%Z -> (-2483321 <= mjd2k_year_start y <= 1000000000)%Z.
Proof.
  intros H. destruct (Z_le_gt_dec y 1582) as [L|G].
  - rewrite year_start_j by lia. unfold start_j. lia.
  - rewrite year_start_g by lia. unfold start_g, start_j. lia.
Qed.
Ltac Zify.zify_post_hook ::= idtac.

Lemma time_facts t : IZR first_day <= t <= 500000000 -> let y := mjd2k_to_year t in
  (-4716 <= y <= 1999999)%Z /\ 0 <= t - IZR (mjd2k_year_start y) < IZR (days_per_year y) /\
  t < IZR (mjd2k_year_start (y + 1)).
Proof.
  intros [H H2] y. destruct (year_time_bounds t H) as (Hy & A & B). fold y in Hy, A, B.
  pose proof (start_step_le y ltac:(lia)) as S.
  assert (S2 : (mjd2k_year_start y <= 500000000)%Z) by (apply le_IZR; lra).
  pose proof (year_small y ltac:(lia) S2). split; [lia|]. split; lra.
Qed.

Lemma year_rnd y : (-4799 <= y <= 2000001)%Z -> rnd (IZR y) = IZR y.
Proof. intro H. apply rnd_int. lia. Qed.

Lemma start_rnd y : (-4799 <= y <= 2000001)%Z -> rnd (IZR (mjd2k_year_start y)) = IZR (mjd2k_year_start y).
Proof. intro H. apply rnd_int. pose proof (start_small y H). lia. Qed.

Lemma decimal_fl_eq t : mjd2k_to_decimal_year_fl t =
  rnd (IZR (mjd2k_to_year t) + frac_fl (t - IZR (mjd2k_year_start (mjd2k_to_year t))) (mjd2k_to_year t)).
Proof. reflexivity. Qed.

(** ** The decimal year *)

Lemma decimal_fl_range t : IZR first_day <= t <= 500000000 ->
  IZR (mjd2k_to_year t) <= mjd2k_to_decimal_year_fl t <= IZR (mjd2k_to_year t) + 1.
Proof.
  intro H. destruct (time_facts t H) as (Y & A & _). rewrite decimal_fl_eq. set (y := mjd2k_to_year t) in *.
  pose proof (frac_fl_range (t - IZR (mjd2k_year_start y)) y ltac:(lra)) as F. split.
  - rewrite <- (year_rnd y) at 1 by lia. apply rnd_le. lra.
  - rewrite <- (plus_IZR y 1), <- (year_rnd (y + 1)) by lia. apply rnd_le. rewrite plus_IZR. lra.
Qed.

Lemma fraction_fl_range t : IZR first_day <= t <= 500000000 -> 0 <= mjd2k_to_year_fraction_fl t <= 1.
Proof. intro H. destruct (time_facts t H) as (Y & A & _). apply frac_fl_range. lra. Qed.

Lemma decimal_fl_le t t' : IZR first_day <= t -> t <= t' -> t' <= 500000000 ->
  mjd2k_to_decimal_year_fl t <= mjd2k_to_decimal_year_fl t'.
Proof.
  intros H L H'. destruct (Z.lt_trichotomy (mjd2k_to_year t) (mjd2k_to_year t')) as [E|[E|E]].
  - pose proof (decimal_fl_range t ltac:(lra)). pose proof (decimal_fl_range t' ltac:(lra)).
    assert (mjd2k_to_year t + 1 <= mjd2k_to_year t')%Z as E' by lia. apply IZR_le in E'. rewrite plus_IZR in E'. lra.
  - rewrite !decimal_fl_eq, E. apply rnd_le, Rplus_le_compat_l, frac_fl_le. lra.
  - exfalso. destruct (time_facts t ltac:(lra)) as (Y & A & B). destruct (time_facts t' ltac:(lra)) as (Y' & A' & B').
    pose proof (year_start_mono (mjd2k_to_year t' + 1) (mjd2k_to_year t) ltac:(lia) ltac:(lia)) as M. apply IZR_le in M. lra.
Qed.

Lemma year_at_start y : (-4715 <= y)%Z -> mjd2k_to_year (IZR (mjd2k_year_start y)) = y /\
  (first_day <= mjd2k_year_start y)%Z.
Proof.
  intro Hy. pose proof (year_start_mono (-4715) y ltac:(lia) Hy) as M.
  change (mjd2k_year_start (-4715)) with (-2452640)%Z in M.
  assert (F : (first_day <= mjd2k_year_start y)%Z) by (unfold first_day; lia). split; [|exact F].
  apply year_of_time; [apply IZR_le; exact F|lia|]. split; [lra|]. apply IZR_lt.
  destruct (Z.eq_dec y 1582) as [->|E]; [reflexivity|].
  destruct (year_start_step y ltac:(lia) E) as [-> _]. pose proof (days_pos y). lia.
Qed.

Lemma decimal_fl_start y : (-4715 <= y <= 2000000)%Z -> mjd2k_to_decimal_year_fl (IZR (mjd2k_year_start y)) = IZR y.
Proof.
  intro Hy. destruct (year_at_start y ltac:(lia)) as [E _]. rewrite decimal_fl_eq, E, Rminus_diag_eq by reflexivity.
  rewrite frac_fl_0, Rplus_0_r. apply year_rnd. lia.
Qed.

Lemma decimal_fl_err t k : IZR first_day <= t <= 500000000 -> (0 <= k)%Z ->
  - pow2 k <= IZR (mjd2k_to_year t) -> IZR (mjd2k_to_year t) + 1 <= pow2 k ->
  Rabs (mjd2k_to_decimal_year_fl t - mjd2k_to_decimal_year t) <= pow2 (k - 54) + / 2251799813685248.
Proof.
  intros H Hk K1 K2. destruct (time_facts t H) as (Y & A & _). rewrite decimal_fl_eq. unfold mjd2k_to_decimal_year.
  set (y := mjd2k_to_year t) in *. set (a := t - IZR (mjd2k_year_start y)) in *.
  pose proof (frac_fl_range a y ltac:(lra)) as F. pose proof (frac_fl_err a y ltac:(lra)) as E.
  assert (X : Rabs (rnd (IZR y + frac_fl a y) - (IZR y + frac_fl a y)) <= pow2 (k - 54)).
  { apply rnd_err; [lia|]. apply Rabs_le. lra. }
  apply Rabs_le_inv in E, X. apply Rabs_le. lra.
Qed.

(** ** The inverse conversion *)

Definition days_fl (f : R) (y : Z) : R := rnd (rnd f * IZR (days_per_year y)).

Lemma days_fl_le f f' y : f <= f' -> days_fl f y <= days_fl f' y.
Proof. intro H. apply rnd_le, Rmult_le_compat_r; [pose proof (days_range y); lra|apply rnd_le; exact H]. Qed.

Lemma rnd_1 : rnd 1 = 1.
Proof. apply (rnd_int 1). lia. Qed.

Lemma days_fl_range f y : 0 <= f <= 1 -> 0 <= days_fl f y <= IZR (days_per_year y).
Proof.
  intros [A B]. pose proof (days_range y) as D. assert (R0 : 0 <= rnd f) by (apply rnd_pos; lra).
  assert (R1 : rnd f <= 1) by (rewrite <- rnd_1; apply rnd_le; lra). split.
  - apply rnd_pos, Rmult_le_pos; lra.
  - unfold days_fl. rewrite <- (rnd_id (IZR (days_per_year y))) at 2 by apply days_fmt. apply rnd_le.
    rewrite <- (Rmult_1_l (IZR (days_per_year y))) at 2. apply Rmult_le_compat_r; lra.
Qed.

Lemma days_fl_err f y : 0 <= f <= 1 -> Rabs (days_fl f y - f * IZR (days_per_year y)) <= / 17592186044416.
Proof.
  intros H. pose proof (days_range y) as D.
  assert (E1 : Rabs (rnd f - f) <= / 18014398509481984).
  { rewrite <- pow2_m54. apply (rnd_err f 0); [lia|]. change (pow2 0) with 1. rewrite Rabs_pos_eq; lra. }
  assert (R0 : 0 <= rnd f) by (apply rnd_pos; lra).
  assert (R1 : rnd f <= 1) by (rewrite <- rnd_1; apply rnd_le; lra).
  unfold days_fl. set (n := IZR (days_per_year y)) in *. set (r := rnd f) in *.
  assert (E2 : Rabs (rnd (r * n) - r * n) <= / 35184372088832).
  { rewrite <- pow2_m45. apply (rnd_err _ 9); [lia|]. rewrite pow2_9, Rabs_pos_eq by (apply Rmult_le_pos; lra).
    apply Rle_trans with (1 * 512); [apply Rmult_le_compat; lra|lra]. }
  assert (E3 : Rabs (r * n - f * n) <= / 18014398509481984 * 366).
  { rewrite <- Rmult_minus_distr_r, Rabs_mult. apply Rmult_le_compat; try apply Rabs_pos; [exact E1|].
    rewrite Rabs_pos_eq; lra. }
  apply Rabs_le_inv in E2, E3. apply Rabs_le. lra.
Qed.

Lemma mjd_fl_eq d : decimal_year_to_mjd2k_fl d =
  rnd (IZR (mjd2k_year_start (floor d)) + days_fl (d - IZR (floor d)) (floor d)).
Proof. reflexivity. Qed.

Lemma mjd_fl_start y : (-4799 <= y <= 2000000)%Z -> decimal_year_to_mjd2k_fl (IZR y) = IZR (mjd2k_year_start y).
Proof.
  intro H. rewrite mjd_fl_eq. assert (floor (IZR y) = y) as -> by (apply floor_unique; lra).
  rewrite Rminus_diag_eq by reflexivity. unfold days_fl. rewrite rnd_0, Rmult_0_l, rnd_0, Rplus_0_r. apply start_rnd. lia.
Qed.

Lemma mjd_fl_range d : -4799 <= d <= 2000000 ->
  IZR (mjd2k_year_start (floor d)) <= decimal_year_to_mjd2k_fl d <=
    IZR (mjd2k_year_start (floor d)) + IZR (days_per_year (floor d)).
Proof.
  intro H. destruct (floor_spec d) as [F1 F2]. rewrite mjd_fl_eq. set (y := floor d) in *.
  assert (Y : (-4799 <= y <= 2000000)%Z) by (split; [apply floor_ge; lra|apply le_IZR; lra]).
  pose proof (days_fl_range (d - IZR y) y ltac:(lra)) as D. pose proof (start_small y ltac:(lia)) as S.
  pose proof (days_pos y) as P. split.
  - rewrite <- (start_rnd y) at 1 by lia. apply rnd_le. lra.
  - rewrite <- plus_IZR, <- (rnd_int (mjd2k_year_start y + days_per_year y)) by lia. apply rnd_le. rewrite plus_IZR. lra.
Qed.

Lemma mjd_fl_le d d' : -4799 <= d -> d <= d' -> d' <= 2000000 -> floor d = floor d' ->
  decimal_year_to_mjd2k_fl d <= decimal_year_to_mjd2k_fl d'.
Proof. intros H L H' E. rewrite !mjd_fl_eq, E. apply rnd_le, Rplus_le_compat_l, days_fl_le. lra. Qed.

Lemma mjd_fl_mono d d' : -4799 <= d -> d <= d' -> d' <= 2000000 -> ~ (1582 <= d < 1583) ->
  decimal_year_to_mjd2k_fl d <= decimal_year_to_mjd2k_fl d'.
Proof.
  intros H L H' N. destruct (Z.eq_dec (floor d) (floor d')) as [E|E]; [apply mjd_fl_le; assumption|].
  pose proof (floor_le d d' L) as F. pose proof (mjd_fl_range d ltac:(lra)) as R1. pose proof (mjd_fl_range d' ltac:(lra)) as R2.
  destruct (floor_spec d) as [F1 F2]. assert (Y : (-4799 <= floor d)%Z) by (apply floor_ge; lra).
  assert (N2 : floor d <> 1582%Z) by (intro X; rewrite X in F1, F2; apply N; lra).
  destruct (year_start_step (floor d) ltac:(lia) N2) as [S _].
  pose proof (year_start_mono (floor d + 1) (floor d') ltac:(lia) ltac:(lia)) as M. rewrite S in M.
  apply IZR_le in M. rewrite plus_IZR in M. lra.
Qed.

Lemma mjd_fl_err d j : -4799 <= d <= 2000000 -> (0 <= j)%Z ->
  - pow2 j <= IZR (mjd2k_year_start (floor d)) -> IZR (mjd2k_year_start (floor d)) + 366 <= pow2 j ->
  Rabs (decimal_year_to_mjd2k_fl d - decimal_year_to_mjd2k d) <= pow2 (j - 54) + / 17592186044416.
Proof.
  intros H Hj J1 J2. destruct (floor_spec d) as [F1 F2]. rewrite mjd_fl_eq. unfold decimal_year_to_mjd2k.
  set (y := floor d) in *. pose proof (days_range y) as D.
  pose proof (days_fl_range (d - IZR y) y ltac:(lra)) as R. pose proof (days_fl_err (d - IZR y) y ltac:(lra)) as E.
  set (f := d - IZR y) in *. set (s := IZR (mjd2k_year_start y)) in *.
  assert (X : Rabs (rnd (s + days_fl f y) - (s + days_fl f y)) <= pow2 (j - 54)).
  { apply rnd_err; [lia|]. apply Rabs_le. lra. }
  apply Rabs_le_inv in E, X. apply Rabs_le. lra.
Qed.
