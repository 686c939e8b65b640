(** Proofs about the double precision time conversions: round trips, hours, simplified
    conversions. *)

From Coq Require Import Bool ZArith Reals Lia Lra.
From Flocq Require Import Core.
From Verif Require Import SizeModel SizeProofs FpSpec FpProofs TimeModel TimeSpec TimeProofs DecimalProofs FpTimeModel FpTimeProofs.
Open Scope R_scope.

(** ** MJD2000 -> decimal year -> MJD2000 *)

Lemma fl_mjd_round_trip t k j : IZR first_day <= t <= 500000000 -> (0 <= k)%Z -> (0 <= j)%Z ->
  let y := mjd2k_to_year t in
  - pow2 k <= IZR y -> IZR y + 1 <= pow2 k ->
  - pow2 j <= IZR (mjd2k_year_start y) -> IZR (mjd2k_year_start y) + 366 <= pow2 j ->
  Rabs (decimal_year_to_mjd2k_fl (mjd2k_to_decimal_year_fl t) - t) <=
    366 * pow2 (k - 54) + pow2 (j - 54) + / 2199023255552.
Proof.
  intros H Hk Hj y K1 K2 J1 J2. destruct (time_facts t H) as (Y & A & B). fold y in Y, A, B.
  pose proof (decimal_fl_range t H) as R. pose proof (decimal_fl_err t k H Hk K1 K2) as E. fold y in R.
  pose proof (days_range y) as D. pose proof (per_day_days y) as P.
  assert (Yr : -4716 <= IZR y <= 1999999) by (split; apply IZR_le; lia).
  set (z := mjd2k_to_decimal_year_fl t) in *. pose proof (bpow_gt_0 radix2 (k - 54)) as U. pose proof (bpow_gt_0 radix2 (j - 54)) as U2.
  unfold mjd2k_to_decimal_year in E. fold y in E. set (a := t - IZR (mjd2k_year_start y)) in *.
  assert (Ta : t = IZR (mjd2k_year_start y) + a) by (unfold a; ring).
  set (q := years_per_day y) in *. set (n := IZR (days_per_year y)) in *.
  assert (Aq : a = a * q * n) by (rewrite Rmult_assoc, P; ring).
  assert (En : Rabs ((z - (IZR y + a * q)) * n) <= 366 * pow2 (k - 54) + 366 * / 2251799813685248).
  { rewrite <- Rmult_plus_distr_l, Rmult_comm, Rabs_mult. apply Rmult_le_compat; try apply Rabs_pos; [rewrite Rabs_pos_eq; lra|exact E]. }
  destruct (Rle_lt_or_eq_dec _ _ (proj2 R)) as [L|Eq].
  - assert (F : floor z = y) by (apply floor_unique; lra).
    pose proof (mjd_fl_err z j ltac:(lra) Hj) as M. rewrite F in M. specialize (M J1 J2).
    unfold decimal_year_to_mjd2k in M. rewrite F in M. fold n in M.
    replace ((z - (IZR y + a * q)) * n) with (IZR (mjd2k_year_start y) + (z - IZR y) * n - t) in En
      by (rewrite Ta; rewrite Aq at 1; ring).
    apply Rabs_le_inv in En, M. apply Rabs_le. lra.
  - rewrite Eq, <- (plus_IZR y 1), mjd_fl_start by lia.
    assert (Ny : y <> 1582%Z).
    { intro X. pose proof (decimal_fl_err t 11 H ltac:(lia)) as E2. fold y in E2. fold z in E2. rewrite X in E2.
      change (pow2 11) with 2048 in E2. specialize (E2 ltac:(lra) ltac:(lra)).
      change (pow2 (11 - 54)) with (/ 8796093022208) in E2. unfold mjd2k_to_decimal_year in E2. fold y in E2. fold a in E2. fold q in E2.
      apply Rabs_le_inv in E2. rewrite X in Eq, B. change (mjd2k_year_start (1582 + 1)) with (-152306)%Z in B.
      unfold a, q in E2. rewrite X in E2. change (mjd2k_year_start 1582) with (-152661)%Z in E2.
      change (years_per_day 1582) with (1 / 365) in E2. lra. }
    destruct (year_start_step y ltac:(lia) Ny) as [S _]. rewrite S, plus_IZR. fold n.
    replace ((z - (IZR y + a * q)) * n) with (n - a) in En by (rewrite Eq; rewrite Aq at 1; ring).
    apply Rabs_le_inv in En. apply Rabs_le. lra.
Qed.

(** ** Decimal year -> MJD2000 -> decimal year *)

Lemma fl_decimal_round_trip d k j : -4715 <= d <= 1000000 -> ~ (1582 + 354 / 365 <= d < 1583) -> (0 <= k)%Z -> (0 <= j)%Z ->
  let y := floor d in
  - pow2 k <= IZR y -> IZR y + 1 <= pow2 k ->
  - pow2 j <= IZR (mjd2k_year_start y) -> IZR (mjd2k_year_start y) + 366 <= pow2 j ->
  Rabs (mjd2k_to_decimal_year_fl (decimal_year_to_mjd2k_fl d) - d) <=
    pow2 (k - 54) + / 365 * pow2 (j - 54) + / 1125899906842624.
Proof.
  intros H N Hk Hj y K1 K2 J1 J2. destruct (floor_spec d) as [F1 F2]. fold y in F1, F2.
  assert (Hy : (-4715 <= y <= 1000000)%Z) by (split; [apply floor_ge; lra|apply le_IZR; lra]).
  assert (Yr : -4715 <= IZR y <= 1000000) by (split; apply IZR_le; lia).
  pose proof (mjd_fl_range d ltac:(lra)) as R. fold y in R.
  pose proof (mjd_fl_err d j ltac:(lra) Hj J1 J2) as M. unfold decimal_year_to_mjd2k in M. fold y in M.
  pose proof (days_range y) as D. pose proof (per_day_days y) as P. pose proof (per_day_range y) as Q.
  pose proof (bpow_gt_0 radix2 (k - 54)) as U. pose proof (bpow_gt_0 radix2 (j - 54)) as U2.
  set (t := decimal_year_to_mjd2k_fl d) in *. set (q := years_per_day y) in *. set (n := IZR (days_per_year y)) in *.
  set (s := IZR (mjd2k_year_start y)) in *.
  assert (T2 : t <= IZR (mjd2k_year_start (y + 1)) /\ (y = 1582%Z -> t < IZR (mjd2k_year_start (y + 1)))).
  { destruct (Z.eq_dec y 1582) as [X|X].
    - assert (t < IZR (mjd2k_year_start (y + 1))); [|lra].
      assert (d < 1582 + 354 / 365) by (rewrite X in F1, F2; destruct (Rlt_or_le d (1582 + 354 / 365)); auto; exfalso; apply N; lra).
      pose proof (mjd_fl_err d 18 ltac:(lra) ltac:(lia)) as M2. unfold decimal_year_to_mjd2k in M2. fold y in M2. fold t in M2.
      rewrite X in *. change (pow2 18) with 262144 in M2. change (mjd2k_year_start 1582) with (-152661)%Z in *.
      change (days_per_year 1582) with 365%Z in *. change (pow2 (18 - 54)) with (/ 68719476736) in M2.
      specialize (M2 ltac:(lra) ltac:(lra)). apply Rabs_le_inv in M2. change (mjd2k_year_start (1582 + 1)) with (-152306)%Z. lra.
    - destruct (year_start_step y ltac:(lia) X) as [S _]. rewrite S, plus_IZR. fold n. fold s. split; [lra|intro; congruence]. }
  assert (M3 : Rabs ((t - (s + (d - IZR y) * n)) * q) <= / 365 * pow2 (j - 54) + / 365 * / 17592186044416).
  { rewrite <- Rmult_plus_distr_l, Rmult_comm, Rabs_mult. apply Rmult_le_compat; try apply Rabs_pos; [rewrite Rabs_pos_eq; lra|exact M]. }
  replace ((t - (s + (d - IZR y) * n)) * q) with ((t - s) * q - (d - IZR y) * (q * n)) in M3 by ring. rewrite P in M3.
  assert (St : (first_day <= mjd2k_year_start y)%Z) by (apply year_at_start; lia). apply IZR_le in St. fold s in St.
  pose proof (start_small (y + 1) ltac:(lia)) as S3.
  assert (S4 : IZR (mjd2k_year_start (y + 1)) <= 500000000).
  { apply IZR_le. assert (y + 1 <= 1000001)%Z as L by lia. pose proof (year_start_mono (y + 1) 1000001 ltac:(lia) L) as L2.
    change (mjd2k_year_start 1000001) with 364512381%Z in L2. lia. }
  destruct (Rle_lt_or_eq_dec _ _ (proj1 T2)) as [L|Eq].
  - assert (Y : mjd2k_to_year t = y) by (apply year_of_time; [lra|lia|fold s; lra]).
    pose proof (decimal_fl_err t k ltac:(lra) Hk) as E. rewrite Y in E. specialize (E K1 K2).
    unfold mjd2k_to_decimal_year in E. rewrite Y in E. fold s q in E. apply Rabs_le_inv in E, M3. apply Rabs_le. lra.
  - assert (X : y <> 1582%Z) by (intro X; pose proof (proj2 T2 X); lra).
    rewrite Eq, decimal_fl_start, plus_IZR by lia. destruct (year_start_step y ltac:(lia) X) as [S _].
    rewrite S, plus_IZR in Eq. fold n s in Eq. replace (t - s) with n in M3 by lra.
    replace (n * q) with 1 in M3 by (rewrite <- P; ring). apply Rabs_le_inv in M3. apply Rabs_le. lra.
Qed.

(** ** A time just before a year start *)

Lemma tiny_time : let t := - powerRZ 2 (-60) in
  mjd2k_to_year t = 1999%Z /\ mjd2k_to_year_fraction_fl t = 1 /\ mjd2k_to_decimal_year_fl t = 2000 /\
  mjd2k_to_date_fl t = ((1999%Z, 12%Z, 31%Z), 24).
Proof.
  intro t. assert (Et : t = - / 1152921504606846976) by (unfold t; rewrite <- bpow_powerRZ; reflexivity).
  assert (F : floor t = (-1)%Z) by (apply floor_unique; rewrite Et; lra).
  assert (Y : mjd2k_to_year t = 1999%Z) by (unfold mjd2k_to_year; rewrite F; reflexivity).
  assert (D : rnd (t + 365) = 365).
  { rewrite (rnd_near _ (365 * 2 ^ 44) (-44)); try lia.
    - change (365 * 2 ^ 44)%Z with 6421147906211840%Z. rewrite pow2_m44. lra.
    - change (365 * 2 ^ 44)%Z with 6421147906211840%Z. rewrite pow2_m44, Et.
      replace (_ - _) with (- / 1152921504606846976) by lra. rewrite Rabs_Ropp, Rabs_pos_eq; lra.
    - change (pow2 (-44 + 52)) with 256. change (pow2 (-44 + 53)) with 512. rewrite Et. lra. }
  assert (Fr : frac_fl (t - IZR (mjd2k_year_start 1999)) 1999 = 1).
  { change (mjd2k_year_start 1999) with (-365)%Z. unfold frac_fl. replace (t - -365) with (t + 365) by ring. rewrite D.
    change (years_per_day_fl 1999) with (rnd (1 / 365)).
    assert (E : rnd (1 / 365) = 6317378107434778 * / 2305843009213693952).
    { rewrite (rnd_near _ 6317378107434778 (-61)); try lia.
      - reflexivity.
      - change (pow2 (-61)) with (/ 2305843009213693952). replace (_ - _) with (- (18 / 841632698362998292480)) by lra.
        rewrite Rabs_Ropp, Rabs_pos_eq; lra.
      - change (pow2 (-61 + 52)) with (/ 512). change (pow2 (-61 + 53)) with (/ 256). lra. }
    rewrite E. rewrite (rnd_near _ (2 ^ 52) (-52)); try lia.
    - change (IZR (2 ^ 52)) with 4503599627370496. change (pow2 (-52)) with (/ 4503599627370496). lra.
    - change (IZR (2 ^ 52)) with 4503599627370496. change (pow2 (-52)) with (/ 4503599627370496).
      replace (_ - _) with (18 / 2305843009213693952) by lra. rewrite Rabs_pos_eq; lra.
    - change (pow2 (-52 + 52)) with 1. change (pow2 (-52 + 53)) with 2. lra. }
  split; [exact Y|]. split; [|split].
  - unfold mjd2k_to_year_fraction_fl. rewrite Y. exact Fr.
  - rewrite decimal_fl_eq, Y, Fr. rewrite <- (rnd_int 2000) by lia. f_equal. lra.
  - unfold mjd2k_to_date_fl. rewrite F. f_equal.
    replace (t - IZR (-1)) with (t + 1) by ring.
    assert (rnd (t + 1) = 1) as ->.
    { rewrite (rnd_near _ (2 ^ 53) (-53)); try lia.
      - change (IZR (2 ^ 53)) with 9007199254740992. rewrite pow2_m53. lra.
      - change (IZR (2 ^ 53)) with 9007199254740992. rewrite pow2_m53, Et.
        replace (_ - _) with (- / 1152921504606846976) by lra. rewrite Rabs_Ropp, Rabs_pos_eq; lra.
      - change (pow2 (-53 + 52)) with (/ 2). change (pow2 (-53 + 53)) with 1. rewrite Et. lra. }
    rewrite <- (rnd_int 24) at 2 by lia. f_equal. lra.
Qed.

Lemma tiny_double : double (- powerRZ 2 (-60)).
Proof. exists (-1)%Z, (-60)%Z. split; [ring|lia]. Qed.

(** ** The hours of the day *)

(** For a positive double the difference to its integer part is a double *)
Lemma fraction_exact t : double t -> 0 <= t -> rnd (t - IZR (floor t)) = t - IZR (floor t).
Proof.
  intros (m & e & E & Hm & He) P. apply rnd_id, double_fmt. destruct (Z_le_gt_dec 0 e) as [G|L].
  - assert (floor t = (m * 2 ^ e)%Z) as ->.
    { apply floor_unique. rewrite E. rewrite mult_IZR, (IZR_Zpower radix2) by exact G. rewrite bpow_powerRZ. simpl (IZR 2). lra. }
    exists 0%Z, 0%Z. split; [|lia]. rewrite E, mult_IZR, (IZR_Zpower radix2) by exact G. rewrite bpow_powerRZ. simpl (IZR 2). ring.
  - set (p := (2 ^ (- e))%Z). assert (Pp : (0 < p)%Z) by (apply Z.pow_pos_nonneg; lia).
    assert (Ep : IZR p * powerRZ 2 e = 1).
    { unfold p. rewrite (IZR_Zpower radix2), bpow_powerRZ by lia. rewrite <- powerRZ_add by lra.
      replace (- e + e)%Z with 0%Z by lia. reflexivity. }
    assert (W : 0 < powerRZ 2 e) by (apply powerRZ_lt; lra).
    assert (Mm : (0 <= m)%Z).
    { apply le_IZR. apply (Rmult_le_reg_r (powerRZ 2 e)); [exact W|]. rewrite Rmult_0_l, <- E. exact P. }
    pose proof (Z.div_mod m p ltac:(lia)) as DM. pose proof (Z.mod_pos_bound m p Pp) as MB.
    assert (Et : t = IZR (m / p) + IZR (m mod p) * powerRZ 2 e).
    { rewrite E. rewrite DM at 1. rewrite plus_IZR, mult_IZR. rewrite Rmult_plus_distr_r.
      replace (IZR p * IZR (m / p) * powerRZ 2 e) with (IZR (m / p) * (IZR p * powerRZ 2 e)) by ring. rewrite Ep. ring. }
    assert (Fl : floor t = (m / p)%Z).
    { apply floor_unique. assert (0 <= IZR (m mod p) * powerRZ 2 e < 1); [|lra]. split.
      - apply Rmult_le_pos; [apply IZR_le; lia|lra].
      - rewrite <- Ep. apply Rmult_lt_compat_r; [exact W|apply IZR_lt; lia]. }
    exists (m mod p)%Z, e. split; [rewrite Fl; lra|]. split; [|exact He].
    pose proof (Z.mod_le m p Mm Pp). lia.
Qed.

Lemma hours_fl_range t : 0 <= snd (mjd2k_to_date_fl t) <= 24 /\
  Rabs (snd (mjd2k_to_date_fl t) - 24 * (t - IZR (floor t))) <= / 281474976710656 /\
  fst (mjd2k_to_date_fl t) = day_to_date (floor t).
Proof.
  unfold mjd2k_to_date_fl. cbn [fst snd]. destruct (floor_spec t) as [A B]. set (f := t - IZR (floor t)).
  assert (F : 0 <= f < 1) by (unfold f; lra).
  assert (R1 : 0 <= rnd f <= 1) by (split; [apply rnd_pos; lra|rewrite <- rnd_1; apply rnd_le; lra]).
  split; [|split; [|reflexivity]].
  - split; [apply rnd_pos; lra|]. rewrite <- (rnd_int 24) at 2 by lia. apply rnd_le. lra.
  - assert (E1 : Rabs (rnd f - f) <= / 18014398509481984).
    { rewrite <- pow2_m54. apply (rnd_err f 0); [lia|]. change (pow2 0) with 1. rewrite Rabs_pos_eq; lra. }
    assert (E2 : Rabs (rnd (24 * rnd f) - 24 * rnd f) <= pow2 (5 - 54)).
    { apply rnd_err; [lia|]. change (pow2 5) with 32. rewrite Rabs_pos_eq; lra. }
    change (pow2 (5 - 54)) with (/ 562949953421312) in E2. apply Rabs_le_inv in E1, E2. apply Rabs_le. lra.
Qed.

Lemma hours_fl_lt t : double t -> 0 <= t -> snd (mjd2k_to_date_fl t) < 24.
Proof.
  intros Dt P. unfold mjd2k_to_date_fl. cbn [snd]. pose proof (fraction_exact t Dt P) as E. rewrite E.
  destruct (floor_spec t) as [A B]. set (f := t - IZR (floor t)) in *.
  assert (Ff : fmt f) by (rewrite <- E; apply rnd_fmt).
  assert (L : f <= 1 - / 9007199254740992).
  { assert (X : f <= pred radix2 (FLT_exp (-1074) 53) (pow2 0)).
    { apply pred_ge_gt; [apply valid_flt|exact Ff|apply bpow_fmt; lia|]. change (pow2 0) with 1. unfold f. lra. }
    rewrite pred_bpow in X. change (FLT_exp (-1074) 53 0) with (-53)%Z in X. rewrite pow2_m53 in X. change (pow2 0) with 1 in X. exact X. }
  apply Rle_lt_trans with (rnd (24 - 24 / 9007199254740992)); [apply rnd_le; lra|].
  rewrite (rnd_near _ (24 * 2 ^ 48 - 1) (-48)); try lia; change (24 * 2 ^ 48 - 1)%Z with 6755399441055743%Z;
    change (pow2 (-48)) with (/ 281474976710656).
  - lra.
  - replace (_ - _) with (2251799813685248 / 2535301200456458802993406410752) by lra. rewrite Rabs_pos_eq; lra.
  - change (pow2 (-48 + 52)) with 16. change (pow2 (-48 + 53)) with 32. lra.
Qed.

(** ** The simplified conversions *)

Lemma simple_fl_le t t' : t <= t' ->
  mjd2000_to_decimal_year_simple_fl t <= mjd2000_to_decimal_year_simple_fl t' /\
  decimal_year_to_mjd2000_simple_fl t <= decimal_year_to_mjd2000_simple_fl t'.
Proof.
  intro H. unfold mjd2000_to_decimal_year_simple_fl, decimal_year_to_mjd2000_simple_fl. split.
  - apply rnd_le, Rplus_le_compat_l, rnd_le. lra.
  - apply rnd_le, Rmult_le_compat_r; [lra|]. apply rnd_le. lra.
Qed.

Lemma simple_fl_years n : (Z.abs n < 2 ^ 40)%Z ->
  mjd2000_to_decimal_year_simple_fl (IZR n * (36525 / 100)) = 2000 + IZR n /\
  decimal_year_to_mjd2000_simple_fl (2000 + IZR n) = IZR n * (36525 / 100).
Proof.
  intro H. unfold mjd2000_to_decimal_year_simple_fl, decimal_year_to_mjd2000_simple_fl.
  replace (IZR n * (36525 / 100) / (36525 / 100)) with (IZR n) by field.
  replace (2000 + IZR n - 2000) with (IZR n) by ring. rewrite (rnd_int n) by lia. split.
  - rewrite <- (plus_IZR 2000). apply rnd_int. lia.
  - replace (IZR n * (36525 / 100)) with (IZR (n * 1461) * pow2 (-2)).
    + apply rnd_dyadic; lia.
    + rewrite mult_IZR. change (pow2 (-2)) with (/ 4). field.
Qed.

Lemma simple_fl_fraction t : 0 <= mjd2000_to_year_fraction_simple_fl t <= 1.
Proof.
  unfold mjd2000_to_year_fraction_simple_fl. set (y := rnd (t / (36525 / 100))). destruct (floor_spec y) as [A B]. split.
  - apply rnd_pos. lra.
  - rewrite <- rnd_1. apply rnd_le. lra.
Qed.

Lemma simple_fl_err t k : (0 <= k)%Z -> Rabs (t / (36525 / 100)) <= pow2 k ->
  Rabs (mjd2000_to_decimal_year_simple_fl t - mjd2000_to_decimal_year_simple t) <= pow2 (k - 54) + pow2 (k + 12 - 54).
Proof.
  intros Hk H. unfold mjd2000_to_decimal_year_simple_fl, mjd2000_to_decimal_year_simple. set (x := t / (36525 / 100)) in *.
  pose proof (rnd_err x k ltac:(lia) H) as E. pose proof (bpow_ge_0 radix2 (k - 54)).
  assert (X : Rabs (rnd (2000 + rnd x) - (2000 + rnd x)) <= pow2 (k + 12 - 54)).
  { apply rnd_err; [lia|].
    assert (K : 1 <= pow2 k) by (change 1 with (pow2 0); apply bpow_le; lia).
    assert (Rabs (rnd x) <= pow2 k).
    { apply Rabs_le_inv in H. apply Rabs_le. split.
      - rewrite <- (rnd_id (- pow2 k)) by (apply generic_format_opp, bpow_fmt; lia). apply rnd_le. lra.
      - rewrite <- (rnd_id (pow2 k)) by (apply bpow_fmt; lia). apply rnd_le. lra. }
    rewrite bpow_plus. change (pow2 12) with 4096. apply Rabs_le_inv in H1. apply Rabs_le. lra. }
  apply Rabs_le_inv in E, X. apply Rabs_le. lra.
Qed.
