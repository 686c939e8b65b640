(** Corollaries and concrete cases of the double precision time conversions. *)

From Coq Require Import Bool ZArith Reals Lia Lra.
From Flocq Require Import Core.
From Verif Require Import SizeModel SizeProofs FpSpec FpProofs TimeModel TimeSpec TimeProofs DecimalProofs FpTimeModel FpTimeProofs FpTripProofs.
Open Scope R_scope.

(** The times of the years 1 to 2047 *)
Lemma century_facts t : -730121 <= t < 17167 -> IZR first_day <= t <= 500000000 /\
  (1 <= mjd2k_to_year t <= 2046)%Z /\ -730121 <= IZR (mjd2k_year_start (mjd2k_to_year t)) <= 17167.
Proof.
  intro H. assert (F : IZR first_day <= t <= 500000000) by (unfold first_day; lra). split; [exact F|].
  destruct (time_facts t F) as (Y & A & B). set (y := mjd2k_to_year t) in *.
  assert (L1 : (1 <= y)%Z).
  { destruct (Z_le_gt_dec 1 y) as [|G]; [assumption|exfalso].
    pose proof (year_start_mono (y + 1) 1 ltac:(lia) ltac:(lia)) as M. change (mjd2k_year_start 1) with (-730121)%Z in M.
    apply IZR_le in M. lra. }
  assert (L2 : (y <= 2046)%Z).
  { destruct (Z_le_gt_dec y 2046) as [|G]; [assumption|exfalso].
    pose proof (year_start_mono 2047 y ltac:(lia) ltac:(lia)) as M. change (mjd2k_year_start 2047) with 17167%Z in M.
    apply IZR_le in M. lra. }
  split; [lia|]. split.
  - pose proof (year_start_mono 1 y ltac:(lia) L1) as M. change (mjd2k_year_start 1) with (-730121)%Z in M. apply IZR_le in M. exact M.
  - lra.
Qed.

Lemma fl_decimal_error t : -730121 <= t < 17167 ->
  Rabs (mjd2k_to_decimal_year_fl t - mjd2k_to_decimal_year t) <= / 8600000000000.
Proof.
  intro H. destruct (century_facts t H) as (F & Y & S).
  assert (Yr : 1 <= IZR (mjd2k_to_year t) <= 2046) by (split; apply IZR_le; lia).
  pose proof (decimal_fl_err t 11 F ltac:(lia)) as E. change (bpow radix2 11) with 2048 in E.
  change (bpow radix2 (11 - 54)) with (/ 8796093022208) in E. specialize (E ltac:(lra) ltac:(lra)). lra.
Qed.

Lemma fl_mjd_trip_error t : -730121 <= t < 17167 ->
  Rabs (decimal_year_to_mjd2k_fl (mjd2k_to_decimal_year_fl t) - t) <= / 9900000000.
Proof.
  intro H. destruct (century_facts t H) as (F & Y & S).
  assert (Yr : 1 <= IZR (mjd2k_to_year t) <= 2046) by (split; apply IZR_le; lia).
  pose proof (fl_mjd_round_trip t 11 20 F ltac:(lia) ltac:(lia)) as E. cbv zeta in E. change (bpow radix2 11) with 2048 in E.
  change (bpow radix2 20) with 1048576 in E.
  change (bpow radix2 (11 - 54)) with (/ 8796093022208) in E. change (bpow radix2 (20 - 54)) with (/ 17179869184) in E.
  specialize (E ltac:(lra) ltac:(lra) ltac:(lra) ltac:(lra)). lra.
Qed.

Lemma fl_decimal_trip_error d : 1 <= d < 2047 -> ~ (1582 + 354 / 365 <= d < 1583) ->
  Rabs (mjd2k_to_decimal_year_fl (decimal_year_to_mjd2k_fl d) - d) <= / 3600000000000.
Proof.
  intros H N. destruct (floor_spec d) as [F1 F2].
  assert (L1 : (1 <= floor d)%Z) by (apply floor_ge; lra).
  assert (L2 : (floor d < 2047)%Z) by (apply floor_lt; lra).
  pose proof (year_start_mono 1 (floor d) ltac:(lia) L1) as M. change (mjd2k_year_start 1) with (-730121)%Z in M.
  pose proof (year_start_mono (floor d) 2047 ltac:(lia) ltac:(lia)) as M2. change (mjd2k_year_start 2047) with 17167%Z in M2.
  apply IZR_le in L1, M, M2.
  pose proof (fl_decimal_round_trip d 11 20 ltac:(lra) N ltac:(lia) ltac:(lia)) as E. cbv zeta in E. change (bpow radix2 11) with 2048 in E.
  change (bpow radix2 20) with 1048576 in E.
  change (bpow radix2 (11 - 54)) with (/ 8796093022208) in E. change (bpow radix2 (20 - 54)) with (/ 17179869184) in E.
  specialize (E ltac:(lra) ltac:(lra) ltac:(lra) ltac:(lra)). lra.
Qed.

(** Different times have the same decimal year, the year of the next day and 24 hours *)
Lemma fl_not_strict : exists t t', double t /\ double t' /\ t < t' /\
  mjd2k_to_decimal_year_fl t = mjd2k_to_decimal_year_fl t' /\
  floor (mjd2k_to_decimal_year_fl t) <> mjd2k_to_year t /\ mjd2k_to_year_fraction_fl t = 1 /\
  snd (mjd2k_to_date_fl t) = 24.
Proof.
  exists (- powerRZ 2 (-60)), 0. destruct tiny_time as (Y & F & D & H). rewrite D, Y, F, H.
  split; [apply tiny_double|]. split; [exists 0%Z, 0%Z; split; [ring|lia]|].
  split; [pose proof (powerRZ_lt 2 (-60) ltac:(lra)); lra|].
  split; [symmetry; apply (decimal_fl_start 2000); lia|].
  split; [|split; reflexivity].
  assert (floor 2000 = 2000%Z) as -> by (apply floor_unique; lra). lia.
Qed.

Lemma ex_fl : mjd2k_to_decimal_year_fl 9862 = 2027 /\ decimal_year_to_mjd2k_fl 2027 = 9862 /\
  mjd2k_to_decimal_year_fl 183 = 2000 + 1 / 2.
Proof.
  split; [apply (decimal_fl_start 2027); lia|]. split; [apply (mjd_fl_start 2027); lia|].
  assert (F1 : floor 183 = 183%Z) by (apply floor_unique; lra).
  unfold mjd2k_to_decimal_year_fl, mjd2k_to_year. rewrite F1. change (day_to_year 183) with 2000%Z.
  change (mjd2k_year_start 2000) with 0%Z. change (years_per_day_fl 2000) with (rnd (1 / 366)).
  replace (183 - 0) with (IZR 183) by lra. rewrite (rnd_int 183) by lia.
  assert (E : rnd (1 / 366) = 6300117511512825 * / 2305843009213693952).
  { rewrite (rnd_near _ 6300117511512825 (-61)); try lia.
    - reflexivity.
    - change (bpow radix2 (-61)) with (/ 2305843009213693952). apply Rabs_def1; lra.
    - change (bpow radix2 (-61 + 52)) with (/ 512). change (bpow radix2 (-61 + 53)) with (/ 256). lra. }
  rewrite E.
  assert (E2 : rnd (183 * (6300117511512825 * / 2305843009213693952)) = / 2).
  { rewrite (rnd_near _ (2 ^ 53) (-54)); try lia; change (IZR (2 ^ 53)) with 9007199254740992;
    change (bpow radix2 (-54)) with (/ 18014398509481984).
    - lra.
    - apply Rabs_def1; lra.
    - change (bpow radix2 (-54 + 52)) with (/ 4). change (bpow radix2 (-54 + 53)) with (/ 2). lra. }
  rewrite E2. replace (2000 + / 2) with (IZR 4001 * bpow radix2 (-1)) by (change (bpow radix2 (-1)) with (/ 2); lra).
  rewrite rnd_dyadic by lia. change (bpow radix2 (-1)) with (/ 2). lra.
Qed.

(** The bounds for any range of years and days *)
Lemma decimal_fl_err_pow t k : IZR first_day <= t <= 500000000 -> (0 <= k)%Z ->
  - powerRZ 2 k <= IZR (mjd2k_to_year t) -> IZR (mjd2k_to_year t) + 1 <= powerRZ 2 k ->
  Rabs (mjd2k_to_decimal_year_fl t - mjd2k_to_decimal_year t) <= powerRZ 2 (k - 54) + powerRZ 2 (-51).
Proof.
  rewrite <- !bpow_powerRZ, pow2_m51. intros. apply decimal_fl_err; assumption.
Qed.

Lemma mjd_fl_err_pow d j : -4799 <= d <= 2000000 -> (0 <= j)%Z ->
  - powerRZ 2 j <= IZR (mjd2k_year_start (floor d)) -> IZR (mjd2k_year_start (floor d)) + 366 <= powerRZ 2 j ->
  Rabs (decimal_year_to_mjd2k_fl d - decimal_year_to_mjd2k d) <= powerRZ 2 (j - 54) + powerRZ 2 (-44).
Proof.
  rewrite <- !bpow_powerRZ, pow2_m44. intros. apply mjd_fl_err; assumption.
Qed.

Lemma fl_mjd_trip_pow t k j : IZR first_day <= t <= 500000000 -> (0 <= k)%Z -> (0 <= j)%Z ->
  let y := mjd2k_to_year t in
  - powerRZ 2 k <= IZR y -> IZR y + 1 <= powerRZ 2 k ->
  - powerRZ 2 j <= IZR (mjd2k_year_start y) -> IZR (mjd2k_year_start y) + 366 <= powerRZ 2 j ->
  Rabs (decimal_year_to_mjd2k_fl (mjd2k_to_decimal_year_fl t) - t) <=
    366 * powerRZ 2 (k - 54) + powerRZ 2 (j - 54) + powerRZ 2 (-41).
Proof.
  rewrite <- !bpow_powerRZ. change (bpow radix2 (-41)) with (/ 2199023255552). intros. apply fl_mjd_round_trip; assumption.
Qed.

Lemma fl_decimal_trip_pow d k j : -4715 <= d <= 1000000 -> ~ (1582 + 354 / 365 <= d < 1583) -> (0 <= k)%Z -> (0 <= j)%Z ->
  let y := floor d in
  - powerRZ 2 k <= IZR y -> IZR y + 1 <= powerRZ 2 k ->
  - powerRZ 2 j <= IZR (mjd2k_year_start y) -> IZR (mjd2k_year_start y) + 366 <= powerRZ 2 j ->
  Rabs (mjd2k_to_decimal_year_fl (decimal_year_to_mjd2k_fl d) - d) <=
    powerRZ 2 (k - 54) + / 365 * powerRZ 2 (j - 54) + powerRZ 2 (-50).
Proof.
  rewrite <- !bpow_powerRZ. change (bpow radix2 (-50)) with (/ 1125899906842624). intros. apply fl_decimal_round_trip; assumption.
Qed.

Lemma simple_fl_err_pow t k : (0 <= k)%Z -> Rabs (t / (36525 / 100)) <= powerRZ 2 k ->
  Rabs (mjd2000_to_decimal_year_simple_fl t - mjd2000_to_decimal_year_simple t) <= powerRZ 2 (k - 54) + powerRZ 2 (k - 42).
Proof.
  intros Hk. rewrite <- !bpow_powerRZ. intro H. replace (k - 42)%Z with (k + 12 - 54)%Z by lia. apply simple_fl_err; assumption.
Qed.

Lemma fraction_fl_err_pow t : IZR first_day <= t <= 500000000 ->
  Rabs (mjd2k_to_year_fraction_fl t - mjd2k_to_year_fraction t) <= powerRZ 2 (-51).
Proof.
  intro H. rewrite <- bpow_powerRZ, pow2_m51. destruct (time_facts t H) as (Y & A & _). apply frac_fl_err. lra.
Qed.

Lemma simple_fl_fraction_err t k : (0 <= k)%Z -> Rabs (t / (36525 / 100)) <= powerRZ 2 k ->
  0 <= mjd2000_to_year_fraction_simple_fl t <= 1 /\ exists n,
  Rabs (mjd2000_to_year_fraction_simple_fl t + IZR n - t / (36525 / 100)) <= powerRZ 2 (k - 54) + powerRZ 2 (-54).
Proof.
  intros Hk H. split; [apply simple_fl_fraction|]. unfold mjd2000_to_year_fraction_simple_fl. set (x := t / (36525 / 100)) in *.
  exists (floor (rnd x)). rewrite <- !bpow_powerRZ in *. pose proof (rnd_err x k ltac:(lia) H) as E.
  destruct (floor_spec (rnd x)) as [A B].
  assert (X : Rabs (rnd (rnd x - IZR (floor (rnd x))) - (rnd x - IZR (floor (rnd x)))) <= bpow radix2 (0 - 54)).
  { apply rnd_err; [lia|]. change (bpow radix2 0) with 1. rewrite Rabs_pos_eq; lra. }
  change (0 - 54)%Z with (-54)%Z in X. apply Rabs_le_inv in E, X. apply Rabs_le. lra.
Qed.

Lemma simple_fl_inverse_err y k : (0 <= k)%Z -> Rabs (y - 2000) <= powerRZ 2 k ->
  Rabs (decimal_year_to_mjd2000_simple_fl y - decimal_year_to_mjd2000_simple y) <= powerRZ 2 (k - 44).
Proof.
  intros Hk H. unfold decimal_year_to_mjd2000_simple_fl, decimal_year_to_mjd2000_simple. rewrite <- !bpow_powerRZ in *.
  set (x := y - 2000) in *. pose proof (rnd_err x k ltac:(lia) H) as E.
  assert (G : Rabs (rnd x) <= bpow radix2 k).
  { apply Rabs_le_inv in H. apply Rabs_le. split.
    - rewrite <- (rnd_id (- bpow radix2 k)) by (apply generic_format_opp, bpow_fmt; lia). apply rnd_le. lra.
    - rewrite <- (rnd_id (bpow radix2 k)) by (apply bpow_fmt; lia). apply rnd_le. lra. }
  assert (X : Rabs (rnd (rnd x * (36525 / 100)) - rnd x * (36525 / 100)) <= bpow radix2 (k + 9 - 54)).
  { apply rnd_err; [lia|]. rewrite bpow_plus, Rabs_mult, (Rabs_pos_eq (36525 / 100)) by lra. change (bpow radix2 9) with 512.
    pose proof (bpow_gt_0 radix2 k). apply Rmult_le_compat; try apply Rabs_pos; lra. }
  assert (E1 : bpow radix2 (k + 9 - 54) = 512 * bpow radix2 (k - 54)).
  { replace (k + 9 - 54)%Z with (9 + (k - 54))%Z by lia. rewrite bpow_plus. reflexivity. }
  assert (E2 : bpow radix2 (k - 44) = 1024 * bpow radix2 (k - 54)).
  { replace (k - 44)%Z with (10 + (k - 54))%Z by lia. rewrite bpow_plus. reflexivity. }
  rewrite E1 in X. rewrite E2. pose proof (bpow_gt_0 radix2 (k - 54)). apply Rabs_le_inv in E, X. apply Rabs_le. lra.
Qed.
