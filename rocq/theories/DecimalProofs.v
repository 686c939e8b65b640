(** Proofs about the decimal year conversions. *)

From Coq Require Import Bool ZArith Reals Lia Lra.
From Verif Require Import TimeModel TimeSpec TimeProofs.
Open Scope R_scope.

Lemma floor_spec x : IZR (floor x) <= x < IZR (floor x) + 1.
Proof. unfold floor. rewrite minus_IZR. destruct (archimed x). lra. Qed.

Lemma floor_unique x n : IZR n <= x < IZR n + 1 -> floor x = n.
Proof.
  intros [H1 H2]. destruct (floor_spec x) as [H3 H4].
  assert (n < floor x + 1)%Z by (apply lt_IZR; rewrite plus_IZR; lra).
  assert (floor x < n + 1)%Z by (apply lt_IZR; rewrite plus_IZR; lra). lia.
Qed.

Lemma floor_ge x n : IZR n <= x -> (n <= floor x)%Z.
Proof.
  intro H. destruct (floor_spec x) as [_ H2]. apply Z.lt_succ_r. apply lt_IZR.
  unfold Z.succ. rewrite plus_IZR. lra.
Qed.

Lemma floor_lt x n : x < IZR n -> (floor x < n)%Z.
Proof. intro H. destruct (floor_spec x) as [H2 _]. apply lt_IZR. lra. Qed.

Lemma floor_le x y : x <= y -> (floor x <= floor y)%Z.
Proof. intro H. apply floor_ge. destruct (floor_spec x). lra. Qed.

Lemma days_pos y : (365 <= days_per_year y <= 366)%Z.
Proof. unfold days_per_year. destruct (is_leap_year y); lia. Qed.

Lemma per_day y : years_per_day y = / IZR (days_per_year y).
Proof. unfold years_per_day, days_per_year. destruct (is_leap_year y); simpl; lra. Qed.

(** The year of a time *)
Lemma year_of_time t y : IZR first_day <= t -> (-4799 <= y)%Z ->
  (mjd2k_to_year t = y <-> IZR (mjd2k_year_start y) <= t < IZR (mjd2k_year_start (y + 1))).
Proof.
  intros H Hy. unfold mjd2k_to_year. rewrite year_unique; auto; [|apply floor_ge; exact H].
  split; intros [A B].
  - split.
    + apply IZR_le in A. destruct (floor_spec t). lra.
    + assert (floor t + 1 <= mjd2k_year_start (y + 1))%Z as B' by lia. apply IZR_le in B'. rewrite plus_IZR in B'.
      destruct (floor_spec t). lra.
  - split; [apply floor_ge; exact A|apply floor_lt; exact B].
Qed.

Lemma year_time_bounds t : IZR first_day <= t -> let y := mjd2k_to_year t in
  (-4716 <= y)%Z /\ IZR (mjd2k_year_start y) <= t < IZR (mjd2k_year_start (y + 1)).
Proof.
  intros H y. assert (Hy : (-4716 <= y)%Z).
  { unfold y, mjd2k_to_year. apply year_bounds. apply floor_ge. exact H. }
  split; auto. apply year_of_time; auto; lia.
Qed.

Lemma start_step_le y : (-4799 <= y)%Z -> IZR (mjd2k_year_start (y + 1)) <= IZR (mjd2k_year_start y) + IZR (days_per_year y).
Proof.
  intro H. rewrite <- plus_IZR. apply IZR_le. destruct (Z.eq_dec y 1582) as [->|N].
  - vm_compute. discriminate.
  - destruct (year_start_step y H N) as [-> _]. lia.
Qed.

(** The fraction of a year *)
Lemma fraction_range t : IZR first_day <= t -> 0 <= mjd2k_to_year_fraction t < 1.
Proof.
  intro H. destruct (year_time_bounds t H) as (Hy & A & B). unfold mjd2k_to_year_fraction.
  set (y := mjd2k_to_year t) in *. pose proof (start_step_le y ltac:(lia)) as S.
  rewrite per_day. destruct (days_pos y) as [D _]. apply IZR_le in D.
  split.
  - apply Rmult_le_pos; [lra|]. left. apply Rinv_0_lt_compat. lra.
  - apply (Rmult_lt_reg_r (IZR (days_per_year y))); [lra|]. rewrite Rmult_assoc, Rinv_l by lra. lra.
Qed.

Lemma decimal_fraction t : mjd2k_to_decimal_year t = IZR (mjd2k_to_year t) + mjd2k_to_year_fraction t.
Proof. reflexivity. Qed.

Lemma decimal_floor t : IZR first_day <= t -> floor (mjd2k_to_decimal_year t) = mjd2k_to_year t.
Proof. intro H. apply floor_unique. rewrite decimal_fraction. pose proof (fraction_range t H). lra. Qed.

Lemma fraction_is_fraction t : IZR first_day <= t ->
  mjd2k_to_year_fraction t = mjd2k_to_decimal_year t - IZR (floor (mjd2k_to_decimal_year t)).
Proof. intro H. rewrite decimal_floor by exact H. rewrite decimal_fraction. lra. Qed.

(** MJD2000 -> decimal year -> MJD2000 *)
Lemma mjd_round_trip t : IZR first_day <= t -> decimal_year_to_mjd2k (mjd2k_to_decimal_year t) = t.
Proof.
  intro H. unfold decimal_year_to_mjd2k. rewrite decimal_floor by exact H.
  unfold mjd2k_to_decimal_year. set (y := mjd2k_to_year t). rewrite per_day.
  destruct (days_pos y) as [D _]. apply IZR_le in D. field. lra.
Qed.

(** Decimal year -> MJD2000 -> decimal year *)
Lemma decimal_round_trip y : -4715 <= y -> ~ (1582 + 355 / 365 <= y < 1583) ->
  mjd2k_to_decimal_year (decimal_year_to_mjd2k y) = y.
Proof.
  intros H N. unfold decimal_year_to_mjd2k. set (w := floor y). destruct (floor_spec y) as [F1 F2]. fold w in F1, F2.
  assert (Hw : (-4715 <= w)%Z) by (apply floor_ge; exact H).
  set (t := IZR (mjd2k_year_start w) + (y - IZR w) * IZR (days_per_year w)).
  destruct (days_pos w) as [D _]. apply IZR_le in D.
  assert (T1 : IZR (mjd2k_year_start w) <= t) by (unfold t; assert (0 <= (y - IZR w) * IZR (days_per_year w)) by (apply Rmult_le_pos; lra); lra).
  assert (T2 : t < IZR (mjd2k_year_start (w + 1))).
  { unfold t. destruct (Z.eq_dec w 1582) as [E|E].
    - rewrite E in *. destruct year_start_reform as [R1 R2]. change (1582 + 1)%Z with 1583%Z. rewrite R1, R2, plus_IZR.
      assert (y < 1582 + 355 / 365) by (destruct (Rlt_or_le y (1582 + 355 / 365)); auto; exfalso; apply N; lra). lra.
    - destruct (year_start_step w ltac:(lia) E) as [-> _]. rewrite plus_IZR.
      assert ((y - IZR w) * IZR (days_per_year w) < 1 * IZR (days_per_year w)) by (apply Rmult_lt_compat_r; lra). lra. }
  assert (Hf : IZR first_day <= t).
  { apply Rle_trans with (IZR (mjd2k_year_start w)); auto. apply IZR_le.
    pose proof (year_start_mono (-4715) w ltac:(lia) Hw) as M. change (mjd2k_year_start (-4715)) with (-2452640)%Z in M.
    unfold first_day. lia. }
  assert (Y : mjd2k_to_year t = w) by (apply year_of_time; auto; lia).
  unfold mjd2k_to_decimal_year. rewrite Y, per_day. unfold t. field. lra.
Qed.

(** ... fails in the last ten days of the year 1582 *)
Lemma decimal_round_trip_refuted : exists y, mjd2k_to_decimal_year (decimal_year_to_mjd2k y) <> y.
Proof.
  exists (1582 + 360 / 365).
  assert (F : floor (1582 + 360 / 365) = 1582%Z) by (apply floor_unique; simpl; lra).
  unfold decimal_year_to_mjd2k. rewrite F. destruct year_start_reform as [R1 R2]. rewrite R2.
  change (mjd2k_year_start 1582) with (-152661)%Z.
  replace (-152661 + (1582 + 360 / 365 - 1582) * 365) with (-152301) by lra.
  assert (F2 : floor (-152301) = (-152301)%Z) by (apply floor_unique; lra).
  unfold mjd2k_to_decimal_year, mjd2k_to_year. rewrite F2.
  change (day_to_year (-152301)) with 1583%Z. change (mjd2k_year_start 1583) with (-152306)%Z.
  change (years_per_day 1583) with (1 / 365). lra.
Qed.

(** ... and the conversion to MJD2000 is not monotone there *)
Lemma decimal_not_monotone : exists y y', y < y' /\ decimal_year_to_mjd2k y' < decimal_year_to_mjd2k y.
Proof.
  exists (1582 + 364 / 365), 1583. split; [lra|].
  assert (F : floor (1582 + 364 / 365) = 1582%Z) by (apply floor_unique; simpl; lra).
  assert (F2 : floor 1583 = 1583%Z) by (apply floor_unique; simpl; lra).
  unfold decimal_year_to_mjd2k. rewrite F, F2. change (mjd2k_year_start 1582) with (-152661)%Z.
  change (mjd2k_year_start 1583) with (-152306)%Z. change (days_per_year 1582) with 365%Z.
  change (days_per_year 1583) with 365%Z. lra.
Qed.

(** Strictly increasing *)
Lemma decimal_increasing t t' : IZR first_day <= t -> t < t' -> mjd2k_to_decimal_year t < mjd2k_to_decimal_year t'.
Proof.
  intros H L. assert (H' : IZR first_day <= t') by lra.
  destruct (year_time_bounds t H) as (Hy & A & B). destruct (year_time_bounds t' H') as (Hy' & A' & B').
  destruct (Z.lt_trichotomy (mjd2k_to_year t) (mjd2k_to_year t')) as [E|[E|E]].
  - rewrite !decimal_fraction. pose proof (fraction_range t H). pose proof (fraction_range t' H').
    assert (mjd2k_to_year t + 1 <= mjd2k_to_year t')%Z as E' by lia. apply IZR_le in E'. rewrite plus_IZR in E'. lra.
  - unfold mjd2k_to_decimal_year. rewrite E in *. set (y := mjd2k_to_year t') in *.
    rewrite per_day. destruct (days_pos y) as [D _]. apply IZR_le in D.
    apply Rplus_lt_compat_l, Rmult_lt_compat_r; [apply Rinv_0_lt_compat; lra|lra].
  - exfalso. pose proof (year_start_mono (mjd2k_to_year t' + 1) (mjd2k_to_year t) ltac:(lia) ltac:(lia)) as M.
    apply IZR_le in M. lra.
Qed.

(** Continuity at the start of a year: the decimal year of a time shortly before a year
    start is close to the year, except for the year 1583. *)
Lemma decimal_near_start y d : (-4714 <= y)%Z -> y <> 1583%Z -> 0 < d <= 365 ->
  mjd2k_to_decimal_year (IZR (mjd2k_year_start y) - d) = IZR y - d * years_per_day (y - 1) /\
  mjd2k_to_decimal_year (IZR (mjd2k_year_start y)) = IZR y.
Proof.
  intros Hy N Hd. set (s := mjd2k_year_start y).
  assert (Hs : (first_day + 366 <= s)%Z).
  { pose proof (year_start_mono (-4714) y ltac:(lia) Hy) as M.
    change (mjd2k_year_start (-4714)) with (-2452275)%Z in M. unfold s, first_day. lia. }
  apply IZR_le in Hs. rewrite plus_IZR in Hs.
  assert (S0 : (s = mjd2k_year_start (y - 1) + days_per_year (y - 1))%Z).
  { destruct (year_start_step (y - 1) ltac:(lia) ltac:(lia)) as [E _].
    replace (y - 1 + 1)%Z with y in E by lia. exact E. }
  assert (D := proj1 (days_pos (y - 1))). apply IZR_le in D.
  split.
  - assert (Y : mjd2k_to_year (IZR s - d) = (y - 1)%Z).
    { apply year_of_time; [lra|lia|]. replace (y - 1 + 1)%Z with y by lia. fold s.
      assert (IZR (mjd2k_year_start (y - 1)) = IZR s - IZR (days_per_year (y - 1))) by (rewrite S0, plus_IZR; lra). lra. }
    unfold mjd2k_to_decimal_year. rewrite Y, per_day.
    assert (E : IZR (mjd2k_year_start (y - 1)) = IZR s - IZR (days_per_year (y - 1))) by (rewrite S0, plus_IZR; lra).
    rewrite E, minus_IZR. field. lra.
  - assert (Y : mjd2k_to_year (IZR s) = y).
    { apply year_of_time; [lra|lia|]. fold s. split; [lra|]. apply IZR_lt.
      destruct (Z.eq_dec y 1582) as [E|E]; [unfold s; rewrite E; reflexivity|].
      destruct (year_start_step y ltac:(lia) E) as [-> _]. fold s. pose proof (days_pos y). lia. }
    unfold mjd2k_to_decimal_year. rewrite Y. fold s. lra.
Qed.

Lemma decimal_jump : exists t0, forall d, 0 < d <= 355 ->
  mjd2k_to_decimal_year (t0 - d) <= mjd2k_to_decimal_year t0 - 10 / 365.
Proof.
  exists (-152306). intros d Hd.
  assert (Y0 : mjd2k_to_year (-152306) = 1583%Z).
  { apply year_of_time; [unfold first_day; lra|lia|]. change (mjd2k_year_start 1583) with (-152306)%Z.
    change (mjd2k_year_start (1583 + 1)) with (-151941)%Z. lra. }
  assert (Y1 : mjd2k_to_year (-152306 - d) = 1582%Z).
  { apply year_of_time; [unfold first_day; lra|lia|]. change (mjd2k_year_start 1582) with (-152661)%Z.
    change (mjd2k_year_start (1582 + 1)) with (-152306)%Z. lra. }
  unfold mjd2k_to_decimal_year. rewrite Y0, Y1. change (mjd2k_year_start 1582) with (-152661)%Z.
  change (mjd2k_year_start 1583) with (-152306)%Z. change (years_per_day 1582) with (1 / 365).
  change (years_per_day 1583) with (1 / 365). lra.
Qed.

(** The hours of the date *)
Lemma hours_range t : 0 <= snd (mjd2k_to_date t) < 24 /\
  t = IZR (floor t) + snd (mjd2k_to_date t) / 24 /\ fst (mjd2k_to_date t) = day_to_date (floor t).
Proof. unfold mjd2k_to_date. cbn [fst snd]. destruct (floor_spec t). split; [lra|]. split; [lra|reflexivity]. Qed.

(** ** The simplified conversions *)

Lemma simple_round_trip t : decimal_year_to_mjd2000_simple (mjd2000_to_decimal_year_simple t) = t /\
  mjd2000_to_decimal_year_simple (decimal_year_to_mjd2000_simple t) = t.
Proof. unfold decimal_year_to_mjd2000_simple, mjd2000_to_decimal_year_simple. split; field. Qed.

Lemma simple_increasing t t' : t < t' -> mjd2000_to_decimal_year_simple t < mjd2000_to_decimal_year_simple t'.
Proof. unfold mjd2000_to_decimal_year_simple. lra. Qed.

Lemma simple_fraction t : 0 <= mjd2000_to_year_fraction_simple t < 1 /\
  mjd2000_to_year_fraction_simple t =
    mjd2000_to_decimal_year_simple t - IZR (floor (mjd2000_to_decimal_year_simple t)).
Proof.
  unfold mjd2000_to_year_fraction_simple, mjd2000_to_decimal_year_simple. set (y := t / (36525 / 100)).
  destruct (floor_spec y). split; [lra|].
  assert (floor (2000 + y) = 2000 + floor y)%Z as -> by (apply floor_unique; rewrite plus_IZR; lra).
  rewrite plus_IZR. lra.
Qed.


Lemma ex_decimal : mjd2k_to_decimal_year 0 = 2000 /\ mjd2k_to_decimal_year 183 = 2000 + 1 / 2.
Proof.
  assert (F0 : floor 0 = 0%Z) by (apply floor_unique; lra).
  assert (F1 : floor 183 = 183%Z) by (apply floor_unique; lra).
  unfold mjd2k_to_decimal_year, mjd2k_to_year. rewrite F0, F1.
  change (day_to_year 0) with 2000%Z. change (day_to_year 183) with 2000%Z.
  change (mjd2k_year_start 2000) with 0%Z. change (years_per_day 2000) with (1 / 366). lra.
Qed.
