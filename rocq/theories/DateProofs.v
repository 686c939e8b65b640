(** Proofs about datetime_to_decimal_year. *)

From Coq Require Import Bool ZArith Reals Lia Lra.
From Verif Require Import CoefModel TimeModel TimeSpec TimeProofs DecimalProofs DateModel DateSpec.
Open Scope Z_scope.

Ltac Zify.zify_post_hook ::= Z.to_euclidean_division_equations.

Definition year_length (y : Z) : Z := 365 + (if py_is_leap y then 1 else 0).

(** Days since the start of the year *)
Definition yday (y m d : Z) : Z := days_before_month y m + d - 1.

Lemma py_leap_spec y : py_is_leap y = true <-> gregorian_leap y.
Proof.
  unfold py_is_leap, gregorian_leap. rewrite andb_true_iff, orb_true_iff, negb_true_iff, !Z.eqb_eq, Z.eqb_neq.
  tauto.
Qed.

Lemma before_year_step y : days_before_year (y + 1) - days_before_year y = year_length y.
Proof.
  unfold days_before_year, year_length, py_is_leap. replace (y + 1 - 1) with y by lia.
  destruct (Z.eqb_spec (y mod 4) 0); cbn [andb]; [|lia].
  destruct (Z.eqb_spec (y mod 100) 0); cbn [negb orb]; [|lia].
  destruct (Z.eqb_spec (y mod 400) 0); lia.
Qed.

Lemma month_cases y m n : gregorian_month y m n ->
  1 <= m <= 12 /\ 28 <= n /\ n = mlen (py_is_leap y) m.
Proof.
  intro H. destruct H as [m H|m H|H|H].
  - destruct H as [H|[H|[H|[H|[H|[H|H]]]]]]; subst m; cbn; lia.
  - destruct H as [H|[H|[H|H]]]; subst m; cbn; lia.
  - apply py_leap_spec in H. rewrite H. cbn. lia.
  - destruct (py_is_leap y) eqn:E; [apply py_leap_spec in E; contradiction|]. cbn. lia.
Qed.

Ltac months m := let H := fresh in
  assert (H : m = 1 \/ m = 2 \/ m = 3 \/ m = 4 \/ m = 5 \/ m = 6 \/ m = 7 \/ m = 8 \/ m = 9 \/ m = 10 \/ m = 11 \/ m = 12)
    by lia; repeat (destruct H as [H|H]; [subst m|]); [..|subst m].

Ltac red_m := cbn [days_before_month_table Z.ltb Z.compare Pos.compare Pos.compare_cont andb Z.eqb Pos.eqb orb].

Lemma month_step y m : 1 <= m < 12 ->
  days_before_month y (m + 1) = days_before_month y m + mlen (py_is_leap y) m.
Proof. intro H. unfold days_before_month, mlen. months m; destruct (py_is_leap y); cbn; lia. Qed.

Lemma month_last y : days_before_month y 12 + 31 = year_length y.
Proof. unfold days_before_month, year_length. destruct (py_is_leap y); reflexivity. Qed.

Lemma month_mono y m m' : 1 <= m -> m < m' -> m' <= 12 ->
  days_before_month y m + mlen (py_is_leap y) m <= days_before_month y m'.
Proof.
  intros H1 H2 H3. unfold days_before_month, mlen. months m; months m'; try lia; destruct (py_is_leap y); cbn; lia.
Qed.

Lemma yday_range y m d n : gregorian_month y m n -> 1 <= d <= n -> 0 <= yday y m d < year_length y.
Proof.
  intros M D. destruct (month_cases y m n M) as (Hm & Hn & ->). unfold yday.
  clear M. rewrite <- month_last. destruct (Z.eq_dec m 12) as [->|N].
  - change (mlen (py_is_leap y) 12) with 31 in D. unfold days_before_month. destruct (py_is_leap y); red_m; lia.
  - pose proof (month_mono y m 12). assert (0 <= days_before_month y m); [|lia].
    unfold days_before_month. months m; destruct (py_is_leap y); red_m; lia.
Qed.

(** ** The value *)

Lemma hours_micro t : hours_of t = (IZR (day_microseconds t) / 3600000000)%R.
Proof. unfold hours_of, day_microseconds. rewrite !plus_IZR, !mult_IZR, !plus_IZR, !mult_IZR, plus_IZR, mult_IZR. field. Qed.

Lemma micro_range t : valid_datetime t -> 0 <= day_microseconds t < 86400000000.
Proof. intros (_ & _ & H). unfold day_microseconds. lia. Qed.

Lemma year_length_R y : (365 <= IZR (year_length y) <= 366)%R.
Proof. unfold year_length. destruct (py_is_leap y); cbn; lra. Qed.

Definition decimal_value (t : datetime) : R :=
  (IZR (dt_year t) +
   (IZR (yday (dt_year t) (dt_month t) (dt_day t)) + hours_of t / 24) / IZR (year_length (dt_year t)))%R.

Lemma decimal_ok t : valid_datetime t -> dt_aware t = false -> dt_year t < 9999 ->
  datetime_to_decimal_year (Some t) = Ok (decimal_value t).
Proof.
  intros V A Y. pose proof V as ((Y1 & _) & _). unfold datetime_to_decimal_year, new_year.
  destruct (Z.leb_spec 1 (dt_year t)); [|lia]. destruct (Z.leb_spec (dt_year t) 9999); [|lia]. cbn [andb bind].
  destruct (Z.leb_spec 1 (dt_year t + 1)); [|lia]. destruct (Z.leb_spec (dt_year t + 1) 9999); [|lia]. cbn [andb bind].
  unfold subtract. cbn [dt_aware Bool.eqb]. rewrite A. cbn [Bool.eqb bind].
  do 2 f_equal. unfold total_seconds, toordinal. cbn [dt_year dt_month dt_day].
  unfold decimal_value. rewrite hours_micro.
  change (day_microseconds (Build_datetime (dt_year t + 1) 1 1 0 0 0 0 false)) with 0.
  change (day_microseconds (Build_datetime (dt_year t) 1 1 0 0 0 0 false)) with 0.
  assert (P : (IZR (year_length (dt_year t)) <> 0)%R) by (pose proof (year_length_R (dt_year t)); lra).
  replace (days_before_month (dt_year t + 1) 1) with 0 by reflexivity.
  replace (days_before_month (dt_year t) 1) with 0 by reflexivity.
  replace (days_before_year (dt_year t + 1) + 0 + 1 - (days_before_year (dt_year t) + 0 + 1))
    with (year_length (dt_year t)) by (pose proof (before_year_step (dt_year t)); lia).
  replace (days_before_year (dt_year t) + days_before_month (dt_year t) (dt_month t) + dt_day t -
     (days_before_year (dt_year t) + 0 + 1)) with (yday (dt_year t) (dt_month t) (dt_day t)) by (unfold yday; lia).
  replace (0 - 0) with 0 by reflexivity. rewrite !plus_IZR, !mult_IZR, minus_IZR. field. exact P.
Qed.

Lemma fraction_bounds t : valid_datetime t ->
  (0 <= (IZR (yday (dt_year t) (dt_month t) (dt_day t)) + hours_of t / 24) / IZR (year_length (dt_year t)) < 1)%R.
Proof.
  intro V. pose proof (micro_range t V) as M. destruct V as (_ & (n & G & D) & _).
  pose proof (yday_range _ _ _ _ G D) as [Q1 Q2]. pose proof (year_length_R (dt_year t)) as L.
  assert (0 <= hours_of t < 24)%R as H.
  { rewrite hours_micro. assert (0 <= IZR (day_microseconds t) < 86400000000)%R as [? ?]; [|lra].
    split; [apply IZR_le|apply IZR_lt]; lia. }
  assert (0 <= IZR (yday (dt_year t) (dt_month t) (dt_day t)) <= IZR (year_length (dt_year t)) - 1)%R as H'.
  { rewrite <- minus_IZR. split; apply IZR_le; lia. }
  split.
  - apply Rmult_le_pos; [lra|]. apply Rlt_le, Rinv_0_lt_compat. lra.
  - apply (Rmult_lt_reg_r (IZR (year_length (dt_year t)))); [lra|]. unfold Rdiv.
    rewrite Rmult_assoc, Rinv_l; lra.
Qed.

Lemma decimal_defined t : valid_datetime t -> dt_aware t = false -> dt_year t < 9999 ->
  exists v, datetime_to_decimal_year (Some t) = Ok v /\ (IZR (dt_year t) <= v < IZR (dt_year t) + 1)%R.
Proof.
  intros V A Y. exists (decimal_value t). split; [apply decimal_ok; auto|].
  unfold decimal_value. pose proof (fraction_bounds t V). lra.
Qed.

Lemma decimal_first t : valid_datetime t -> dt_aware t = false -> dt_year t < 9999 ->
  datetime_to_decimal_year (Some t) = Ok (IZR (dt_year t)) <->
  dt_month t = 1 /\ dt_day t = 1 /\ hours_of t = 0%R.
Proof.
  intros V A Y. rewrite (decimal_ok t V A Y). unfold decimal_value.
  pose proof (year_length_R (dt_year t)) as L. pose proof (micro_range t V) as M.
  destruct V as (_ & (n & G & D) & _). pose proof (yday_range _ _ _ _ G D) as [Q1 Q2].
  destruct (month_cases _ _ _ G) as (Hm & _).
  assert (0 <= hours_of t)%R as H.
  { rewrite hours_micro. assert (0 <= IZR (day_microseconds t))%R by (apply IZR_le; lia). lra. }
  split.
  - intro E. assert (E' : ((IZR (yday (dt_year t) (dt_month t) (dt_day t)) + hours_of t / 24) / IZR (year_length (dt_year t)) = 0)%R).
    { assert (forall a b : R, Ok a = Ok b -> a = b) as I by congruence. apply I in E. lra. }
    assert (IZR (yday (dt_year t) (dt_month t) (dt_day t)) + hours_of t / 24 = 0)%R as E2.
    { apply Rmult_integral in E'. destruct E' as [E'|E']; auto. apply Rinv_neq_0_compat in E'; [contradiction|lra]. }
    assert (0 <= IZR (yday (dt_year t) (dt_month t) (dt_day t)))%R by (apply IZR_le; lia).
    assert (IZR (yday (dt_year t) (dt_month t) (dt_day t)) = 0)%R as E3 by lra.
    apply (eq_IZR _ 0) in E3. unfold yday in E3.
    assert (1 < dt_month t -> 31 <= days_before_month (dt_year t) (dt_month t)).
    { intro M1. pose proof (month_mono (dt_year t) 1 (dt_month t) ltac:(lia) M1 ltac:(lia)) as Q.
      change (mlen (py_is_leap (dt_year t)) 1) with 31 in Q. change (days_before_month (dt_year t) 1) with 0 in Q. lia. }
    assert (dt_month t = 1) as E4.
    { destruct (Z.eq_dec (dt_month t) 1); auto. lia. }
    rewrite E4 in E3. change (days_before_month (dt_year t) 1) with 0 in E3.
    split; [exact E4|split; [lia|lra]].
  - intros (-> & -> & ->). unfold yday. change (days_before_month (dt_year t) 1) with 0. do 2 f_equal.
    replace (0 + 1 - 1) with 0 by reflexivity. field. lra.
Qed.

Lemma decimal_increasing a b va vb : valid_datetime a -> valid_datetime b ->
  datetime_to_decimal_year (Some a) = Ok va -> datetime_to_decimal_year (Some b) = Ok vb ->
  earlier a b -> (va < vb)%R.
Proof.
  intros Va Vb Ea Eb Lt.
  assert (P : forall t v, valid_datetime t -> datetime_to_decimal_year (Some t) = Ok v -> v = decimal_value t).
  { intros t v V E. destruct (Z.lt_ge_cases (dt_year t) 9999) as [Y|Y].
    - destruct (dt_aware t) eqn:A; [|rewrite (decimal_ok t V A Y) in E; congruence].
      unfold datetime_to_decimal_year, new_year in E. destruct ((1 <=? dt_year t) && (dt_year t <=? 9999)); [|discriminate].
      cbn [bind] in E. destruct ((1 <=? dt_year t + 1) && (dt_year t + 1 <=? 9999)); [|discriminate].
      cbn [bind] in E. unfold subtract in E. cbn [dt_aware] in E. rewrite A in E. discriminate.
    - unfold datetime_to_decimal_year, new_year in E. destruct ((1 <=? dt_year t) && (dt_year t <=? 9999)); [|discriminate].
      cbn [bind] in E. destruct (Z.leb_spec (dt_year t + 1) 9999); [lia|]. rewrite andb_false_r in E. discriminate. }
  rewrite (P a va Va Ea), (P b vb Vb Eb). unfold decimal_value.
  pose proof (fraction_bounds a Va) as Fa. pose proof (fraction_bounds b Vb) as Fb.
  destruct Lt as [Lt|[Lt H]].
  - unfold earlier_date, date_of in Lt. destruct Lt as [Lt|[Ey Lt]].
    + assert (IZR (dt_year a) + 1 <= IZR (dt_year b))%R by (rewrite <- plus_IZR; apply IZR_le; lia). lra.
    + assert (Q : yday (dt_year a) (dt_month a) (dt_day a) + 1 <= yday (dt_year b) (dt_month b) (dt_day b)).
      { destruct Va as (_ & (n & G & D) & _). destruct Vb as (_ & (n' & G' & D') & _).
        destruct (month_cases _ _ _ G) as (Hm & _ & Hn). destruct (month_cases _ _ _ G') as (Hm' & _ & Hn').
        unfold yday. rewrite <- Ey in *. destruct Lt as [Lt|[Em Lt]].
        - pose proof (month_mono (dt_year a) (dt_month a) (dt_month b)). lia.
        - rewrite Em. lia. }
      apply IZR_le in Q. rewrite plus_IZR in Q. rewrite <- Ey in *. pose proof (year_length_R (dt_year a)) as L.
      assert (Ha : (0 <= hours_of a < 24)%R /\ (0 <= hours_of b < 24)%R).
      { rewrite !hours_micro. pose proof (micro_range a Va) as [A1 A2]. pose proof (micro_range b Vb) as [B1 B2].
        apply IZR_le in A1, B1. apply IZR_lt in A2, B2. lra. }
      apply Rplus_lt_compat_l. apply Rmult_lt_compat_r; [apply Rinv_0_lt_compat; lra|lra].
  - unfold date_of in Lt. assert (dt_year a = dt_year b /\ dt_month a = dt_month b /\ dt_day a = dt_day b) as (-> & -> & ->)
      by (repeat split; congruence).
    pose proof (year_length_R (dt_year b)) as L. apply Rplus_lt_compat_l.
    apply Rmult_lt_compat_r; [apply Rinv_0_lt_compat; lra|lra].
Qed.

(** ** Agreement with mjd2000_to_decimal_year *)

(** Dates of the Gregorian calendar and days *)
Definition table_day_ok (k : Z) : bool :=
  let '(y, m, d) := mdate 4716 k in
  let days (lp : bool) := days_before_month_table m + (if (2 <? m) && lp then 1 else 0) + d - 1 in
  if k <? 306 then (days true =? k + 60) && (days false =? k + 59)
  else (days true =? k - 306) && (days false =? k - 306).

Lemma table_day_check : check table_day_ok (Z.to_nat 366) 0 = true.
Proof. vm_compute. reflexivity. Qed.

Lemma leapg_py y : leapg y = py_is_leap y.
Proof. reflexivity. Qed.

Lemma gregorian_day_number day y m d : -152385 < day -> day_to_date day = (y, m, d) ->
  day = start_g y + yday y m d.
Proof.
  intros H E. destruct (march_gregorian day H) as (Y & k & E' & Hd & Hk & HY). rewrite march_g_len in Hk.
  rewrite E in E'. pose proof (mdate_year Y k) as Q. rewrite <- E' in Q. cbn [fst] in Q.
  assert (Hk' : 0 <= k < 366) by (destruct (leapg (Y - 4715)); lia). specialize (Q Hk').
  pose proof (check_spec _ _ _ table_day_check k ltac:(lia)) as C. unfold table_day_ok in C.
  rewrite mdate_shift in E'. destruct (mdate 4716 k) as [[y0 m0] d0]. unfold shift in E'.
  assert (m0 = m /\ d0 = d) as [-> ->] by (split; congruence).
  rewrite start_march_g, Hd. unfold yday, days_before_month.
  destruct (k <? 306); apply andb_true_iff in C as [C1 C2]; apply Z.eqb_eq in C1, C2.
  - pose proof (march_g_len (Y - 1)) as L. replace (Y - 1 + 1) with Y in L by lia.
    replace (Y - 1 - 4715) with y in L by lia. replace (y + 4715) with (Y - 1) by lia. rewrite leapg_py in L.
    destruct (py_is_leap y); lia.
  - replace (y + 4715) with Y by lia. destruct (py_is_leap y); lia.
Qed.

Lemma start_g_step y : start_g (y + 1) = start_g y + year_length y.
Proof.
  rewrite !start_march_g. replace (y + 1 + 4715) with (y + 4715 + 1) by lia. pose proof (march_g_len (y + 4715)) as L.
  replace (y + 4715 - 4715) with y in L by lia. unfold year_length. rewrite <- leapg_py. lia.
Qed.

Lemma days_per_year_g y : 1582 < y -> days_per_year y = year_length y.
Proof.
  intro H. unfold days_per_year, year_length, is_leap_year, py_is_leap.
  rewrite !Z.rem_mod_nonneg by lia. destruct (Z.leb_spec y 1582); [lia|]. rewrite orb_false_r. reflexivity.
Qed.

Lemma decimal_agrees dt t : valid_datetime dt -> dt_aware dt = false -> 1583 <= dt_year dt < 9999 ->
  (IZR first_day <= t)%R -> mjd2k_to_date t = (date_of dt, hours_of dt) ->
  datetime_to_decimal_year (Some dt) = Ok (mjd2k_to_decimal_year t).
Proof.
  intros V A Y F E. rewrite (decimal_ok dt V A) by lia. f_equal. unfold mjd2k_to_date in E.
  assert (E1 : day_to_date (floor t) = date_of dt) by congruence.
  assert (E2 : (24 * (t - IZR (floor t)) = hours_of dt)%R) by congruence. clear E.
  assert (F' : first_day <= floor t) by (apply floor_ge; exact F).
  assert (EY : day_to_year (floor t) = dt_year dt) by (rewrite year_core, E1; reflexivity).
  assert (B : mjd2k_year_start (dt_year dt) <= floor t < mjd2k_year_start (dt_year dt + 1)).
  { apply year_unique; [exact F'|lia|exact EY]. }
  assert (D : -152385 < floor t).
  { rewrite year_start_g in B by lia. pose proof (start_march_g (dt_year dt)). unfold start_g, start_j in B. lia. }
  unfold date_of in E1. pose proof (gregorian_day_number _ _ _ _ D E1) as N.
  unfold mjd2k_to_decimal_year, mjd2k_to_year. rewrite EY, per_day, days_per_year_g by lia.
  rewrite year_start_g in * by lia. unfold decimal_value.
  assert (T : t = (IZR (start_g (dt_year dt)) + IZR (yday (dt_year dt) (dt_month dt) (dt_day dt)) + hours_of dt / 24)%R).
  { rewrite <- plus_IZR, <- N. lra. }
  rewrite T. field. pose proof (year_length_R (dt_year dt)). lra.
Qed.

Definition witness : datetime := Build_datetime 1500 3 1 0 0 0 0 false.

Lemma witness_valid : valid_datetime witness.
Proof.
  unfold valid_datetime, witness. cbn. repeat split; try lia. exists 31. split; [|lia]. apply g31. lia.
Qed.

Lemma decimal_agrees_refuted : exists dt t, valid_datetime dt /\ dt_aware dt = false /\ dt_year dt < 9999 /\
  (IZR first_day <= t)%R /\ mjd2k_to_date t = (date_of dt, hours_of dt) /\
  datetime_to_decimal_year (Some dt) <> Ok (mjd2k_to_decimal_year t).
Proof.
  exists witness, (IZR (-182552)). repeat (split; [first [exact witness_valid|reflexivity|cbn; lia|idtac]|]).
  - unfold first_day. apply IZR_le. lia.
  - unfold mjd2k_to_date. assert (floor (IZR (-182552)) = -182552) as -> by (apply floor_unique; lra).
    apply f_equal2; [reflexivity|]. unfold hours_of, witness. cbn. field.
  - rewrite (decimal_ok witness witness_valid eq_refl) by reflexivity.
    assert (forall a b : R, Ok a = Ok b -> a = b) as I by congruence. intro Q. apply I in Q. revert Q. clear.
    unfold mjd2k_to_decimal_year, mjd2k_to_year.
    assert (floor (IZR (-182552)) = -182552) as -> by (apply floor_unique; lra).
    change (day_to_year (-182552)) with 1500. unfold decimal_value, hours_of, witness.
    cbn [dt_year dt_month dt_day dt_hour dt_minute dt_second dt_microsecond].
    change (yday 1500 3 1) with 59. change (year_length 1500) with 365. unfold years_per_day.
    change (is_leap_year 1500) with true. cbv iota. change (mjd2k_year_start 1500) with (-182612). lra.
Qed.

(** ** Errors *)

Lemma decimal_errors : datetime_to_decimal_year None = Err TypeError /\
  forall t, valid_datetime t -> dt_aware t = true -> dt_year t < 9999 ->
    datetime_to_decimal_year (Some t) = Err TypeError.
Proof.
  split; [reflexivity|]. intros t ((Y1 & _) & _) A Y. unfold datetime_to_decimal_year, new_year.
  destruct (Z.leb_spec 1 (dt_year t)); [|lia]. destruct (Z.leb_spec (dt_year t) 9999); [|lia]. cbn [andb bind].
  destruct (Z.leb_spec 1 (dt_year t + 1)); [|lia]. destruct (Z.leb_spec (dt_year t + 1) 9999); [|lia]. cbn [andb bind].
  unfold subtract. cbn [dt_aware]. rewrite A. reflexivity.
Qed.

Lemma decimal_9999 t : valid_datetime t -> dt_year t = 9999 ->
  datetime_to_decimal_year (Some t) = Err ValueError.
Proof. intros V Y. unfold datetime_to_decimal_year, new_year. rewrite Y. reflexivity. Qed.

(** ** An example: 2 July 2001, noon, is the middle of the year *)

Definition dt_example : datetime := Build_datetime 2001 7 2 12 0 0 0 false.

Lemma ex_datetime : valid_datetime dt_example /\ mjd2k_to_date (366 + 182 + 1 / 2) = (date_of dt_example, hours_of dt_example) /\
  datetime_to_decimal_year (Some dt_example) = Ok (2001 + 1 / 2)%R.
Proof.
  assert (V : valid_datetime dt_example).
  { unfold valid_datetime, dt_example. cbn. repeat split; try lia. exists 31. split; [|lia]. apply g31. lia. }
  split; [exact V|]. split.
  - unfold mjd2k_to_date. assert (floor (366 + 182 + 1 / 2) = 548) as -> by (apply floor_unique; lra).
    change (day_to_date 548) with (2001, 7, 2). apply f_equal2; [reflexivity|]. unfold hours_of, dt_example. cbn. field.
  - rewrite (decimal_ok _ V eq_refl) by reflexivity. f_equal. unfold decimal_value, hours_of, dt_example.
    cbn [dt_year dt_month dt_day dt_hour dt_minute dt_second dt_microsecond].
    change (yday 2001 7 2) with 182. change (year_length 2001) with 365. field.
Qed.
