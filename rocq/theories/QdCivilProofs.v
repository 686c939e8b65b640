(** Proofs about TMJD of the quasi-dipole library. *)

From Coq Require Import Bool List ZArith Reals Lra Lia.
From Verif Require Import TimeModel SunModel QdTimeModel TimeProofs DecimalProofs QdTimeProofs.
Import ListNotations.
Open Scope Z_scope.

Lemma tjuda_unfold jd :
  tjuda_date jd =
  let gregorian := if Rle_dec DGREG jd then true else false in
  let d0 :=
    (if gregorian then
       let k := c_int (jd - (1721119 + 1 / 2)) in
       let j := Z.quot k 146097 in
       let j' := Z.min (Z.quot (k - j * 146097) 36524) 3 in
       jd + IZR (3 * j) + IZR j' - (1 + 1 / 2)
     else jd + 1 / 2)%R in
  let '(ja, d2, february) := years_part gregorian d0 in
  let '(mo, d) := month_loop (month_lengths february) 1 d2 in
  (if 0 <? ja then ja else ja - 1, mo, c_int d + 1).
Proof. reflexivity. Qed.

Lemma tjuda_date_gregorian n f : -152384 <= n -> (0 <= f < 1)%R ->
  exists y j d, tjuda_date (IZR n + f + JD0) = (y, 1 + Z.of_nat j, d) /\
    start_g y <= n < start_g (y + 1) /\ 1400 <= y /\
    n = start_g y + total (firstn j (month_lengths (february y))) + d - 1.
Proof.
  intros Hn Hf. assert (Hn' := IZR_le _ _ Hn). rewrite tjuda_unfold. cbv zeta. unfold JD0, DGREG.
  destruct (Rle_dec _ _) as [_|H]; [|lra].
  replace (IZR n + f + (2451544 + 1 / 2) - (1721119 + 1 / 2))%R with (IZR (n + 730425) + f)%R by (rewrite plus_IZR; lra).
  rewrite c_int_split by (assumption || lia).
  rewrite (Z.quot_div_nonneg (n + 730425) 146097) by lia.
  destruct (century_split n Hn) as (q & Hq & Hq' & Hj' & Hj & Hk & HD). cbv zeta in *.
  rewrite (Z.quot_div_nonneg (n + 730425 - _) 36524) by lia.
  set (j := (n + 730425) / 146097) in *. set (j' := Z.min _ 3) in *. clearbody j j'.
  replace (IZR n + f + (2451544 + 1 / 2) + IZR (3 * j) + IZR j' - (1 + 1 / 2))%R
    with (IZR (1461 * (25 * (4 * j + j') + 1178) + (q + 60)) + f)%R
    by (rewrite <- HD; rewrite !plus_IZR; lra).
  destruct (years_gregorian (4 * j + j') q f) as (y & r & E & Er & Hr & Hn1 & Hy); [lia..|exact Hf|lia|].
  cbv zeta in *.
  assert (En : 36524 * (4 * j + j') + (4 * j + j') / 4 + q - 730425 = n).
  { replace ((4 * j + j') / 4) with j by (Z.to_euclidean_division_equations; lia). lia. }
  rewrite En in *. rewrite E.
  destruct (month_loop_spec f Hf (month_lengths (february y)) 1 r Hr) as (i & Hi & H0 & Hm).
  rewrite Hm. rewrite c_int_split by assumption.
  destruct (Z.ltb_spec 0 y); [|lia].
  eexists y, i, _. split; [reflexivity|]. split; [lia|]. split; [lia|]. lia.
Qed.

Ltac Zify.zify_post_hook ::= Z.to_euclidean_division_equations.

Lemma tjuda_jd_gregorian y j d : 1583 <= y ->
  (tjuda_jd y (1 + Z.of_nat j) d - JD0)%R =
  IZR (start_g y + total (firstn j (month_lengths (february y))) + d - 1).
Proof.
  intros Hy. unfold tjuda_jd. destruct (Z.ltb_spec 0 y); [|lia].
  destruct (Z.ltb_spec 1582 y); [|lia]. cbn [orb].
  assert (F : (if (Z.rem y 100 =? 0) && negb (Z.rem y 400 =? 0) then 28 else if Z.rem y 4 =? 0 then 29 else 28) = february y).
  { unfold february, leapg.
    rewrite !(Z.rem_mod_nonneg y) by lia.
    destruct (Z.eqb_spec (y mod 100) 0); destruct (Z.eqb_spec (y mod 400) 0); destruct (Z.eqb_spec (y mod 4) 0);
      cbn [andb orb negb]; lia. }
  rewrite F. rewrite fold_total. replace (Z.to_nat (1 + Z.of_nat j - 1)) with j by lia.
  set (T := total _). unfold JD0.
  assert (E : (y - 1 + 4713) * 365 + Z.quot (y - 1 + 4716) 4 - Z.quot (y - 1) 100 + Z.quot (y - 1) 400 + 2
              = start_g y + 2451545).
  { unfold start_g, start_j. rewrite !Z.quot_div_nonneg by lia.
    replace ((y + 4799) / 400) with ((y - 1) / 400 + 12) by lia.
    replace ((y + 4799) / 100) with ((y - 1) / 100 + 48) by lia.
    replace ((y + 4799) / 4) with ((y - 1) / 4 + 1200) by lia.
    replace ((y - 1 + 4716) / 4) with ((y - 1) / 4 + 1179) by lia. lia. }
  rewrite E. rewrite !minus_IZR, !plus_IZR. lra.
Qed.

Lemma day_nint y : tmjd_day y 1 1 = IZR (nint (tmjd_day y 1 1)).
Proof. unfold tmjd_day. now rewrite nint_IZR. Qed.

Lemma tmjd_day_year y : 1583 <= y -> tmjd_day y 1 1 = IZR (start_g y).
Proof.
  intros Hy. unfold tmjd_day. destruct (Z.leb_spec 1950 y); destruct (Z.ltb_spec y 2100); cbn [andb]; f_equal.
  1: { change (Z.quot (14 - 1) 12) with 1.
       replace (Z.quot y 1900) with 1 by (rewrite Z.quot_div_nonneg by lia; lia).
       replace (Z.quot 2000 (y + 1951)) with 0 by (symmetry; apply Z.quot_small; lia).
       change (Z.quot (367 * (1 - 2 + 1 * 12)) 12) with 336.
       rewrite Z.quot_div_nonneg by lia. unfold start_g, start_j.
       assert ((y + 4799) / 400 - (y + 4799) / 100 = -51).
       { destruct (Z.le_gt_cases y 2000).
         - replace ((y + 4799) / 400) with 16 by lia. replace ((y + 4799) / 100) with 67 by lia. lia.
         - replace ((y + 4799) / 400) with 17 by lia. replace ((y + 4799) / 100) with 68 by lia. lia. }
       lia. }
  all: change (tjuda_jd y 1 1) with (tjuda_jd y (1 + Z.of_nat 0) 1); rewrite tjuda_jd_gregorian by lia;
    rewrite nint_IZR; cbn [firstn]; unfold total; cbn [fold_left]; lia.
Qed.

(** ** The digits and the seconds *)

Open Scope R_scope.

Lemma digits_loop_nonneg fuel : forall x, (0 <= digits_loop fuel x)%Z.
Proof.
  induction fuel as [|fuel IH]; intros x; cbn [digits_loop]; [lia|].
  destruct (Rlt_dec _ x); [|lia]. specialize (IH (x * (1 / 10))). lia.
Qed.

Lemma digits_loop_le k : forall fuel x, x * (1 / 10) ^ k <= 999999999999999 / 1000000000000000 ->
  (digits_loop fuel x <= Z.of_nat k)%Z.
Proof.
  induction k as [|k IH]; intros fuel x H; destruct fuel as [|fuel]; cbn [digits_loop]; try lia.
  - cbn [pow] in H. destruct (Rlt_dec _ x); [lra|lia].
  - destruct (Rlt_dec _ x); [|lia]. specialize (IH fuel (x * (1 / 10))).
    assert (digits_loop fuel (x * (1 / 10)) <= Z.of_nat k)%Z; [|lia]. apply IH. cbn [pow] in H. lra.
Qed.

Lemma digits_small t : Rabs t < 999999 -> (0 <= digits t <= 6)%Z.
Proof.
  intros H. unfold digits. split; [apply digits_loop_nonneg|]. apply (digits_loop_le 6). cbn [pow]. lra.
Qed.

Lemma power_four k : (4 <= k)%Z -> 10000 <= powerRZ 10 k.
Proof.
  intros H. replace k with (Z.of_nat 4 + Z.of_nat (Z.to_nat (k - 4)))%Z by lia.
  rewrite powerRZ_add by lra. rewrite <- !pow_powerRZ.
  assert (1 <= 10 ^ Z.to_nat (k - 4)) by (apply pow_R1_Rle; lra). cbn [pow]. lra.
Qed.

Lemma dbl_error x k : (4 <= k)%Z -> Rabs (dbl x k - x) <= 5e-5.
Proof.
  intros H. unfold dbl. pose proof (power_four k H) as Hp. set (e := powerRZ 10 k) in *.
  pose proof (nint_error (x * e)) as Hn. replace (IZR (nint (x * e)) / e - x) with ((IZR (nint (x * e)) - x * e) / e) by (field; lra).
  unfold Rdiv. rewrite Rabs_mult, (Rabs_pos_eq (/ e)) by (left; apply Rinv_0_lt_compat; lra).
  assert (He : / e <= / 10000) by (apply Rinv_le_contravar; lra).
  pose proof (Rabs_pos (IZR (nint (x * e)) - x * e)). assert (0 < / e) by (apply Rinv_0_lt_compat; lra). nra.
Qed.

(** ** The civil time *)

(** the time of the day is the one of [n]; nothing is said about the rounded seconds *)
Lemma time_of_day t n k :
  let hours := (t - IZR n) * 24 in
  let hour := c_int hours in
  let minutes := (hours - IZR hour) * 60 in
  let minute := c_int minutes in
  let seconds := (minutes - IZR minute) * 60 in
  IZR (hour * 3600 + minute * 60) + dbl seconds k = (t - IZR n) * 86400 + (dbl seconds k - seconds).
Proof. cbv zeta. rewrite plus_IZR, !mult_IZR. ring. Qed.

Lemma estec n : (-18262 <= n < 36525)%Z ->
  let i := (n + 18262)%Z in
  let l := Z.quot (4000 * (i + 18204)) 1461001 in
  let m := Z.quot (80 * (i - Z.quot (1461 * l) 4 + 18234)) 2447 in
  let year := (1900 + l + Z.quot m 11)%Z in
  (start_g year <= n < start_g (year + 1))%Z /\ (1950 <= year <= 2099)%Z.
Proof.
  intros Hn. cbv zeta. rewrite (Z.quot_div_nonneg (4000 * _)) by lia.
  assert (E : (4000 * (n + 18262 + 18204) / 1461001 = (4 * (n + 36466) - 1) / 1461)%Z).
  { set (l := ((4 * (n + 36466) - 1) / 1461)%Z).
    assert (Hl : (1461 * l <= 4 * (n + 36466) - 1 < 1461 * l + 1461)%Z) by (unfold l; lia). clearbody l.
    symmetry. apply Z.div_unique with (r := (4000 * (n + 36466) - 1461001 * l)%Z); lia. }
  rewrite E. set (l := ((4 * (n + 36466) - 1) / 1461)%Z).
  assert (Hl : (1461 * l <= 4 * (n + 36466) - 1 < 1461 * l + 1461)%Z) by (unfold l; lia). clearbody l. clear E.
  assert (Hl' : (49 <= l <= 199)%Z) by lia.
  rewrite (Z.quot_div_nonneg (1461 * l)) by lia.
  set (v := (n + 18262 - 1461 * l / 4 + 18234)%Z).
  assert (Hv : (31 <= v <= 396)%Z) by (unfold v; lia).
  rewrite (Z.quot_div_nonneg (80 * v)) by lia. rewrite Z.quot_div_nonneg by lia.
  assert (Hj : (80 * v / 2447 / 11 = if v <? 337 then 0 else 1)%Z).
  { destruct (Z.ltb_spec v 337); lia. }
  rewrite Hj.
  assert (G : forall y, (1949 <= y <= 2100)%Z -> start_g y = (365 * y + (y + 3) / 4 - 730500)%Z).
  { intros y Hy. unfold start_g, start_j.
    assert ((y + 4799) / 400 - (y + 4799) / 100 = -51)%Z.
    { destruct (Z.le_gt_cases y 2000).
      - replace ((y + 4799) / 400)%Z with 16%Z by lia. replace ((y + 4799) / 100)%Z with 67%Z by lia. lia.
      - replace ((y + 4799) / 400)%Z with 17%Z by lia. replace ((y + 4799) / 100)%Z with 68%Z by lia. lia. }
    lia. }
  destruct (Z.ltb_spec v 337) as [H|H]; rewrite !G by (unfold v in *; lia); unfold v in *; lia.
Qed.

Lemma start_g_le y y' : (y <= y')%Z -> (start_g y <= start_g y')%Z.
Proof. intros H. unfold start_g, start_j. lia. Qed.

Lemma c_int_lt x n : (0 < n)%Z -> x < IZR n -> (c_int x < n)%Z.
Proof.
  intros Hn Hx. unfold c_int. destruct (Rlt_dec x 0).
  - assert (0 <= floor (- x))%Z by (apply floor_ge; lra). lia.
  - now apply floor_lt.
Qed.

Lemma tjuda_julian_year jd : jd < DGREG -> (fst (fst (tjuda_date jd)) <= 1600)%Z.
Proof.
  intros H. rewrite tjuda_unfold. cbv zeta. destruct (Rle_dec DGREG jd); [lra|].
  assert (Y : (fst (fst (years_part false (jd + 1 / 2))) <= 1600)%Z).
  { unfold years_part. set (j := Z.quot _ _).
    assert (Hj : (j <= 1574)%Z).
    { unfold j. assert (c_int (jd + 1 / 2) < 2299161)%Z by (apply c_int_lt; [lia|unfold DGREG in H; lra]).
      clear -H0. revert H0. generalize (c_int (jd + 1 / 2)). intros z Hz. lia. }
    clearbody j. set (k := c_int _). clearbody k. cbn [andb].
    destruct (_ <=? k)%Z; [cbn [fst]; lia|]. destruct (_ <=? k)%Z; [cbn [fst]; lia|]. destruct (_ <=? k)%Z; cbn [fst]; lia. }
  destruct (years_part false (jd + 1 / 2)) as [[ja d2] feb]. cbn [fst] in Y.
  destruct (month_loop (month_lengths feb) 1 d2) as [mo d]. cbn [fst]. destruct (Z.ltb_spec 0 ja); lia.
Qed.

(** the date of the branch of TJUDA *)
Lemma other_date t : exists y m d, tjuda_date (t + JD0) = (y, m, d) /\
  ((floor t < -152384)%Z -> (y <= 1600)%Z) /\
  ((-152384 <= floor t)%Z -> (start_g y <= floor t < start_g (y + 1))%Z) /\
  ((-152384 <= floor t)%Z -> (1583 <= y)%Z -> nint (tjuda_jd y m d - JD0) = floor t).
Proof.
  destruct (Z_lt_le_dec (floor t) (-152384)) as [H|H].
  - destruct (tjuda_date (t + JD0)) as [[y m] d] eqn:E. exists y, m, d. split; [reflexivity|].
    split; [|split; lia]. intros _. change y with (fst (fst (y, m, d))). rewrite <- E. apply tjuda_julian_year.
    assert (Hf : (floor t <= -152385)%Z) by lia. apply IZR_le in Hf. pose proof (floor_spec t). unfold DGREG, JD0. lra.
  - pose proof (floor_spec t) as Hf.
    destruct (tjuda_date_gregorian (floor t) (t - IZR (floor t)) H ltac:(lra)) as (y & j & d & E & Hy & _ & Hn).
    replace (IZR (floor t) + (t - IZR (floor t)) + JD0) with (t + JD0) in E by ring.
    exists y, (1 + Z.of_nat j)%Z, d. split; [exact E|]. split; [lia|]. split; [auto|].
    intros _ H1. rewrite tjuda_jd_gregorian by exact H1. rewrite nint_IZR. lia.
Qed.

Lemma civil t : exists y m d h mi s, tmjd_civil t = ((y, m, d), (h, mi, s)) /\
  ((floor t < -152384)%Z -> (y <= 1600)%Z) /\
  ((-152384 <= floor t)%Z -> (start_g y <= floor t < start_g (y + 1))%Z) /\
  ((-152384 <= floor t)%Z -> (1583 <= y)%Z -> Rabs t < 999999 ->
    Rabs (IZR (h * 3600 + mi * 60) + s - (t - IZR (floor t)) * 86400) <= 5e-5).
Proof.
  unfold tmjd_civil. pose proof (floor_spec t) as Hf.
  assert (T : forall n, Rabs t < 999999 ->
    Rabs (IZR (c_int ((t - IZR n) * 24) * 3600 + c_int (((t - IZR n) * 24 - IZR (c_int ((t - IZR n) * 24))) * 60) * 60)
     + dbl ((((t - IZR n) * 24 - IZR (c_int ((t - IZR n) * 24))) * 60 -
               IZR (c_int (((t - IZR n) * 24 - IZR (c_int ((t - IZR n) * 24))) * 60))) * 60)
         (significant_digits - digits t - 6) - (t - IZR n) * 86400) <= 5e-5).
  { intros n Ht. pose proof (digits_small t Ht) as Hd. pose proof (time_of_day t n (significant_digits - digits t - 6)) as E.
    cbv zeta in E. rewrite E. set (s := (_ - IZR (c_int (_ * 60))) * 60).
    replace ((t - IZR n) * 86400 + (dbl s (significant_digits - digits t - 6) - s) - (t - IZR n) * 86400)
      with (dbl s (significant_digits - digits t - 6) - s) by ring.
    apply dbl_error. unfold significant_digits. lia. }
  assert (O : exists y m d h mi s,
    (let '(date, hours) :=
       let date := tjuda_date (t + JD0) in
       let '(year, month, day) := date in
       let i := nint (tjuda_jd year month day - JD0) in
       (date, ((t - IZR i) * 24)%R) in
     let hour := c_int hours in
     let minutes := ((hours - IZR hour) * 60)%R in
     let minute := c_int minutes in
     let seconds := ((minutes - IZR minute) * 60)%R in
     (date, (hour, minute, dbl seconds (significant_digits - digits t - 6)))) = ((y, m, d), (h, mi, s)) /\
    ((floor t < -152384)%Z -> (y <= 1600)%Z) /\
    ((-152384 <= floor t)%Z -> (start_g y <= floor t < start_g (y + 1))%Z) /\
    ((-152384 <= floor t)%Z -> (1583 <= y)%Z -> Rabs t < 999999 ->
      Rabs (IZR (h * 3600 + mi * 60) + s - (t - IZR (floor t)) * 86400) <= 5e-5)).
  { destruct (other_date t) as (y & m & d & E & H1 & H2 & H3). rewrite E. cbv zeta beta iota.
    eexists y, m, d, _, _, _. split; [reflexivity|]. split; [exact H1|]. split; [exact H2|].
    intros H4 H5 H6. rewrite (H3 H4 H5). now apply T. }
  destruct (Rlt_dec (-18262) t) as [Ha|Ha]; [|exact O].
  destruct (Rlt_dec t 36525) as [Hb|Hb]; [|exact O]. clear O.
  assert (Hn : (-18262 <= floor t < 36525)%Z) by (split; [apply floor_ge|apply floor_lt]; lra).
  replace (c_int (t + 18262)) with (floor t + 18262)%Z.
  2: { symmetry. replace (t + 18262) with (IZR (floor t + 18262) + (t - IZR (floor t))) by (rewrite plus_IZR; ring).
       apply c_int_split; [lia|lra]. }
  pose proof (estec (floor t) Hn) as [Hy _]. cbv zeta in *.
  replace (floor t + 18262 - 18262)%Z with (floor t) by lia.
  eexists _, _, _, _, _, _. split; [reflexivity|]. split; [lia|]. split; [intros _; exact Hy|].
  intros _ _ Ht. now apply T.
Qed.

(** The years of SUBSOL *)
Lemma civil_years t : exists y m d h mi s, tmjd_civil t = ((y, m, d), (h, mi, s)) /\
  (t < -145731 -> (y <= 1600)%Z) /\ (36890 <= t -> (2101 <= y)%Z) /\
  (-145731 <= t < 36890 -> (1601 <= y <= 2100)%Z /\
    Rabs (IZR (h * 3600 + mi * 60) + s - (t - IZR (floor t)) * 86400) <= 5e-5).
Proof.
  destruct (civil t) as (y & m & d & h & mi & s & E & H1 & H2 & H3). exists y, m, d, h, mi, s. split; [exact E|].
  assert (S1 : start_g 1601 = (-145731)%Z) by reflexivity. assert (S2 : start_g 2101 = 36890%Z) by reflexivity.
  split; [|split].
  - intros Ht. destruct (Z_lt_le_dec (floor t) (-152384)) as [H|H]; [auto|]. specialize (H2 H).
    assert (floor t < -145731)%Z by (apply floor_lt; lra).
    destruct (Z_le_gt_dec y 1600); [assumption|]. pose proof (start_g_le 1601 y ltac:(lia)). lia.
  - intros Ht. assert (Hn : (36890 <= floor t)%Z) by (apply floor_ge; lra). specialize (H2 ltac:(lia)).
    destruct (Z_le_gt_dec 2101 y); [assumption|]. pose proof (start_g_le (y + 1) 2101 ltac:(lia)). lia.
  - intros [Ha Hb]. assert (Hn : (-145731 <= floor t < 36890)%Z) by (split; [apply floor_ge|apply floor_lt]; lra).
    specialize (H2 ltac:(lia)).
    assert (Hy : (1601 <= y <= 2100)%Z).
    { split.
      - destruct (Z_le_gt_dec 1601 y); [assumption|]. pose proof (start_g_le (y + 1) 1601 ltac:(lia)). lia.
      - destruct (Z_le_gt_dec y 2100); [assumption|]. pose proof (start_g_le 2101 y ltac:(lia)). lia. }
    split; [exact Hy|]. apply H3; [lia..|]. apply Rabs_def1; lra.
Qed.
