From Coq Require Import Bool List ZArith Reals Lra Lia.
From Verif Require Import CoefModel GeoModel TimeModel TimeSpec CoordModel ShEvalModel ShEvalSpec CoordSpec SunModel SunSpec.
From Verif Require Import Atan2Proofs TimeProofs DecimalProofs.
Import ListNotations.
Open Scope R_scope.

Lemma fmod_range a b : 0 < b -> 0 <= FMOD_FLOOR a b < b.
Proof.
  intros Hb. unfold FMOD_FLOOR. pose proof (floor_spec (a / b)) as [H1 H2].
  assert (E : a = b * (a / b)) by (field; lra).
  set (k := IZR (floor (a / b))) in *. set (q := a / b) in *.
  rewrite E. split; nra.
Qed.

Lemma fmod_congruent a b : exists k : Z, FMOD_FLOOR a b = a - b * IZR k.
Proof. now exists (floor (a / b)). Qed.

Lemma sin_period_Z x k : sin (x - 2 * PI * IZR k) = sin x.
Proof.
  destruct (Z_lt_le_dec k 0) as [H|H].
  - replace (x - 2 * PI * IZR k) with (x + 2 * INR (Z.to_nat (- k)) * PI)
      by (rewrite INR_IZR_INZ, Z2Nat.id, opp_IZR by lia; ring).
    apply sin_period.
  - rewrite <- (sin_period (x - 2 * PI * IZR k) (Z.to_nat k)). f_equal.
    rewrite INR_IZR_INZ, Z2Nat.id by lia. ring.
Qed.

Lemma cos_period_Z x k : cos (x - 2 * PI * IZR k) = cos x.
Proof.
  destruct (Z_lt_le_dec k 0) as [H|H].
  - replace (x - 2 * PI * IZR k) with (x + 2 * INR (Z.to_nat (- k)) * PI)
      by (rewrite INR_IZR_INZ, Z2Nat.id, opp_IZR by lia; ring).
    apply cos_period.
  - rewrite <- (cos_period (x - 2 * PI * IZR k) (Z.to_nat k)). f_equal.
    rewrite INR_IZR_INZ, Z2Nat.id by lia. ring.
Qed.

Lemma degrees_radians x : one_degree * (RAD2DEG * x) = x.
Proof. unfold one_degree, RAD2DEG. pose proof PI_RGT_0. field. lra. Qed.

Lemma radians_degrees x : RAD2DEG * (one_degree * x) = x.
Proof. unfold one_degree, RAD2DEG. pose proof PI_RGT_0. field. lra. Qed.

Lemma rad2deg_pos : 0 < RAD2DEG.
Proof. unfold RAD2DEG. pose proof PI_RGT_0. apply Rdiv_lt_0_compat; lra. Qed.

Lemma rad2deg_pi : RAD2DEG * PI = 180.
Proof. unfold RAD2DEG. pose proof PI_RGT_0. field. lra. Qed.

Lemma sqrt_sin x : 0 <= cos x -> sqrt (1 - sin x * sin x) = cos x.
Proof.
  intros H. rewrite <- (sqrt_square (cos x)) at 1 by assumption. f_equal.
  pose proof (sin2_cos2 x) as E. unfold Rsqr in E. lra.
Qed.

Lemma bounded_product a b : -1 <= a <= 1 -> -1 <= b <= 1 -> -1 <= a * b <= 1.
Proof. intros Ha Hb. split; nra. Qed.

(** ** The parts of the calculation *)

Lemma ecliptic_spec te : ecliptic te = (solar_longitude te, obliquity te, solar_nutation te).
Proof.
  unfold ecliptic, solar_longitude, obliquity, solar_nutation. cbv zeta.
  set (w := 0.0172019715 * te).
  assert (S2 : sin (2 * w) = 2 * sin w * cos w) by apply sin_2a.
  assert (C2 : cos (2 * w) = (cos w + sin w) * (cos w - sin w)) by (rewrite cos_2a; ring).
  assert (S3 : sin (3 * w) = 2 * sin w * cos w * cos w + (cos w + sin w) * (cos w - sin w) * sin w).
  { replace (3 * w) with (2 * w + w) by ring. rewrite sin_plus, S2, C2. ring. }
  assert (C3 : cos (3 * w) = (cos w + sin w) * (cos w - sin w) * cos w - 2 * sin w * cos w * sin w).
  { replace (3 * w) with (2 * w + w) by ring. rewrite cos_plus, S2, C2. ring. }
  rewrite S2, C2, S3, C3. f_equal. f_equal. ring.
Qed.

Lemma equatorial_spec t te lon :
  exists decl rasc hang, equatorial t te lon = (decl, rasc, hang) /\
    - (PI / 2) <= decl <= PI / 2 /\ 0 <= rasc < 2 * PI /\ - PI <= hang < PI /\
    sin decl = sin (solar_longitude te) * sin (obliquity te) /\
    (0 < cos (obliquity te) ->
     cos decl * cos rasc = cos (solar_longitude te) /\
     cos decl * sin rasc = sin (solar_longitude te) * cos (obliquity te) /\
     0 < cos decl) /\
    exists k : Z, hang = sidereal_time t te + lon - rasc - 2 * PI * IZR k.
Proof.
  unfold equatorial. rewrite ecliptic_spec. cbv zeta.
  set (l := solar_longitude te). set (e := obliquity te). set (nut := solar_nutation te).
  set (ra0 := atan2 _ _). set (ra := ra0 + _). set (de := asin _).
  set (h0 := _ + 0.92 * nut). pose proof PI_RGT_0 as HPI.
  eexists _, _, _. split; [reflexivity|].
  assert (Hb : -1 <= sin l * sin e <= 1) by (apply bounded_product; apply SIN_bound).
  split; [apply asin_bound|]. split.
  { unfold ra. pose proof (atan2_range (sin l * sqrt (1 - sin e * sin e)) (cos l)) as H. fold ra0 in H.
    destruct (Rlt_dec ra0 0); unfold PI2; lra. }
  split.
  { pose proof (fmod_range (h0 + PI) PI2 ltac:(unfold PI2; lra)) as H. unfold PI2 in *. lra. }
  split; [apply sin_asin; exact Hb|].
  split.
  { intros He. assert (Hce : sqrt (1 - sin e * sin e) = cos e) by (apply sqrt_sin; lra).
    assert (Hp : cos ra = cos ra0 /\ sin ra = sin ra0).
    { unfold ra. destruct (Rlt_dec ra0 0).
      - unfold PI2. split.
        + rewrite <- (cos_period_Z ra0 (-1)). f_equal. ring.
        + rewrite <- (sin_period_Z ra0 (-1)). f_equal. ring.
      - rewrite Rplus_0_r. tauto. }
    destruct Hp as [-> ->].
    assert (Hnz : cos l <> 0 \/ sin l * cos e <> 0).
    { destruct (Req_dec (cos l) 0) as [E|E]; [right|now left].
      pose proof (sin2_cos2 l) as P. unfold Rsqr in P. rewrite E in P.
      apply Rmult_integral_contrapositive_currified; [intros Q; rewrite Q in P; lra|lra]. }
    assert (Hcd : cos de = norm2d (cos l) (sin l * cos e)).
    { unfold de. rewrite cos_asin by exact Hb. unfold norm2d. f_equal.
      pose proof (sin2_cos2 l) as P1. pose proof (sin2_cos2 e) as P2. unfold Rsqr in *.
      replace (cos l * cos l) with (1 - sin l * sin l) by lra.
      replace (sin l * cos e * (sin l * cos e)) with (sin l * sin l * (cos e * cos e)) by ring.
      replace (cos e * cos e) with (1 - sin e * sin e) by lra. ring. }
    rewrite Hcd. unfold ra0. rewrite Hce.
    destruct (atan2_cos_sin (sin l * cos e) (cos l) Hnz) as [-> ->].
    repeat split. now apply norm2d_pos. }
  destruct (fmod_congruent (h0 + PI) PI2) as [k Hk]. exists k. rewrite Hk. unfold h0, PI2, sidereal_time.
  fold nut. ring.
Qed.

Lemma horizontal_spec decl hang lat rad temp :
  0 <= cos lat -> 0 < cos decl ->
  exists az zen, sunpos5eq2hor decl hang lat rad 0 temp = (az, zen + rad / 149597871 * sin zen) /\
    - PI <= az < PI /\ 0 <= zen <= PI /\
    cos zen = sin lat * sin decl + cos lat * cos decl * cos hang /\
    sin zen * sin az = - (cos decl * sin hang) /\
    sin zen * cos az = cos lat * sin decl - sin lat * cos decl * cos hang.
Proof.
  intros Hl Hd. unfold sunpos5eq2hor. cbv zeta.
  rewrite !sqrt_sin by lra.
  set (e := sin lat * sin decl + cos lat * cos decl * cos hang).
  set (S := cos hang * sin lat - sin decl * cos lat / cos decl).
  destruct (Rlt_dec 0 0) as [H|_]; [lra|].
  pose proof (sin2_cos2 lat) as P1. pose proof (sin2_cos2 decl) as P2. pose proof (sin2_cos2 hang) as P3.
  unfold Rsqr in *.
  assert (EQ : 1 - e * e = cos decl * cos decl * (S * S + sin hang * sin hang)).
  { assert (ES : cos decl * S = cos decl * cos hang * sin lat - sin decl * cos lat) by (unfold S; field; lra).
    replace (cos decl * cos decl * (S * S + sin hang * sin hang))
      with (cos decl * S * (cos decl * S) + cos decl * cos decl * (sin hang * sin hang)) by ring.
    rewrite ES. unfold e.
    replace (sin hang * sin hang) with (1 - cos hang * cos hang) by lra.
    replace 1 with ((sin lat * sin lat + cos lat * cos lat) * (sin decl * sin decl + cos decl * cos decl)) at 1
      by (rewrite P1, P2; ring).
    assert (F : cos decl * cos decl * 1 = cos decl * cos decl * (sin lat * sin lat + cos lat * cos lat)) by (rewrite P1; ring).
    replace (cos decl * cos decl * (1 - cos hang * cos hang))
      with (cos decl * cos decl * 1 - cos decl * cos decl * (cos hang * cos hang)) by ring.
    rewrite F. 
    replace (cos decl * cos decl * (sin lat * sin lat + cos lat * cos lat) - cos decl * cos decl * (cos hang * cos hang))
      with (cos decl * cos decl * (sin lat * sin lat + cos lat * cos lat)
            - cos decl * cos decl * (cos hang * cos hang) * (sin lat * sin lat + cos lat * cos lat)) by (rewrite P1; ring).
    ring. }
  assert (Hb : -1 <= e <= 1).
  { assert (0 <= 1 - e * e) by (rewrite EQ; nra). split; nra. }
  pose proof PI_RGT_0 as HPI.
  set (zen := PI / 2 - asin e). pose proof (asin_bound e) as Ha.
  assert (Hsz : sin zen = sqrt (1 - e * e)).
  { unfold zen. rewrite sin_shift. rewrite cos_asin by exact Hb. reflexivity. }
  exists (FMOD_FLOOR (atan2 (sin hang) S) PI2 - PI), zen. split.
  { f_equal. rewrite Hsz. unfold zen, PIM. field. }
  split.
  { pose proof (fmod_range (atan2 (sin hang) S) PI2 ltac:(unfold PI2; lra)) as H. unfold PI2 in *. lra. }
  split; [unfold zen; lra|].
  split; [unfold zen; rewrite cos_shift; now apply sin_asin|].
  destruct (fmod_congruent (atan2 (sin hang) S) PI2) as [k ->].
  assert (Sa : sin (atan2 (sin hang) S - PI2 * IZR k - PI) = - sin (atan2 (sin hang) S)).
  { unfold PI2. rewrite sin_minus, sin_PI, cos_PI, sin_period_Z. ring. }
  assert (Ca : cos (atan2 (sin hang) S - PI2 * IZR k - PI) = - cos (atan2 (sin hang) S)).
  { unfold PI2. rewrite cos_minus, sin_PI, cos_PI, cos_period_Z. ring. }
  rewrite Sa, Ca, Hsz.
  assert (Hn : sqrt (1 - e * e) = cos decl * norm2d S (sin hang)).
  { apply sqr_eq_pos; [apply sqrt_pos| |].
    - apply Rmult_le_pos; [lra|apply norm2d_nonneg].
    - rewrite sqrt_sqrt by nra. rewrite EQ.
      transitivity (cos decl * cos decl * (norm2d S (sin hang) * norm2d S (sin hang))); [|ring].
      now rewrite norm2d_sqr. }
  rewrite Hn.
  assert (HS : norm2d S (sin hang) * sin (atan2 (sin hang) S) = sin hang /\
               norm2d S (sin hang) * cos (atan2 (sin hang) S) = S).
  { destruct (Req_dec S 0) as [E0|E0]; [destruct (Req_dec (sin hang) 0) as [E1|E1]|].
    - rewrite E0, E1. replace (norm2d 0 0) with 0; [lra|].
      unfold norm2d. replace (0 * 0 + 0 * 0) with 0 by ring. now rewrite sqrt_0.
    - destruct (atan2_cos_sin (sin hang) S (or_intror E1)). tauto.
    - destruct (atan2_cos_sin (sin hang) S (or_introl E0)). tauto. }
  destruct HS as [H1 H2]. split.
  - transitivity (- (cos decl * (norm2d S (sin hang) * sin (atan2 (sin hang) S)))); [ring|now rewrite H1].
  - transitivity (- (cos decl * S)).
    + transitivity (- (cos decl * (norm2d S (sin hang) * cos (atan2 (sin hang) S)))); [ring|now rewrite H2].
    + unfold S. field. lra.
Qed.

(** ** The date of the original implementation *)

Lemma c_int_div x a b : (0 <= a)%Z -> (0 < b)%Z -> x * IZR b = IZR a -> c_int x = (a / b)%Z.
Proof.
  intros Ha Hb E. unfold c_int.
  assert (Hb' : 0 < IZR b) by now apply IZR_lt. assert (Ha' : 0 <= IZR a) by now apply IZR_le.
  assert (Hx : 0 <= x) by nra.
  destruct (Rlt_dec x 0); [lra|]. apply floor_unique.
  pose proof (Z.div_mod a b ltac:(lia)) as D. pose proof (Z.mod_pos_bound a b Hb) as M.
  assert (E1 : IZR a = IZR b * IZR (a / b) + IZR (a mod b)) by (rewrite <- mult_IZR, <- plus_IZR; now f_equal).
  assert (0 <= IZR (a mod b) < IZR b) by (split; [apply IZR_le|apply IZR_lt]; lia).
  set (q := IZR (a / b)) in *. set (m := IZR (a mod b)) in *.
  split; nra.
Qed.

Definition month_table (k : Z) : bool :=
  let '(y, m, d) := mdate 4716 k in
  (y - (if m <=? 2 then 1 else 0) =? 0)%Z &&
  ((306001 * (m + 12 * (if m <=? 2 then 1 else 0) + 1) / 10000 + d =? k + 123)%Z && (1 <=? m)%Z).

Lemma month_table_ok : check month_table (Z.to_nat 366) 0 = true.
Proof. vm_compute. reflexivity. Qed.

Ltac Zify.zify_post_hook ::= Z.to_euclidean_division_equations.

Lemma date_days day h : (60 <= day < 146157)%Z ->
  let '(y, m, d) := day_to_date day in date_to_sunposmjd2k y m d h = IZR day + h / 24.
Proof.
  intros H. destruct (march_gregorian day ltac:(lia)) as (Y & k & -> & E & Hk & HY).
  assert (HY' : (6716 <= Y < 7116)%Z) by (unfold march_g, march_j in *; lia).
  assert (Hk' : (0 <= k < 366)%Z) by (unfold march_g, march_j in *; lia).
  rewrite mdate_shift. pose proof (check_spec _ _ _ month_table_ok k ltac:(lia)) as C. unfold month_table in C.
  destruct (mdate 4716 k) as [[y m] d]. cbn [shift]. unfold date_to_sunposmjd2k. cbv zeta.
  apply andb_true_iff in C as [C1 C]. apply andb_true_iff in C as [C2 C3].
  apply Z.eqb_eq in C1, C2. apply Z.leb_le in C3.
  set (lt := if (m <=? 2)%Z then 1%Z else 0%Z) in *. assert (Hlt : (0 <= lt <= 1)%Z) by (unfold lt; destruct (m <=? 2)%Z; lia).
  clearbody lt. replace (y + (Y - 4716) - lt)%Z with (Y - 4716)%Z by lia.
  rewrite (c_int_div _ (1461 * (Y - 4716 - 2000)) 4), (c_int_div _ (306001 * (m + 12 * lt + 1)) 10000), (c_int_div _ (Y - 4716) 100).
  - replace (1461 * (Y - 4716 - 2000) / 4 + 306001 * (m + 12 * lt + 1) / 10000 - (Y - 4716) / 100 + d)%Z with (day + 43)%Z.
    + rewrite plus_IZR. field.
    + enough (1461 * (Y - 4716 - 2000) / 4 - (Y - 4716) / 100 + k + 80 = day)%Z by lia.
      rewrite E. unfold march_g, march_j. clear - HY'. lia.
  - lia.
  - lia.
  - lra.
  - lia.
  - lia.
  - rewrite mult_IZR. lra.
  - lia.
  - lia.
  - rewrite mult_IZR. lra.
Qed.

Ltac Zify.zify_post_hook ::= idtac.

Lemma date_days_before : let '(y, m, d) := day_to_date 59 in date_to_sunposmjd2k y m d 0 = 61.
Proof.
  change (day_to_date 59) with (2000, 2, 29)%Z. cbv beta iota. unfold date_to_sunposmjd2k.
  change (2 <=? 2)%Z with true. cbv iota zeta.
  assert (E : c_int (365.25 * IZR (2000 - 1 - 2000)) = (-365)%Z).
  { unfold c_int. change (2000 - 1 - 2000)%Z with (-1)%Z. destruct (Rlt_dec (365.25 * -1) 0) as [_|H]; [|lra].
    rewrite (floor_unique _ 365); [reflexivity|lra]. }
  rewrite E, (c_int_div _ (306001 * 15) 10000), (c_int_div _ 1999 100).
  - change (-365 + 306001 * 15 / 10000 - 1999 / 100 + 29)%Z with 104%Z. lra.
  - lia.
  - lia.
  - change (2000 - 1)%Z with 1999%Z. lra.
  - lia.
  - lia.
  - change (2 + 12 * 1 + 1)%Z with 15%Z. change (306001 * 15)%Z with 4590015%Z. lra.
Qed.

Lemma date_days_after : let '(y, m, d) := day_to_date 146157 in date_to_sunposmjd2k y m d 0 = 146156.
Proof.
  change (day_to_date 146157) with (2400, 3, 1)%Z. cbv beta iota. unfold date_to_sunposmjd2k.
  change (3 <=? 2)%Z with false. cbv iota zeta.
  rewrite (c_int_div _ 146100 1), (c_int_div _ (306001 * 4) 10000), (c_int_div _ 2400 100).
  - change (146100 / 1 + 306001 * 4 / 10000 - 2400 / 100 + 1)%Z with 146199%Z. lra.
  - lia.
  - lia.
  - change (2400 - 0)%Z with 2400%Z. lra.
  - lia.
  - lia.
  - change (3 + 12 * 0 + 1)%Z with 4%Z. change (306001 * 4)%Z with 1224004%Z. lra.
  - lia.
  - lia.
  - change (2400 - 0 - 2000)%Z with 400%Z. lra.
Qed.

(** ** The items *)

Lemma deg_rad_one x : x * DEG2RAD = one_degree * x.
Proof. unfold DEG2RAD, one_degree. ring. Qed.

Lemma sun_item_spec t lat lon rad dtt :
  let te := t + dtt / 86400 - epoch_2060 in
  let s := sunpos_item t lat lon rad dtt in
  exists decl rasc hang az zen,
    equatorial (t - epoch_2060) te (one_degree * lon) = (decl, rasc, hang) /\
    sunpos5eq2hor decl hang (one_degree * lat) rad 0 0 = (az, zen) /\
    s = {| declination := RAD2DEG * decl; right_ascension := RAD2DEG * rasc; hour_angle := RAD2DEG * hang;
           azimuth := RAD2DEG * az; zenith := RAD2DEG * zen |}.
Proof.
  cbv zeta. unfold sunpos_item. cbv zeta. rewrite !deg_rad_one. unfold sunpos5equat. cbv zeta.
  replace (SEC2DAYS * dtt + (t + 43 - 21958)) with (t + dtt / 86400 - epoch_2060) by (unfold SEC2DAYS, epoch_2060; field).
  replace (t + 43 - 21958) with (t - epoch_2060) by (unfold epoch_2060; ring).
  destruct (equatorial (t - epoch_2060) (t + dtt / 86400 - epoch_2060) (one_degree * lon)) as [[decl rasc] hang] eqn:Ee.
  destruct (sunpos5eq2hor decl hang (one_degree * lat) rad 0 0) as [az zen] eqn:Eh.
  now exists decl, rasc, hang, az, zen.
Qed.

Lemma scaled_range a x b : a <= x <= b -> RAD2DEG * a <= RAD2DEG * x <= RAD2DEG * b.
Proof. pose proof rad2deg_pos. intros. split; nra. Qed.
Lemma scaled_range_lt a x b : a <= x < b -> RAD2DEG * a <= RAD2DEG * x < RAD2DEG * b.
Proof. pose proof rad2deg_pos. intros. split; nra. Qed.

Lemma horizontal_range decl hang lat rad press temp az zen :
  sunpos5eq2hor decl hang lat rad press temp = (az, zen) -> - PI <= az < PI.
Proof.
  unfold sunpos5eq2hor. cbv zeta. intros E.
  match type of E with (FMOD_FLOOR ?a _ - _, _) = _ =>
    assert (Ea : az = FMOD_FLOOR a PI2 - PI) by congruence; pose proof (fmod_range a PI2) as Hf end.
  rewrite Ea. pose proof PI_RGT_0 as HPI. unfold PI2 in *. assert (0 < 2 * PI) as H2 by lra. specialize (Hf H2). lra.
Qed.

Lemma zenith_range decl hang lat temp az zen :
  sunpos5eq2hor decl hang lat 0 0 temp = (az, zen) -> 0 <= zen <= PI.
Proof.
  unfold sunpos5eq2hor. cbv zeta. destruct (Rlt_dec 0 0) as [H|_]; [lra|]. intros E.
  match type of E with (_, PIM - (asin ?a - ?b * 0 * ?c) - 0) = _ =>
    assert (Ea : zen = PIM - (asin a - b * 0 * c) - 0) by congruence; pose proof (asin_bound a) as H end.
  rewrite Ea. unfold PIM. lra.
Qed.

Lemma sun_ranges t lat lon rad dtt :
  let s := sunpos_item t lat lon rad dtt in
  -90 <= declination s <= 90 /\ 0 <= right_ascension s < 360 /\
  -180 <= hour_angle s < 180 /\ -180 <= azimuth s < 180 /\
  (rad = 0 -> 0 <= zenith s <= 180).
Proof.
  cbv zeta. destruct (sun_item_spec t lat lon rad dtt) as (decl & rasc & hang & az & zen & He & Hh & ->). cbn.
  destruct (equatorial_spec (t - epoch_2060) (t + dtt / 86400 - epoch_2060) (one_degree * lon))
    as (decl' & rasc' & hang' & He' & Hd & Hr & Hha & _).
  rewrite He in He'. assert (decl' = decl /\ rasc' = rasc /\ hang' = hang) as (-> & -> & ->) by (repeat split; congruence).
  pose proof (horizontal_range _ _ _ _ _ _ _ _ Hh) as Hz.
  apply scaled_range in Hd. apply scaled_range_lt in Hr, Hha, Hz.
  pose proof rad2deg_pi as Epi.
  replace (RAD2DEG * - (PI / 2)) with (-90) in Hd by lra. replace (RAD2DEG * (PI / 2)) with 90 in Hd by lra.
  replace (RAD2DEG * (2 * PI)) with 360 in Hr by lra. rewrite Rmult_0_r in Hr.
  replace (RAD2DEG * - PI) with (-180) in * by lra. rewrite Epi in *.
  split; [exact Hd|]. split; [exact Hr|]. split; [exact Hha|]. split; [exact Hz|].
  intros ->. apply zenith_range in Hh. apply scaled_range in Hh. rewrite Epi, Rmult_0_r in Hh. exact Hh.
Qed.

Lemma original_ranges t lat lon rad dtt pres temp :
  let s := sunpos_original_item t lat lon rad dtt pres temp in
  -90 <= declination s <= 90 /\ 0 <= right_ascension s < 360 /\
  -180 <= hour_angle s < 180 /\ -180 <= azimuth s < 180.
Proof.
  cbv zeta. unfold sunpos_original_item. destruct (mjd2k_to_date t) as [[[y m] d] h]. unfold sunpos5original. cbv zeta.
  match goal with |- context [equatorial ?a ?b ?c] => 
    destruct (equatorial_spec a b c) as (decl & rasc & hang & -> & Hd & Hr & Hha & _) end.
  destruct (sunpos5eq2hor decl hang (lat * DEG2RAD) rad pres temp) as [az zen] eqn:Hh. cbn.
  pose proof (horizontal_range _ _ _ _ _ _ _ _ Hh) as Hz.
  apply scaled_range in Hd. apply scaled_range_lt in Hr, Hha, Hz.
  pose proof rad2deg_pi as Epi.
  replace (RAD2DEG * - (PI / 2)) with (-90) in Hd by lra. replace (RAD2DEG * (PI / 2)) with 90 in Hd by lra.
  replace (RAD2DEG * (2 * PI)) with 360 in Hr by lra. rewrite Rmult_0_r in Hr.
  replace (RAD2DEG * - PI) with (-180) in * by lra. rewrite Epi in *. tauto.
Qed.

Lemma obliquity_cos te : Rabs te <= 1.7e8 -> 0 < cos (obliquity te).
Proof.
  intros H. apply Rabs_le_between in H || (unfold Rabs in H; destruct (Rcase_abs te)).
  all: pose proof (COS_bound (9.282e-4 * te - 0.8)); pose proof PI2_3_2; apply cos_gt_0; unfold obliquity; lra.
Qed.

Lemma sun_equatorial t lat lon rad dtt :
  let te := t + dtt / 86400 - epoch_2060 in
  let s := sunpos_item t lat lon rad dtt in
  Rabs te <= 1.7e8 ->
  direction (declination s) (right_ascension s) = ecliptic_direction (solar_longitude te) (obliquity te).
Proof.
  cbv zeta. intros Hte.
  destruct (sun_item_spec t lat lon rad dtt) as (decl & rasc & hang & az & zen & He & Hh & ->). cbn.
  destruct (equatorial_spec (t - epoch_2060) (t + dtt / 86400 - epoch_2060) (one_degree * lon))
    as (decl' & rasc' & hang' & He' & _ & _ & _ & Hs & Hc & _).
  rewrite He in He'. assert (decl' = decl /\ rasc' = rasc /\ hang' = hang) as (-> & -> & ->) by (repeat split; congruence).
  destruct (Hc (obliquity_cos _ Hte)) as (H1 & H2 & _).
  unfold direction, ecliptic_direction. rewrite !degrees_radians. now rewrite H1, H2, Hs.
Qed.

Lemma sun_hour_angle t lat lon rad dtt :
  let te := t + dtt / 86400 - epoch_2060 in
  let s := sunpos_item t lat lon rad dtt in
  exists k : Z, hour_angle s = sidereal_time (t - epoch_2060) te / one_degree + lon - right_ascension s - 360 * IZR k.
Proof.
  cbv zeta.
  destruct (sun_item_spec t lat lon rad dtt) as (decl & rasc & hang & az & zen & He & Hh & ->). cbn.
  destruct (equatorial_spec (t - epoch_2060) (t + dtt / 86400 - epoch_2060) (one_degree * lon))
    as (decl' & rasc' & hang' & He' & _ & _ & _ & _ & _ & k & Hk).
  rewrite He in He'. assert (decl' = decl /\ rasc' = rasc /\ hang' = hang) as (-> & -> & ->) by (repeat split; congruence).
  exists k. rewrite Hk. unfold one_degree, RAD2DEG. pose proof PI_RGT_0. field. lra.
Qed.

Lemma cos_latitude lat : -90 <= lat <= 90 -> 0 <= cos (one_degree * lat).
Proof. intros H. unfold one_degree. pose proof PI_RGT_0. apply cos_ge_0; nra. Qed.

Lemma sun_horizontal t lat lon rad dtt :
  let te := t + dtt / 86400 - epoch_2060 in
  let s := sunpos_item t lat lon rad dtt in
  let d := direction (declination s) (lon - hour_angle s) in
  Rabs te <= 1.7e8 -> -90 <= lat <= 90 ->
  exists zen, 0 <= zen <= 180 /\ 
    zenith s = zen + rad / 149597871 * sin (one_degree * zen) / one_degree /\
    cos (one_degree * zen) = inner (upwards lat lon) d /\
    sin (one_degree * zen) * sin (one_degree * azimuth s) = inner (east lat lon) d /\
    sin (one_degree * zen) * cos (one_degree * azimuth s) = inner (north lat lon) d.
Proof.
  cbv zeta. intros Hte Hlat.
  destruct (sun_item_spec t lat lon rad dtt) as (decl & rasc & hang & az & zen & He & Hh & ->). cbn [declination hour_angle azimuth zenith].
  destruct (equatorial_spec (t - epoch_2060) (t + dtt / 86400 - epoch_2060) (one_degree * lon))
    as (decl' & rasc' & hang' & He' & _ & _ & _ & _ & Hc & _).
  rewrite He in He'. assert (decl' = decl /\ rasc' = rasc /\ hang' = hang) as (-> & -> & ->) by (repeat split; congruence).
  destruct (Hc (obliquity_cos _ Hte)) as (_ & _ & Hd).
  destruct (horizontal_spec decl hang (one_degree * lat) rad 0 (cos_latitude lat Hlat) Hd)
    as (az' & z & Hz & Haz & Hzr & Hcz & Hez & Hnz).
  rewrite Hh in Hz. assert (az = az') as -> by congruence.
  assert (zen = z + rad / 149597871 * sin z) as -> by congruence.
  exists (RAD2DEG * z). rewrite degrees_radians. split.
  { apply scaled_range in Hzr. rewrite rad2deg_pi, Rmult_0_r in Hzr. exact Hzr. }
  split.
  { unfold one_degree, RAD2DEG. pose proof PI_RGT_0. field. lra. }
  rewrite degrees_radians, Hcz, Hez, Hnz.
  unfold inner, upwards, east, north, direction. rewrite !degrees_radians.
  replace (one_degree * (lon - RAD2DEG * hang)) with (one_degree * lon - hang)
    by (rewrite Rmult_minus_distr_l, degrees_radians; reflexivity).
  set (lo := one_degree * lon). set (la := one_degree * lat).
  rewrite cos_minus, sin_minus. pose proof (sin2_cos2 lo) as P. unfold Rsqr in P.
  split; [|split].
  - transitivity (sin la * sin decl + cos la * cos decl * cos hang * (sin lo * sin lo + cos lo * cos lo));
      [rewrite P; ring|ring].
  - transitivity (- (cos decl * sin hang) * (sin lo * sin lo + cos lo * cos lo)); [rewrite P; ring|ring].
  - transitivity (cos la * sin decl - sin la * cos decl * cos hang * (sin lo * sin lo + cos lo * cos lo));
      [rewrite P; ring|ring].
Qed.

Lemma sun_same_direction t lat lon rad dtt lat' lon' rad' :
  let s := sunpos_item t lat lon rad dtt in
  let s' := sunpos_item t lat' lon' rad' dtt in
  declination s = declination s' /\ right_ascension s = right_ascension s' /\
  direction (declination s) (lon - hour_angle s) = direction (declination s') (lon' - hour_angle s').
Proof.
  cbv zeta.
  assert (H : declination (sunpos_item t lat lon rad dtt) = declination (sunpos_item t lat' lon' rad' dtt) /\
    right_ascension (sunpos_item t lat lon rad dtt) = right_ascension (sunpos_item t lat' lon' rad' dtt)).
  { unfold sunpos_item, sunpos5equat, equatorial. cbv zeta.
    destruct (ecliptic _) as [[l e] n].
    destruct (sunpos5eq2hor _ _ (lat * DEG2RAD) _ _ _), (sunpos5eq2hor _ _ (lat' * DEG2RAD) _ _ _). now cbn. }
  destruct H as [Hd Hr]. split; [exact Hd|]. split; [exact Hr|].
  destruct (sun_hour_angle t lat lon rad dtt) as [k ->].
  destruct (sun_hour_angle t lat' lon' rad' dtt) as [k' ->]. rewrite Hd, Hr.
  set (g := sidereal_time _ _ / one_degree). set (ra := right_ascension _).
  unfold direction.
  assert (E : forall lo j, one_degree * (lo - (g + lo - ra - 360 * IZR j)) = one_degree * (ra - g) - 2 * PI * IZR (- j)).
  { intros. unfold one_degree. rewrite opp_IZR. field. }
  now rewrite !E, !sin_period_Z, !cos_period_Z.
Qed.

Lemma sun_original t lat lon rad dtt temp : 60 <= t < 146157 ->
  sunpos_original_item t lat lon rad dtt 0 temp = sunpos_item t lat lon rad (0.9999936 * dtt).
Proof.
  intros Ht. unfold sunpos_original_item, sunpos_item, mjd2k_to_date, sunpos5equat. cbv zeta.
  pose proof (floor_ge t 60 ltac:(lra)) as H1. pose proof (floor_lt t 146157 ltac:(lra)) as H2.
  pose proof (date_days (floor t) (24 * (t - IZR (floor t))) (conj H1 H2)) as D.
  destruct (day_to_date (floor t)) as [[y m] d]. unfold sunpos5original. cbv zeta.
  unfold date_to_sunposmjd2k in D. cbv zeta in D.
  set (z := IZR (_ + d)) in *.
  replace (z + 1 / 24 * (24 * (t - IZR (floor t))) - 21958) with (t + 43 - 21958) by lra.
  replace (SEC2DAYS * (0.9999936 * dtt) + (t + 43 - 21958)) with (t + 43 - 21958 + 1.1574e-5 * dtt) by (unfold SEC2DAYS; lra).
  destruct (equatorial _ _ _) as [[decl rasc] hang].
  assert (E : sunpos5eq2hor decl hang (lat * DEG2RAD) rad 0 temp = sunpos5eq2hor decl hang (lat * DEG2RAD) rad 0 0).
  { unfold sunpos5eq2hor. cbv zeta. destruct (Rlt_dec 0 0); [lra|reflexivity]. }
  rewrite E. now destruct (sunpos5eq2hor decl hang (lat * DEG2RAD) rad 0 0).
Qed.

(** ** The sub-solar point *)

Lemma subsol_overhead t : Rabs (t - epoch_2060) <= 1.7e8 ->
  let '(lat, lon) := get_subsol t in
  -90 <= lat <= 90 /\ -180 < lon <= 180 /\ 
  zenith (sunpos_item t lat lon 0 0) = 0 /\
  forall lat' lon', -90 <= lat' <= 90 -> zenith (sunpos_item t lat' lon' 0 0) = 0 ->
    direction lat' lon' = direction lat lon.
Proof.
  intros Hte. unfold get_subsol. cbv zeta.
  destruct (sun_ranges t 0 0 0 0) as (Hd & _ & Hh & _ & _).
  split; [exact Hd|]. split; [lra|].
  assert (Hte' : Rabs (t + 0 / 86400 - epoch_2060) <= 1.7e8) by (replace (t + 0 / 86400) with t by field; exact Hte).
  set (s0 := sunpos_item t 0 0 0 0) in *.
  assert (U : forall la lo, inner (direction la lo) (direction la lo) = 1).
  { intros. unfold inner, direction.
    pose proof (sin2_cos2 (one_degree * la)) as P1. pose proof (sin2_cos2 (one_degree * lo)) as P2. unfold Rsqr in *.
    transitivity (cos (one_degree * la) * cos (one_degree * la) * (sin (one_degree * lo) * sin (one_degree * lo) + cos (one_degree * lo) * cos (one_degree * lo))
      + sin (one_degree * la) * sin (one_degree * la)); [ring|]. rewrite P2. lra. }
  assert (HD : forall la lo, direction (declination (sunpos_item t la lo 0 0)) (lo - hour_angle (sunpos_item t la lo 0 0)) =
                             direction (declination s0) (- hour_angle s0)).
  { intros la lo. destruct (sun_same_direction t la lo 0 0 0 0 0) as (_ & _ & E). fold s0 in E. rewrite E. f_equal. ring. }
  split.
  - destruct (sun_horizontal t (declination s0) (- hour_angle s0) 0 0 Hte' Hd) as (zen & Hz & Ez & Hc & _).
    rewrite HD in Hc. unfold upwards in Hc. rewrite U in Hc.
    rewrite Ez. assert (zen = 0) as ->; [|unfold Rdiv; rewrite !Rmult_0_l; ring].
    assert (Hz' : one_degree * zen = 0).
    { pose proof PI_RGT_0 as HPI.
      assert (E1 : one_degree * zen = PI * (zen / 180)) by (unfold one_degree; field).
      assert (0 <= zen / 180 <= 1) by lra.
      apply cos_inj; [rewrite E1; split; nra|lra|]. rewrite Hc. now rewrite cos_0. }
    unfold one_degree in Hz'. pose proof PI_RGT_0. nra.
  - intros la lo Hla Hzen.
    destruct (sun_horizontal t la lo 0 0 Hte' Hla) as (zen & Hz & Ez & Hc & _).
    rewrite Hzen in Ez. rewrite HD in Hc.
    assert (zen = 0) as -> by (unfold Rdiv in Ez; rewrite !Rmult_0_l in Ez; lra).
    rewrite Rmult_0_r, cos_0 in Hc. unfold upwards in Hc.
    pose proof (U la lo) as U1. pose proof (U (declination s0) (- hour_angle s0)) as U2.
    destruct (direction la lo) as [[a b] c]. destruct (direction (declination s0) (- hour_angle s0)) as [[a' b'] c'].
    unfold inner in *.
    assert (Z : (a - a') * (a - a') + (b - b') * (b - b') + (c - c') * (c - c') = 0) by lra.
    pose proof (Rle_0_sqr (a - a')) as Za. pose proof (Rle_0_sqr (b - b')) as Zb. pose proof (Rle_0_sqr (c - c')) as Zc.
    unfold Rsqr in *.
    assert (a - a' = 0) by (apply Rsqr_0_uniq; unfold Rsqr; lra).
    assert (b - b' = 0) by (apply Rsqr_0_uniq; unfold Rsqr; lra).
    assert (c - c' = 0) by (apply Rsqr_0_uniq; unfold Rsqr; lra).
    f_equal; [f_equal|]; lra.
Qed.

Lemma mut_default t lat_ngp lon_ngp lat lon :
  (lat = None \/ lon = None) ->
  mjd2000_to_magnetic_universal_time t lat_ngp lon_ngp lat lon =
  mjd2000_to_magnetic_universal_time t lat_ngp lon_ngp (Some (fst (get_subsol t))) (Some (snd (get_subsol t))).
Proof.
  intros [-> | ->]; unfold mjd2000_to_magnetic_universal_time; [|destruct lat]; now destruct (get_subsol t).
Qed.

(** ** Arrays *)

Lemma check_shape_spec d0 d1 : check_equal_shape d0 d1 = false <-> d0 = d1.
Proof.
  revert d1. induction d0 as [|a d0 IH]; intros [|b d1]; cbn; try (split; congruence).
  destruct (Nat.eqb_spec a b) as [->|N].
  - rewrite IH. split; congruence.
  - split; congruence.
Qed.

Lemma largest_array_spec arrs : forall arr,
  In (largest_array arr arrs) (arr :: arrs) /\
  forall a, In a (arr :: arrs) -> (length (dims a) <= length (dims (largest_array arr arrs)))%nat.
Proof.
  induction arrs as [|b arrs IH]; intros arr; cbn [largest_array].
  - split; [now left|]. intros a [-> | []]. lia.
  - destruct (Nat.ltb_spec (length (dims arr)) (length (dims b))) as [H|H].
    + destruct (IH b) as [H1 H2]. split; [now right|].
      intros a [<-|Ha]; [|now apply H2]. specialize (H2 b (or_introl eq_refl)). lia.
    + destruct (IH arr) as [H1 H2]. split; [destruct H1; [now left|now right; right]|].
      intros a [<-|[<-|Ha]]; [apply H2; now left| |apply H2; now right].
      specialize (H2 arr (or_introl eq_refl)). lia.
Qed.

Lemma sun_items_spec item odims : forall args, (forall a, In a args -> dims a = [] \/ dims a = odims) ->
  sun_items item odims args = map (fun ix => item (map (fun a => at_index a ix) args)) (indices odims).
Proof.
  induction odims as [|n odims IH]; intros args H; cbn [sun_items indices].
  - cbn. f_equal. f_equal. apply map_ext_in. intros a Ha. unfold at_index.
    destruct (H a Ha) as [-> | ->]; reflexivity.
  - rewrite flat_map_concat_map, (flat_map_concat_map _ (seq 0 n)), concat_map, map_map. f_equal. apply map_ext. intros i.
    rewrite IH.
    + rewrite map_map. apply map_ext. intros ix. f_equal. rewrite map_map. apply map_ext_in. intros a Ha.
      unfold at_index, nd_item. destruct (H a Ha) as [E|E]; rewrite E; cbn; [now rewrite E|reflexivity].
    + intros a Ha. apply in_map_iff in Ha as (b & <- & Hb). unfold nd_item.
      destruct (H b Hb) as [E|E]; rewrite E; cbn; auto.
Qed.

Lemma sun_arrays_spec item first others :
  let args := first :: others in
  (forall d, common_dims d (map dims args) -> (length d <= 15)%nat ->
     sun_arrays item first others = Ok (d, map (fun ix => item (map (fun a => at_index a ix) args)) (indices d))) /\
  ((forall d, common_dims d (map dims args) -> (15 < length d)%nat) -> sun_arrays item first others = Err ValueError).
Proof.
  cbv zeta. set (args := first :: others). unfold sun_arrays. fold args.
  destruct (largest_array_spec others first) as [H1 H2]. fold args in H1, H2.
  set (arr := largest_array first others) in *. cbv zeta.
  assert (Hex : existsb (fun a => Nat.ltb 0 (length (dims a)) && check_equal_shape (dims a) (dims arr)) args = false <->
                common_dims (dims arr) (map dims args)).
  { split.
    - intros E. split; [now apply in_map|]. intros d Hd. apply in_map_iff in Hd as (a & <- & Ha).
      destruct (Nat.ltb 0 (length (dims a)) && check_equal_shape (dims a) (dims arr)) eqn:Ea.
      + exfalso. assert (existsb (fun a => Nat.ltb 0 (length (dims a)) && check_equal_shape (dims a) (dims arr)) args = true).
        { apply existsb_exists. eauto. } congruence.
      + apply andb_false_iff in Ea as [Ea|Ea].
        * left. destruct (dims a); [reflexivity|discriminate].
        * right. now apply check_shape_spec.
    - intros [_ E]. destruct (existsb _ args) eqn:Ea; [|reflexivity].
      apply existsb_exists in Ea as (a & Ha & Eb). apply andb_true_iff in Eb as [Eb Ec].
      destruct (E (dims a)) as [F|F]; [now apply in_map| |].
      + rewrite F in Eb. discriminate.
      + apply check_shape_spec in F. congruence. }
  assert (Huniq : forall d, common_dims d (map dims args) -> d = dims arr).
  { intros d [Hd E]. destruct (E (dims arr)) as [F|F]; [now apply in_map| |easy].
    apply in_map_iff in Hd as (a & <- & Ha). specialize (H2 a Ha). rewrite F in H2.
    rewrite F. destruct (dims a); [reflexivity|cbn in H2; lia]. }
  split.
  - intros d Hd Hl. pose proof (Huniq d Hd) as ->.
    destruct (Nat.ltb_spec 15 (length (dims arr))); [lia|].
    rewrite (proj2 Hex Hd). f_equal. f_equal. apply sun_items_spec.
    intros a Ha. apply (proj2 Hd). now apply in_map.
  - intros H. destruct (Nat.ltb_spec 15 (length (dims arr))) as [L|L]; [reflexivity|].
    destruct (existsb _ args) eqn:E; [reflexivity|].
    specialize (H _ (proj1 Hex eq_refl)). lia.
Qed.

Lemma sunpos_arrays t la lo r d :
  (forall dd, common_dims dd (map dims [t; la; lo; r; d]) -> (length dd <= 15)%nat ->
     sunpos t la lo r d = Ok (dd, map (fun ix => Some (sunpos_item (at_index t ix) (at_index la ix) (at_index lo ix)
       (at_index r ix) (at_index d ix))) (indices dd))) /\
  ((forall dd, common_dims dd (map dims [t; la; lo; r; d]) -> (15 < length dd)%nat) -> sunpos t la lo r d = Err ValueError).
Proof. exact (sun_arrays_spec _ t [la; lo; r; d]). Qed.

Lemma original_arrays t la lo r d p te :
  (forall dd, common_dims dd (map dims [t; la; lo; r; d; p; te]) -> (length dd <= 15)%nat ->
     sunpos_original t la lo r d p te = Ok (dd, map (fun ix => Some (sunpos_original_item (at_index t ix) (at_index la ix)
       (at_index lo ix) (at_index r ix) (at_index d ix) (at_index p ix) (at_index te ix))) (indices dd))) /\
  ((forall dd, common_dims dd (map dims [t; la; lo; r; d; p; te]) -> (15 < length dd)%nat) ->
   sunpos_original t la lo r d p te = Err ValueError).
Proof. exact (sun_arrays_spec _ t [la; lo; r; d; p; te]). Qed.

(** ** Examples *)

Lemma ex_time : Rabs (7305 + 69 / 86400 - epoch_2060) <= 1.7e8 /\ 60 <= 7305 < 146157.
Proof. unfold epoch_2060. split; [|lra]. unfold Rabs. destruct (Rcase_abs _); lra. Qed.

(** The Sun at the north pole is at its declination above the horizon *)
Lemma ex_pole : exists zen, zenith (sunpos_item 7305 90 0 0 69) = zen /\
  cos (one_degree * zen) = sin (one_degree * declination (sunpos_item 7305 90 0 0 69)).
Proof.
  destruct (sun_horizontal 7305 90 0 0 69 (proj1 ex_time) ltac:(lra)) as (zen & _ & Hz & Hc & _).
  eexists. split; [reflexivity|]. rewrite Hz. unfold Rdiv. rewrite !Rmult_0_l, Rplus_0_r. rewrite Hc.
  unfold inner, upwards, direction.
  replace (one_degree * 90) with (PI / 2) by (unfold one_degree; field). rewrite cos_PI2, sin_PI2. ring.
Qed.

Lemma ex_dims : common_dims [2; 3]%nat [[2; 3]; []; [2; 3]; []; []]%nat /\ ~ exists d, common_dims d [[2]; [3]; []; []; []]%nat.
Proof.
  split.
  - split; [now left|]. intros a H. cbn in H. intuition.
  - intros [d [H1 H2]]. destruct (H2 [2%nat] (or_introl eq_refl)) as [E|E]; [discriminate|].
    destruct (H2 [3%nat] (or_intror (or_introl eq_refl))) as [F|F]; [discriminate|]. congruence.
Qed.

(** ** The refraction *)

Lemma horizontal_refraction decl hang lat rad press temp :
  let '(az, zen) := sunpos5eq2hor decl hang lat rad press temp in
  let '(az0, zen0) := sunpos5eq2hor decl hang lat rad 0 temp in
  az = az0 /\ (press <= 0 \/ PI / 2 <= zen0 -> zen = zen0) /\
  (0 < press -> zen0 < PI / 2 -> zen = zen0 - refraction press temp (PI / 2 - zen0)).
Proof.
  unfold sunpos5eq2hor, PIM, refraction. cbv zeta. destruct (Rlt_dec 0 0); [lra|].
  set (ep := asin _ - _). split; [reflexivity|].
  destruct (Rlt_dec 0 press); [|split; [reflexivity|lra]]. destruct (Rlt_dec 0 ep).
  - split; [lra|]. intros _ _. replace (PI / 2 - (PI / 2 - ep - 0)) with ep by ring. lra.
  - split; [reflexivity|lra].
Qed.

Lemma sun_refraction t lat lon rad dtt pres temp :
  let s := sunpos_original_item t lat lon rad dtt pres temp in
  let s0 := sunpos_original_item t lat lon rad dtt 0 temp in
  declination s = declination s0 /\ right_ascension s = right_ascension s0 /\ hour_angle s = hour_angle s0 /\
  azimuth s = azimuth s0 /\ (pres <= 0 \/ 90 <= zenith s0 -> zenith s = zenith s0) /\
  (0 < pres -> zenith s0 < 90 ->
   zenith s = zenith s0 - refraction pres temp (one_degree * (90 - zenith s0)) / one_degree).
Proof.
  cbv zeta. unfold sunpos_original_item. destruct (mjd2k_to_date t) as [[[y m] d] h]. unfold sunpos5original. cbv zeta.
  destruct (equatorial _ _ _) as [[decl rasc] hang].
  pose proof (horizontal_refraction decl hang (lat * DEG2RAD) rad pres temp) as H.
  destruct (sunpos5eq2hor decl hang (lat * DEG2RAD) rad pres temp) as [az zen].
  destruct (sunpos5eq2hor decl hang (lat * DEG2RAD) rad 0 temp) as [az0 zen0].
  cbn [declination right_ascension hour_angle azimuth zenith]. destruct H as (-> & H1 & H2).
  split; [reflexivity|]. split; [reflexivity|]. split; [reflexivity|]. split; [reflexivity|].
  pose proof rad2deg_pos as Hp. pose proof rad2deg_pi as Hpi. split.
  - intros [H|H]; [rewrite H1; [reflexivity|now left]|]. rewrite H1; [reflexivity|]. right. nra.
  - intros H3 H4. rewrite H2; [|exact H3|nra].
    replace (one_degree * (90 - RAD2DEG * zen0)) with (PI / 2 - zen0)
      by (unfold one_degree, RAD2DEG; field; apply PI_neq0).
    unfold one_degree, RAD2DEG. field. apply PI_neq0.
Qed.
