(** Proofs about the times of the quasi-dipole library. *)

From Coq Require Import Bool List ZArith Reals Lra Lia.
From Verif Require Import TimeModel SunModel QdTimeModel TimeProofs DecimalProofs.
Import ListNotations.
Open Scope Z_scope.

(** ** INT and NINT *)

Lemma c_int_split n f : 0 <= n -> (0 <= f < 1)%R -> c_int (IZR n + f) = n.
Proof.
  intros Hn Hf. apply IZR_le in Hn. unfold c_int. destruct (Rlt_dec (IZR n + f) 0); [lra|].
  apply floor_unique. lra.
Qed.

Lemma c_int_nonneg x : (0 <= x)%R -> c_int x = floor x.
Proof. intros H. unfold c_int. destruct (Rlt_dec x 0); [lra|reflexivity]. Qed.

Lemma c_int_neg x : (x <= 0)%R -> c_int x = - floor (- x).
Proof.
  intros H. unfold c_int. destruct (Rlt_dec x 0); [reflexivity|].
  replace x with 0%R by lra. rewrite Ropp_0. rewrite (floor_unique 0 0) by lra. reflexivity.
Qed.

Lemma nint_IZR n : nint (IZR n) = n.
Proof.
  unfold nint. destruct (Rlt_dec (IZR n) 0) as [H|H].
  - rewrite (floor_unique _ (- n)); [lia|]. rewrite opp_IZR. lra.
  - apply floor_unique. lra.
Qed.

Lemma nint_error x : (Rabs (IZR (nint x) - x) <= 1 / 2)%R.
Proof.
  unfold nint. destruct (Rlt_dec x 0) as [H|H].
  - pose proof (floor_spec (- x + 1 / 2)). rewrite opp_IZR. apply Rabs_le. lra.
  - pose proof (floor_spec (x + 1 / 2)). apply Rabs_le. lra.
Qed.

(** ** The loop of the months *)

Definition total (l : list Z) : Z := fold_left Z.add l 0.

Lemma fold_total l : forall n, fold_left Z.add l n = n + total l.
Proof.
  unfold total. induction l as [|a l IH]; intros n; cbn [fold_left]; [lia|].
  rewrite IH. rewrite (IH (0 + a)). lia.
Qed.

Lemma month_loop_spec f : (0 <= f < 1)%R -> forall l mo n, 0 <= n ->
  exists j, (j <= length l)%nat /\ 0 <= n - total (firstn j l) /\
    month_loop l mo (IZR n + f) = (mo + Z.of_nat j, (IZR (n - total (firstn j l)) + f)%R).
Proof.
  intros Hf. induction l as [|a l IH]; intros mo n Hn.
  - exists O. cbn [firstn month_loop length]. unfold total. cbn [fold_left].
    split; [lia|]. split; [lia|]. apply f_equal2; [lia|]. now rewrite Z.sub_0_r.
  - cbn [month_loop]. rewrite c_int_split by assumption. destruct (Z.leb_spec a n) as [H|H].
    + destruct (IH (mo + 1) (n - a) ltac:(lia)) as (j & H1 & H2 & H3). exists (S j).
      assert (E : total (firstn (S j) (a :: l)) = a + total (firstn j l)).
      { cbn [firstn]. unfold total at 1. cbn [fold_left]. rewrite fold_total. lia. }
      rewrite E. cbn [length]. split; [lia|]. split; [lia|].
      replace (IZR n + f - IZR a)%R with (IZR (n - a) + f)%R by (rewrite minus_IZR; ring).
      rewrite H3. apply f_equal2; [lia|]. do 2 f_equal. lia.
    + exists O. cbn [firstn]. unfold total. cbn [fold_left]. split; [lia|]. split; [lia|].
      apply f_equal2; [lia|]. now rewrite Z.sub_0_r.
Qed.

Definition february (y : Z) : Z := if leapg y then 29 else 28.

Ltac Zify.zify_post_hook ::= Z.to_euclidean_division_equations.

(** ** The year of a Julian day *)

(** the days from 1 March of the year 0 are 36524 days per century and 1461 days per four
    years *)
Lemma century_split n : -152384 <= n ->
  let k := n + 730425 in
  let j := k / 146097 in
  let j' := Z.min ((k - j * 146097) / 36524) 3 in
  exists q, 0 <= q <= 36524 /\ (j' = 3 \/ q < 36524) /\ 0 <= j' <= 3 /\ 3 <= j /\
    k = 146097 * j + 36524 * j' + q /\
    n + 2451543 + 3 * j + j' = 1461 * (25 * (4 * j + j') + 1178) + (q + 60).
Proof.
  intros Hn. cbv zeta. exists (n + 730425 - 146097 * ((n + 730425) / 146097)
    - 36524 * Z.min ((n + 730425 - (n + 730425) / 146097 * 146097) / 36524) 3).
  lia.
Qed.

Lemma start_century c : 0 <= c -> start_g (100 * c) = 36524 * c + (c + 3) / 4 - 730485.
Proof. intros H. unfold start_g, start_j. lia. Qed.

Lemma start_within c s a : 0 <= c -> 0 <= s <= 24 -> 0 <= a <= 3 -> 0 < 4 * s + a ->
  start_g (100 * c + 4 * s + a) =
    36524 * c + c / 4 + 1461 * s + 365 * a + (if a =? 0 then 0 else 1) - 730485.
Proof.
  intros Hc Hs Ha Hp. unfold start_g, start_j.
  assert (E1 : (100 * c + 4 * s + a + 4799) / 100 = c + 48) by lia.
  assert (E2 : (100 * c + 4 * s + a + 4799) / 400 = c / 4 + 12) by lia.
  assert (E3 : (100 * c + 4 * s + a + 4799) / 4 = 25 * c + s + 1199 + (if a =? 0 then 0 else 1)) by (destruct (Z.eqb_spec a 0); lia).
  rewrite E1, E2, E3. destruct (Z.eqb_spec a 0); lia.
Qed.

Lemma leapg_century c : leapg (100 * c) = (c mod 4 =? 0).
Proof.
  unfold leapg. destruct (Z.eqb_spec (c mod 4) 0); destruct (Z.eqb_spec (100 * c mod 4) 0);
    destruct (Z.eqb_spec (100 * c mod 100) 0); destruct (Z.eqb_spec (100 * c mod 400) 0); cbn [andb orb negb]; lia.
Qed.

Lemma leapg_within c s a : 0 <= s <= 24 -> 0 <= a <= 3 -> 0 < 4 * s + a ->
  leapg (100 * c + 4 * s + a) = (a =? 0).
Proof.
  intros Hs Ha Hp. unfold leapg. destruct (Z.eqb_spec a 0); destruct (Z.eqb_spec ((100 * c + 4 * s + a) mod 4) 0);
    destruct (Z.eqb_spec ((100 * c + 4 * s + a) mod 100) 0); cbn [andb orb negb]; lia.
Qed.

(** the year and the day of the year of TJUDA *)
Definition years_part (gregorian : bool) (d0 : R) : Z * R * Z :=
  let j := Z.quot (c_int d0) (4 * 365 + 1) in
  let d1 := (d0 - IZR (j * (4 * 365 + 1)))%R in
  let n := c_int d1 in
  if 366 + 365 + 365 <=? n then (4 * j + 3 - 4712, (d1 - IZR (366 + 365 + 365))%R, 28)
  else if 366 + 365 <=? n then (4 * j + 2 - 4712, (d1 - IZR (366 + 365))%R, 28)
  else if 366 <=? n then (4 * j + 1 - 4712, (d1 - IZR 366)%R, 28)
  else
    let ja := 4 * j - 4712 in
    if gregorian && (Z.rem ja 100 =? 0) && negb (Z.rem ja 400 =? 0)
    then (ja, (if 59 <? n then d1 - 1 else d1)%R, 28)
    else (ja, d1, 29).

Lemma years_gregorian c q f : 14 <= c -> 0 <= q <= 36524 -> (0 <= f < 1)%R ->
  q < 36524 \/ c mod 4 = 3 ->
  let n := 36524 * c + c / 4 + q - 730425 in
  exists y r, years_part true (IZR (1461 * (25 * c + 1178) + (q + 60)) + f) = (y, (IZR r + f)%R, february y) /\
    r = n - start_g y /\ 0 <= r /\ n < start_g (y + 1) /\ 1400 <= y.
Proof.
  intros Hc Hq Hf Hq' n. unfold years_part.
  rewrite c_int_split by (assumption || lia).
  set (s := (q + 60) / 1461). set (w := (q + 60) mod 1461).
  assert (Hs : 0 <= s <= 25) by (unfold s; lia).
  assert (Hw : 0 <= w < 1461) by (unfold w; lia).
  assert (E : q + 60 = 1461 * s + w) by (unfold s, w; lia).
  assert (Ej : Z.quot (1461 * (25 * c + 1178) + (q + 60)) (4 * 365 + 1) = 25 * c + 1178 + s) by lia.
  rewrite Ej. clearbody s w.
  replace (IZR (1461 * (25 * c + 1178) + (q + 60)) + f - IZR ((25 * c + 1178 + s) * (4 * 365 + 1)))%R
    with (IZR w + f)%R by (rewrite E; rewrite !plus_IZR, !mult_IZR, !plus_IZR, !mult_IZR; ring).
  rewrite c_int_split by (assumption || lia).
  change (366 + 365 + 365) with 1096. change (366 + 365) with 731.
  assert (Y : forall a, 0 <= a <= 3 -> 0 < 4 * s + a -> s <= 24 ->
    start_g (100 * c + 4 * s + a) = 36524 * c + c / 4 + 1461 * s + 365 * a + (if a =? 0 then 0 else 1) - 730485
    /\ leapg (100 * c + 4 * s + a) = (a =? 0)).
  { intros a Ha Hp Hs24. split; [apply start_within; lia|apply leapg_within; lia]. }
  assert (next : forall a, 0 <= a <= 3 -> 0 < 4 * s + a -> s <= 24 ->
    36524 * c + c / 4 + 1461 * s + 365 * a + (if a =? 0 then 366 else 366) - 730485 <= start_g (100 * c + 4 * s + a + 1) \/
    (a = 3 /\ s = 24)).
  { intros a Ha Hp Hs24. destruct (Z.eq_dec a 3) as [->|Ha3].
    - destruct (Z.eq_dec s 24) as [->|Hs']; [right; lia|left].
      replace (100 * c + 4 * s + 3 + 1) with (100 * c + 4 * (s + 1) + 0) by lia.
      rewrite start_within by lia. cbn [Z.eqb]. lia.
    - left. replace (100 * c + 4 * s + a + 1) with (100 * c + 4 * s + (a + 1)) by lia.
      rewrite start_within by lia. destruct (Z.eqb_spec (a + 1) 0); [lia|]. destruct (Z.eqb_spec a 0); lia. }
  assert (last : s = 24 -> start_g (100 * c + 4 * s + 3 + 1) = 36524 * (c + 1) + (c + 4) / 4 - 730485).
  { intros ->. replace (100 * c + 4 * 24 + 3 + 1) with (100 * (c + 1)) by lia. rewrite start_century by lia. f_equal. f_equal. f_equal. lia. }
  destruct (Z.leb_spec 1096 w) as [H3|H3]; [|destruct (Z.leb_spec 731 w) as [H2|H2]; [|destruct (Z.leb_spec 366 w) as [H1|H1]]].
  - destruct (Y 3) as [Y1 Y2]; [lia..|]. cbn [Z.eqb] in Y1, Y2.
    exists (100 * c + 4 * s + 3), (w - 1096). repeat split.
    + unfold february. rewrite Y2. apply f_equal2; [apply f_equal2; [lia|rewrite minus_IZR; ring]|reflexivity].
    + unfold n. lia.
    + lia.
    + destruct (next 3) as [X|[_ X]]; [lia..| |].
      * cbn [Z.eqb] in X. unfold n. lia.
      * rewrite last by exact X. unfold n. lia.
    + lia.
  - destruct (Y 2) as [Y1 Y2]; [lia..|]. cbn [Z.eqb] in Y1, Y2.
    exists (100 * c + 4 * s + 2), (w - 731). repeat split.
    + unfold february. rewrite Y2. apply f_equal2; [apply f_equal2; [lia|rewrite minus_IZR; ring]|reflexivity].
    + unfold n. lia.
    + lia.
    + destruct (next 2) as [X|[X _]]; [lia..| |lia]. cbn [Z.eqb] in X. unfold n. lia.
    + lia.
  - destruct (Y 1) as [Y1 Y2]; [lia..|]. cbn [Z.eqb] in Y1, Y2.
    exists (100 * c + 4 * s + 1), (w - 366). repeat split.
    + unfold february. rewrite Y2. apply f_equal2; [apply f_equal2; [lia|rewrite minus_IZR; ring]|reflexivity].
    + unfold n. lia.
    + lia.
    + destruct (next 1) as [X|[X _]]; [lia..| |lia]. cbn [Z.eqb] in X. unfold n. lia.
    + lia.
  - replace (4 * (25 * c + 1178 + s) - 4712) with (100 * c + 4 * s) by lia.
    destruct (Z.eq_dec s 0) as [->|Hs0]; [|destruct (Z.eq_dec s 25) as [->|Hs25]].
    + (* the years of the centuries, from March *)
      replace (100 * c + 4 * 0) with (100 * c) by lia.
      assert (L := leapg_century c). assert (S0 := start_century c ltac:(lia)).
      assert (S1 : start_g (100 * c + 1) = 36524 * c + c / 4 + 366 - 730485).
      { replace (100 * c + 1) with (100 * c + 4 * 0 + 1) by lia. rewrite start_within by lia. cbn [Z.eqb]. lia. }
      assert (R1 : Z.rem (100 * c) 100 = 0) by lia. rewrite R1. cbn [Z.eqb andb].
      destruct (Z.eqb_spec (Z.rem (100 * c) 400) 0) as [R4|R4]; cbn [negb].
      * destruct (Z.eqb_spec (c mod 4) 0); [|lia].
        exists (100 * c), w. repeat split; [unfold february; now rewrite L|unfold n; lia..].
      * destruct (Z.eqb_spec (c mod 4) 0); [lia|]. destruct (Z.ltb_spec 59 w); [|lia].
        exists (100 * c), (w - 1). repeat split; [unfold february; rewrite L|unfold n; lia..].
        apply f_equal2; [apply f_equal2; [reflexivity|rewrite minus_IZR; ring]|reflexivity].
    + (* the years of the centuries, January and February *)
      replace (100 * c + 4 * 25) with (100 * (c + 1)) by lia.
      assert (L := leapg_century (c + 1)). assert (S0 := start_century (c + 1) ltac:(lia)).
      assert (S1 : start_g (100 * (c + 1) + 1) = 36524 * (c + 1) + (c + 1) / 4 + 366 - 730485).
      { replace (100 * (c + 1) + 1) with (100 * (c + 1) + 4 * 0 + 1) by lia. rewrite start_within by lia. cbn [Z.eqb]. lia. }
      assert (R1 : Z.rem (100 * (c + 1)) 100 = 0) by lia. rewrite R1. cbn [Z.eqb andb].
      destruct (Z.eqb_spec (Z.rem (100 * (c + 1)) 400) 0) as [R4|R4]; cbn [negb].
      * destruct (Z.eqb_spec ((c + 1) mod 4) 0); [|lia].
        exists (100 * (c + 1)), w. repeat split; [unfold february; now rewrite L|unfold n; lia..].
      * destruct (Z.eqb_spec ((c + 1) mod 4) 0); [lia|]. destruct (Z.ltb_spec 59 w); [lia|].
        exists (100 * (c + 1)), w. repeat split; [unfold february; now rewrite L|unfold n; lia..].
    + destruct (Y 0) as [Y1 Y2]; [lia..|]. cbn [Z.eqb] in Y1, Y2. rewrite Z.add_0_r in Y1, Y2.
      assert (R1 : Z.rem (100 * c + 4 * s) 100 <> 0) by lia.
      destruct (Z.eqb_spec (Z.rem (100 * c + 4 * s) 100) 0); [lia|]. cbn [andb].
      exists (100 * c + 4 * s), w. repeat split; [unfold february; now rewrite Y2|unfold n; lia..| |lia].
      destruct (next 0) as [X|[X _]]; [lia..| |lia]. cbn [Z.eqb] in X.
      replace (100 * c + 4 * s + 1) with (100 * c + 4 * s + 0 + 1) by lia. unfold n. lia.
Qed.
