(** Proofs about the calendar. *)

From Coq Require Import Bool ZArith Lia.
From Verif Require Import TimeModel TimeSpec.
Open Scope Z_scope.

(** ** The date as a function of the day of a calendar of 1461 days in four years *)

Definition core (f : Z) : Z * Z * Z :=
  let e := e_of f in
  let h := h_of e in
  let day := Z.quot (Z.rem h 153) 5 + 1 in
  let month := month_of h in
  (year_of e month, month, day).

Lemma date_core day : day_to_date day = core (f_of (jd_of day)).
Proof. reflexivity. Qed.
Lemma year_core day : day_to_year day = fst (fst (day_to_date day)).
Proof. reflexivity. Qed.

(** The date of the day [k] of the year [Y] which starts in March *)
Definition mdate (Y k : Z) : Z * Z * Z :=
  let h := 5 * k + 2 in
  let month := month_of h in
  (Y - 4716 + Z.quot (14 - month) 12, month, Z.quot (Z.rem h 153) 5 + 1).

Lemma core_mdate f : 0 <= f -> core f = mdate ((4 * f + 3) / 1461) (((4 * f + 3) mod 1461) / 4).
Proof.
  intro H. unfold core, mdate, h_of, year_of, e_of.
  rewrite (Z.rem_mod_nonneg (4 * f + 3)), (Z.quot_div_nonneg (4 * f + 3)) by lia.
  pose proof (Z.mod_pos_bound (4 * f + 3) 1461 ltac:(lia)).
  rewrite (Z.quot_div_nonneg ((4 * f + 3) mod 1461)) by lia. reflexivity.
Qed.

(** Start of the year [Y] (March) in the two calendars *)
Definition march_j (Y : Z) : Z := 365 * Y + Y / 4 - 2452946.
Definition march_g (Y : Z) : Z := march_j Y + 38 - (3 * ((Y + 184) / 100)) / 4.

Ltac Zify.zify_post_hook ::= Z.to_euclidean_division_equations.

Lemma march_julian day : first_day <= day <= -152385 -> exists Y k,
  day_to_date day = mdate Y k /\ day = march_j Y + k /\ 0 <= k < march_j (Y + 1) - march_j Y /\ 0 <= Y.
Proof.
  unfold first_day. intros [H1 H2]. rewrite date_core. unfold f_of, jd_of.
  destruct (Z.ltb_spec 2299160 (day + 2451545)); [lia|].
  set (f := day + 2451545 + 1401 + 0). rewrite core_mdate by lia.
  exists ((4 * f + 3) / 1461), (((4 * f + 3) mod 1461) / 4). unfold march_j. split; [reflexivity|]. unfold f. lia.
Qed.

Lemma march_gregorian day : -152385 < day -> exists Y k,
  day_to_date day = mdate Y k /\ day = march_g Y + k /\ 0 <= k < march_g (Y + 1) - march_g Y /\ 6298 <= Y.
Proof.
  intro H. rewrite date_core. unfold f_of, jd_of.
  destruct (Z.ltb_spec 2299160 (day + 2451545)); [|lia].
  rewrite !(Z.quot_div_nonneg (4 * _ + 274277)) by lia.
  set (c := (4 * (day + 2451545) + 274277) / 146097). assert (0 <= c) by lia.
  rewrite Z.quot_div_nonneg by lia.
  set (f := day + 2451545 + 1401 + (c * 3 / 4 - 38)). rewrite core_mdate by lia.
  exists ((4 * f + 3) / 1461), (((4 * f + 3) mod 1461) / 4). split; [reflexivity|].
  unfold march_g, march_j.
  assert (E : 3 * (((4 * f + 3) / 1461 + 184) / 100) / 4 = c * 3 / 4) by (unfold f, c; lia).
  split; [unfold f in *; lia|]. split; [|unfold f; lia].
  split; [lia|]. rewrite E. unfold f, c. lia.
Qed.

(** ** Decidable versions of the specification *)

Definition leapj (y : Z) : bool := y mod 4 =? 0.
Definition leapg (y : Z) : bool := (y mod 4 =? 0) && (negb (y mod 100 =? 0) || (y mod 400 =? 0)).
Definition mlen (lp : bool) (m : Z) : Z :=
  if m =? 2 then (if lp then 29 else 28)
  else if (m =? 4) || (m =? 6) || (m =? 9) || (m =? 11) then 30 else 31.
Definition nextb (lp : Z -> bool) (date : Z * Z * Z) : Z * Z * Z :=
  let '(y, m, d) := date in
  if d <? mlen (lp y) m then (y, m, d + 1) else if m <? 12 then (y, m + 1, 1) else (y + 1, 1, 1).
Definition validb (lp : Z -> bool) (date : Z * Z * Z) : bool :=
  let '(y, m, d) := date in (1 <=? m) && (m <=? 12) && (1 <=? d) && (d <=? mlen (lp y) m).
Definition date_eqb (a b : Z * Z * Z) : bool :=
  let '(y, m, d) := a in let '(y', m', d') := b in (y =? y') && (m =? m') && (d =? d').

Lemma date_eqb_eq a b : date_eqb a b = true <-> a = b.
Proof.
  destruct a as [[y m] d], b as [[y' m'] d']. unfold date_eqb. rewrite !andb_true_iff, !Z.eqb_eq.
  split; [intros [[-> ->] ->]; auto|intro E; injection E; auto].
Qed.

Definition leapb (y : Z) : bool := if y <=? 1582 then leapj y else leapg y.

Lemma leapb_spec y : leapb y = true <-> leap y.
Proof.
  unfold leapb, leap, leapj, leapg. destruct (y <=? 1582).
  - apply Z.eqb_eq.
  - rewrite andb_true_iff, orb_true_iff, negb_true_iff, Z.eqb_neq, !Z.eqb_eq. tauto.
Qed.

Lemma mlen_spec y m : 1 <= m <= 12 -> month_length y m (mlen (leapb y) m).
Proof.
  intro H. unfold mlen. destruct (Z.eqb_spec m 2) as [->|N].
  - destruct (leapb y) eqn:E.
    + constructor. apply leapb_spec. exact E.
    + constructor. intro L. apply leapb_spec in L. congruence.
  - destruct ((m =? 4) || (m =? 6) || (m =? 9) || (m =? 11)) eqn:E.
    + apply len30. rewrite !orb_true_iff, !Z.eqb_eq in E. tauto.
    + apply len31. rewrite !orb_false_iff, !Z.eqb_neq in E. lia.
Qed.

Lemma validb_spec date : validb leapb date = true -> valid_date date.
Proof.
  destruct date as [[y m] d]. unfold validb, valid_date. rewrite !andb_true_iff, !Z.leb_le. intros [[[H1 H2] H3] H4].
  exists (mlen (leapb y) m). split; [apply mlen_spec; lia|lia].
Qed.

Lemma nextb_spec date date' : validb leapb date = true -> date <> (1582, 10, 4) ->
  nextb leapb date = date' -> next_date date date'.
Proof.
  destruct date as [[y m] d]. unfold validb, nextb. rewrite !andb_true_iff, !Z.leb_le. intros [[[H1 H2] H3] H4] N <-.
  pose proof (mlen_spec y m ltac:(lia)) as L. destruct (Z.ltb_spec d (mlen (leapb y) m)) as [A|A].
  - eapply next_day; eauto.
  - assert (d = mlen (leapb y) m) as -> by lia. destruct (Z.ltb_spec m 12) as [B|B].
    + apply next_month; auto.
    + assert (m = 12) as -> by lia. apply next_year. exact L.
Qed.

(** ** One period of each calendar *)

Fixpoint check (ok : Z -> bool) (n : nat) (d : Z) : bool :=
  match n with O => true | S n' => ok d && check ok n' (d + 1) end.

Lemma check_spec ok : forall n d, check ok n d = true -> forall x, d <= x < d + Z.of_nat n -> ok x = true.
Proof.
  induction n as [|n IH]; intros d H x Hx; [lia|]. simpl in H. apply andb_true_iff in H as [H1 H2].
  destruct (Z.eq_dec x d) as [->|N]; auto. apply (IH (d + 1) H2). lia.
Qed.

(** Start of a year in the two calendars *)
Definition start_j (y : Z) : Z := 365 * (y + 4799) + (y + 4799) / 4 - 2483321.
Definition start_g (y : Z) : Z := start_j y + (y + 4799) / 400 - (y + 4799) / 100 + 38.

Lemma year_start_j y : -4799 <= y <= 1582 -> mjd2k_year_start y = start_j y.
Proof.
  intro H. unfold mjd2k_year_start, start_j. destruct (Z.ltb_spec 1582 y); [lia|].
  rewrite Z.quot_div_nonneg by lia. lia.
Qed.
Lemma year_start_g y : 1582 < y -> mjd2k_year_start y = start_g y.
Proof.
  intro H. unfold mjd2k_year_start, start_g, start_j. destruct (Z.ltb_spec 1582 y); [|lia].
  rewrite !Z.quot_div_nonneg by lia. lia.
Qed.

(** Length of the years *)
Lemma march_j_len Y : march_j (Y + 1) - march_j Y = 365 + (if leapj (Y - 4715) then 1 else 0).
Proof. unfold march_j, leapj. destruct (Z.eqb_spec ((Y - 4715) mod 4) 0); lia. Qed.

Lemma march_g_len Y : march_g (Y + 1) - march_g Y = 365 + (if leapg (Y - 4715) then 1 else 0).
Proof.
  unfold march_g, march_j, leapg. destruct (Z.eqb_spec ((Y - 4715) mod 4) 0); cbn [andb]; [|lia].
  destruct (Z.eqb_spec ((Y - 4715) mod 100) 0); cbn [negb orb]; [|lia].
  destruct (Z.eqb_spec ((Y - 4715) mod 400) 0); lia.
Qed.

Lemma start_march_j y : start_j y = march_j (y + 4715) + 306.
Proof. unfold start_j, march_j. lia. Qed.
Lemma start_march_g y : start_g y = march_g (y + 4715) + 306.
Proof. unfold start_g, start_j, march_g, march_j. lia. Qed.

(** The days of a year starting in March *)
Definition table_ok (k : Z) : bool :=
  let '(y, m, d) := mdate 4716 k in
  validb (fun _ => true) (y, m, d) && ((k =? 365) || validb (fun _ => false) (y, m, d)) &&
  (y =? (if k <? 306 then 0 else 1)) &&
  ((364 <=? k) || (date_eqb (nextb (fun _ => true) (y, m, d)) (mdate 4716 (k + 1)) &&
                   date_eqb (nextb (fun _ => false) (y, m, d)) (mdate 4716 (k + 1)))).

Lemma table_check : check table_ok (Z.to_nat 366) 0 = true.
Proof. vm_compute. reflexivity. Qed.

Definition shift (k : Z) (date : Z * Z * Z) : Z * Z * Z :=
  let '(y, m, d) := date in (y + k, m, d).

Lemma mdate_shift Y k : mdate Y k = shift (Y - 4716) (mdate 4716 k).
Proof. unfold mdate, shift. f_equal. f_equal. lia. Qed.

Lemma mdate_year Y k : 0 <= k < 366 -> fst (fst (mdate Y k)) = Y - 4716 + (if k <? 306 then 0 else 1).
Proof.
  intro H. pose proof (check_spec _ _ _ table_check k ltac:(lia)) as C. unfold table_ok in C.
  rewrite mdate_shift. destruct (mdate 4716 k) as [[y m] d]. unfold shift. cbn [fst].
  apply andb_true_iff in C as [C _]. apply andb_true_iff in C as [_ C]. apply Z.eqb_eq in C. lia.
Qed.

Lemma mdate_next (lp : Z -> bool) Y k : 0 <= k < 365 + (if lp (Y - 4715) then 1 else 0) ->
  validb lp (mdate Y k) = true /\
  nextb lp (mdate Y k) =
    if k + 1 <? 365 + (if lp (Y - 4715) then 1 else 0) then mdate Y (k + 1) else mdate (Y + 1) 0.
Proof.
  intro H. assert (Hk : 0 <= k < 366) by (destruct (lp (Y - 4715)); lia).
  pose proof (check_spec _ _ _ table_check k ltac:(lia)) as C.
  destruct (Z_le_gt_dec 364 k) as [L|L].
  - assert (k = 364 \/ k = 365) as [->| ->] by lia.
    + change (mdate Y 364) with (Y - 4716 + 1, 2, 28). unfold validb, nextb, mlen.
      change (2 =? 2) with true. cbv iota. replace (Y - 4716 + 1) with (Y - 4715) by lia.
      change (mdate Y (364 + 1)) with (Y - 4716 + 1, 2, 29). change (mdate (Y + 1) 0) with (Y + 1 - 4716 + 0, 3, 1).
      destruct (lp (Y - 4715)); cbn; (split; [reflexivity|]); f_equal; f_equal; lia.
    + change (mdate Y 365) with (Y - 4716 + 1, 2, 29). unfold validb, nextb, mlen.
      change (2 =? 2) with true. cbv iota. replace (Y - 4716 + 1) with (Y - 4715) by lia.
      change (mdate (Y + 1) 0) with (Y + 1 - 4716 + 0, 3, 1).
      destruct (lp (Y - 4715)); cbn in *; [|lia]. split; [reflexivity|]. f_equal; f_equal; lia.
  - unfold table_ok in C. rewrite (mdate_shift Y k), (mdate_shift Y (k + 1)).
    destruct (mdate 4716 k) as [[y m] d] eqn:E. destruct (mdate 4716 (k + 1)) as [[y' m'] d'] eqn:E'.
    apply andb_true_iff in C as [C C4]. apply andb_true_iff in C as [C C3]. apply andb_true_iff in C as [C1 C2].
    destruct (Z.eqb_spec k 365); [lia|]. destruct (Z.leb_spec 364 k); [lia|]. cbn [orb] in C2, C4.
    apply andb_true_iff in C4 as [C4 C5]. apply date_eqb_eq in C4, C5.
    destruct (Z.ltb_spec (k + 1) (365 + (if lp (Y - 4715) then 1 else 0))) as [B|B];
      [|destruct (lp (Y - 4715)); lia].
    unfold validb, nextb, shift in *. destruct (lp (y + (Y - 4716))).
    + split; [exact C1|]. revert C4. destruct (d <? mlen true m); [|destruct (m <? 12)];
        intro Q; injection Q as <- <- <-; (apply f_equal2; [apply f_equal2|]); lia.
    + split; [exact C2|]. revert C5. destruct (d <? mlen false m); [|destruct (m <? 12)];
        intro Q; injection Q as <- <- <-; (apply f_equal2; [apply f_equal2|]); lia.
Qed.

(** Facts of one day, for a calendar with the given year starts and leap years *)
Lemma march_facts (G S : Z -> Z) (lp : Z -> bool) day Y k Y' k' :
  (forall Y, G (Y + 1) - G Y = 365 + (if lp (Y - 4715) then 1 else 0)) ->
  (forall y, S y = G (y + 4715) + 306) ->
  day = G Y + k -> 0 <= k < G (Y + 1) - G Y ->
  day + 1 = G Y' + k' -> 0 <= k' < G (Y' + 1) - G Y' ->
  let date := mdate Y k in
  validb lp date = true /\ nextb lp date = mdate Y' k' /\
  S (fst (fst date)) <= day < S (fst (fst date) + 1).
Proof.
  intros HG HS E Hk E' Hk'. cbv zeta.
  assert (Mono : forall a b, a < b -> G a + 365 <= G b).
  { intros a b Hab. replace b with (a + 1 + Z.of_nat (Z.to_nat (b - a - 1))) by lia.
    induction (Z.to_nat (b - a - 1)) as [|n IH].
    - rewrite Z.add_0_r. pose proof (HG a). destruct (lp (a - 4715)); lia.
    - pose proof (HG (a + 1 + Z.of_nat n)) as Q. replace (a + 1 + Z.of_nat (Datatypes.S n)) with (a + 1 + Z.of_nat n + 1) by lia.
      destruct (lp (a + 1 + Z.of_nat n - 4715)); lia. }
  pose proof (HG Y) as L. rewrite L in Hk.
  destruct (mdate_next lp Y k Hk) as [V N]. split; [exact V|]. rewrite N. split.
  - destruct (Z.ltb_spec (k + 1) (365 + (if lp (Y - 4715) then 1 else 0))) as [B|B].
    + assert (Y' = Y).
      { destruct (Z.lt_trichotomy Y' Y) as [T|[T|T]]; auto; exfalso.
        - destruct (Z.eq_dec (Y' + 1) Y) as [<-|]; [lia|]. pose proof (Mono (Y' + 1) Y). lia.
        - destruct (Z.eq_dec (Y + 1) Y') as [<-|]; [lia|]. pose proof (Mono (Y + 1) Y'). lia. }
      subst Y'. f_equal. lia.
    + assert (Y' = Y + 1).
      { destruct (Z.lt_trichotomy Y' (Y + 1)) as [T|[T|T]]; auto; exfalso.
        - destruct (Z.eq_dec (Y' + 1) (Y + 1)) as [Q|]; [rewrite Q in *; lia|]. pose proof (Mono (Y' + 1) (Y + 1)). lia.
        - destruct (Z.eq_dec (Y + 1 + 1) Y') as [<-|]; [pose proof (Mono (Y + 1) (Y + 1 + 1)); lia|].
          pose proof (Mono (Y + 1) Y'). lia. }
      subst Y'. f_equal. lia.
  - assert (Hk2 : 0 <= k < 366) by (destruct (lp (Y - 4715)); lia).
    rewrite (mdate_year Y k Hk2), !HS. destruct (Z.ltb_spec k 306) as [B|B].
    + replace (Y - 4716 + 0 + 4715) with (Y - 1) by lia. replace (Y - 4716 + 0 + 1 + 4715) with Y by lia.
      pose proof (HG (Y - 1)) as Q. replace (Y - 1 + 1) with Y in Q by lia. destruct (lp (Y - 1 - 4715)); lia.
    + replace (Y - 4716 + 1 + 4715) with Y by lia. replace (Y - 4716 + 1 + 1 + 4715) with (Y + 1) by lia.
      destruct (lp (Y - 4715)); lia.
Qed.

(** The day after 4 October 1582 of the Julian calendar *)
Lemma julian_last : day_to_date (-152385) = (1582, 10, 4).
Proof. reflexivity. Qed.

Lemma julian_day day : first_day <= day < -152385 ->
  let date := day_to_date day in
  validb leapj date = true /\ nextb leapj date = day_to_date (day + 1) /\
  start_j (fst (fst date)) <= day < start_j (fst (fst date) + 1) /\ -4716 <= fst (fst date).
Proof.
  intro H. destruct (march_julian day) as (Y & k & D & E & Hk & HY); [lia|].
  destruct (march_julian (day + 1)) as (Y' & k' & D' & E' & Hk' & _); [unfold first_day in *; lia|].
  cbv zeta. rewrite D, D'.
  destruct (march_facts march_j start_j leapj day Y k Y' k' march_j_len start_march_j E Hk E' Hk') as (A & B & C).
  split; auto. split; auto. split; auto.
  rewrite mdate_year by (rewrite march_j_len in Hk; destruct (leapj (Y - 4715)); lia). destruct (k <? 306); lia.
Qed.

Lemma gregorian_day day : -152306 <= day ->
  let date := day_to_date day in
  validb leapg date = true /\ nextb leapg date = day_to_date (day + 1) /\
  start_g (fst (fst date)) <= day < start_g (fst (fst date) + 1) /\ 1582 < fst (fst date).
Proof.
  intro H. destruct (march_gregorian day) as (Y & k & D & E & Hk & HY); [lia|].
  destruct (march_gregorian (day + 1)) as (Y' & k' & D' & E' & Hk' & _); [lia|].
  cbv zeta. rewrite D, D'.
  destruct (march_facts march_g start_g leapg day Y k Y' k' march_g_len start_march_g E Hk E' Hk') as (A & B & C).
  split; auto. split; auto. split; auto.
  destruct (Z_le_gt_dec (fst (fst (mdate Y k))) 1582) as [L|L]; [exfalso|lia].
  assert (start_g (fst (fst (mdate Y k)) + 1) <= start_g 1583); [|change (start_g 1583) with (-152306) in *; lia].
  clear -L. unfold start_g, start_j. lia.
Qed.

Definition ok_reform (day : Z) : bool :=
  let date := day_to_date day in
  validb leapb date && date_eqb (nextb leapb date) (day_to_date (day + 1)) &&
  (mjd2k_year_start (fst (fst date)) <=? day) && (day <? mjd2k_year_start (fst (fst date) + 1)) &&
  (fst (fst date) =? 1582) && negb (date_eqb date (1582, 10, 4)).
Lemma check_reform : check ok_reform 78 (-152384) = true.
Proof. vm_compute. reflexivity. Qed.

Lemma leap_julian date : fst (fst date) <= 1582 -> validb leapb date = validb leapj date /\ nextb leapb date = nextb leapj date.
Proof.
  destruct date as [[y m] d]. simpl fst. intro H. unfold validb, nextb, leapb.
  destruct (Z.leb_spec y 1582); [|lia]. auto.
Qed.
Lemma leap_gregorian date : 1582 < fst (fst date) -> validb leapb date = validb leapg date /\ nextb leapb date = nextb leapg date.
Proof.
  destruct date as [[y m] d]. simpl fst. intro H. unfold validb, nextb, leapb.
  destruct (Z.leb_spec y 1582); [lia|]. auto.
Qed.

(** All facts of one day *)
Lemma day_facts day : first_day <= day ->
  let date := day_to_date day in let y := fst (fst date) in
  validb leapb date = true /\
  (day = -152385 \/ day <> -152385 /\ date <> (1582, 10, 4) /\ nextb leapb date = day_to_date (day + 1)) /\
  mjd2k_year_start y <= day < mjd2k_year_start (y + 1) /\ -4716 <= y.
Proof.
  intro H. cbv zeta. destruct (Z.eq_dec day (-152385)) as [->|N].
  - rewrite julian_last. split; [reflexivity|]. split; [auto|]. cbn [fst].
    change (mjd2k_year_start 1582) with (-152661). change (mjd2k_year_start (1582 + 1)) with (-152306). lia.
  - destruct (Z_lt_le_dec day (-152385)) as [J|J].
    + destruct (julian_day day) as (A & B & C & D); [lia|].
      assert (Y : fst (fst (day_to_date day)) <= 1582).
      { destruct (Z_le_gt_dec (fst (fst (day_to_date day))) 1582) as [L|L]; auto. exfalso.
        assert (start_j 1583 <= start_j (fst (fst (day_to_date day)))) by (clear -L; unfold start_j; lia).
        change (start_j 1583) with (-152296) in *. lia. }
      destruct (leap_julian _ Y) as [-> ->]. split; [exact A|].
      split; [right; split; [exact N|]; split; [|exact B]|split; [|lia]].
      * intro Eq. rewrite Eq in C. cbn [fst] in C. change (start_j 1582) with (-152661) in C.
        assert (Q : check (fun d => negb (date_eqb (day_to_date d) (1582, 10, 4))) (Z.to_nat 276) (-152661) = true)
          by (vm_compute; reflexivity).
        pose proof (check_spec _ _ _ Q day ltac:(lia)) as Q1. cbv beta in Q1. rewrite Eq in Q1. discriminate Q1.
      * rewrite year_start_j by lia. split; [lia|].
        destruct (Z.eq_dec (fst (fst (day_to_date day))) 1582) as [E|E].
        -- rewrite E. change (mjd2k_year_start (1582 + 1)) with (-152306). lia.
        -- rewrite year_start_j by lia. lia.
    + destruct (Z_le_gt_dec (-152306) day) as [G|G].
      * destruct (gregorian_day day G) as (A & B & C & D).
        destruct (leap_gregorian _ D) as [-> ->]. split; [exact A|]. split; [right; split; [lia|]; split; [|exact B]|split; [|lia]].
        -- intro E. rewrite E in D. simpl in D. lia.
        -- rewrite !year_start_g by lia. exact C.
      * pose proof (check_spec _ _ _ check_reform day ltac:(lia)) as C. unfold ok_reform in C. cbv zeta in C.
        apply andb_true_iff in C as [C C6]. apply andb_true_iff in C as [C C5]. apply andb_true_iff in C as [C C4].
        apply andb_true_iff in C as [C C3]. apply andb_true_iff in C as [C1 C2].
        apply date_eqb_eq in C2. apply Z.leb_le in C3. apply Z.ltb_lt in C4. apply Z.eqb_eq in C5.
        split; [exact C1|]. split; [right; split; [lia|]; split; [|exact C2]|split; lia].
        intro E. rewrite E in C6. discriminate.
Qed.

(** ** Statements *)

Lemma date_epoch : day_to_date 0 = (2000, 1, 1).
Proof. reflexivity. Qed.

Lemma date_valid day : first_day <= day -> valid_date (day_to_date day).
Proof. intro H. apply validb_spec. apply (day_facts day H). Qed.

Lemma date_next day : first_day <= day -> next_date (day_to_date day) (day_to_date (day + 1)).
Proof.
  intro H. destruct (day_facts day H) as (A & B & _). destruct B as [->|(N & E & B)].
  - apply next_reform.
  - apply nextb_spec; auto.
Qed.

Lemma year_bounds day : first_day <= day ->
  mjd2k_year_start (day_to_year day) <= day < mjd2k_year_start (day_to_year day + 1) /\ -4716 <= day_to_year day.
Proof. intro H. rewrite year_core. destruct (day_facts day H) as (_ & _ & C & D). auto. Qed.

Lemma year_start_step y : -4799 <= y -> y <> 1582 ->
  mjd2k_year_start (y + 1) = mjd2k_year_start y + days_per_year y /\ (is_leap_year y = true <-> leap y).
Proof.
  intros H N.
  assert (R : forall n, 0 < n -> (Z.rem y n =? 0) = (y mod n =? 0)).
  { intros n Hn. destruct (Z.eqb_spec (Z.rem y n) 0) as [E|E]; symmetry.
    - apply Z.eqb_eq, Z.mod_divide; [lia|]. apply Z.rem_divide; [lia|exact E].
    - apply Z.eqb_neq. intro E2. apply E. apply Z.rem_divide; [lia|]. apply Z.mod_divide; [lia|exact E2]. }
  assert (L : is_leap_year y = leapb y).
  { unfold is_leap_year, leapb, leapj, leapg. rewrite !R by lia. destruct (y <=? 1582).
    - rewrite orb_true_r, andb_true_r. reflexivity.
    - rewrite orb_false_r. reflexivity. }
  split; [|rewrite L; apply leapb_spec].
  unfold days_per_year. rewrite L.
  destruct (Z_le_gt_dec y 1582) as [J|J].
  - rewrite !year_start_j by lia. unfold leapb. destruct (Z.leb_spec y 1582); [|lia].
    rewrite !start_march_j. pose proof (march_j_len (y + 4715)) as M.
    replace (y + 4715 - 4715) with y in M by lia. replace (y + 1 + 4715) with (y + 4715 + 1) by lia. lia.
  - rewrite !year_start_g by lia. unfold leapb. destruct (Z.leb_spec y 1582); [lia|].
    rewrite !start_march_g. pose proof (march_g_len (y + 4715)) as M.
    replace (y + 4715 - 4715) with y in M by lia. replace (y + 1 + 4715) with (y + 4715 + 1) by lia. lia.
Qed.

Lemma year_start_reform : mjd2k_year_start 1583 = mjd2k_year_start 1582 + 355 /\ days_per_year 1582 = 365.
Proof. split; reflexivity. Qed.

Lemma year_start_mono y y' : -4799 <= y -> y <= y' -> mjd2k_year_start y <= mjd2k_year_start y'.
Proof.
  intros H0 H. replace y' with (y + Z.of_nat (Z.to_nat (y' - y))) by lia. induction (Z.to_nat (y' - y)) as [|n IH].
  - rewrite Z.add_0_r. lia.
  - replace (y + Z.of_nat (S n)) with (y + Z.of_nat n + 1) by lia.
    destruct (Z.eq_dec (y + Z.of_nat n) 1582) as [E|E].
    + rewrite E in *. destruct year_start_reform as [A B]. change (1582 + 1) with 1583. lia.
    + destruct (year_start_step (y + Z.of_nat n) ltac:(lia) E) as [A _]. unfold days_per_year in A.
      destruct (is_leap_year _); lia.
Qed.

(** The year of a day is the one which contains it *)
Lemma year_unique day y : first_day <= day -> -4799 <= y ->
  (day_to_year day = y <-> mjd2k_year_start y <= day < mjd2k_year_start (y + 1)).
Proof.
  intros H Hy. destruct (year_bounds day H) as [B Y]. split; [intros <-; auto|]. intros B'.
  destruct (Z.lt_trichotomy (day_to_year day) y) as [L|[L|L]]; auto; exfalso.
  - pose proof (year_start_mono (day_to_year day + 1) y ltac:(lia) ltac:(lia)). lia.
  - pose proof (year_start_mono (y + 1) (day_to_year day) ltac:(lia) ltac:(lia)). lia.
Qed.

Lemma year_start_date y : -4715 <= y -> day_to_date (mjd2k_year_start y) = (y, 1, 1).
Proof.
  intro H. set (s := mjd2k_year_start y).
  assert (Hs : first_day < s).
  { unfold s. pose proof (year_start_mono (-4715) y ltac:(lia) H) as M.
    change (mjd2k_year_start (-4715)) with (-2452640) in M. unfold first_day. lia. }
  assert (M : mjd2k_year_start (y - 1) < s < mjd2k_year_start (y + 1)).
  { unfold s. assert (Q : forall z, -4799 <= z -> mjd2k_year_start z < mjd2k_year_start (z + 1)).
    { intros z Hz. destruct (Z.eq_dec z 1582) as [->|E]; [reflexivity|].
      destruct (year_start_step z Hz E) as [A _]. unfold days_per_year in A. destruct (is_leap_year z); lia. }
    split; [|apply Q; lia]. pose proof (Q (y - 1) ltac:(lia)). replace (y - 1 + 1) with y in H0 by lia. exact H0. }
  assert (Y1 : day_to_year s = y) by (apply year_unique; lia).
  assert (Y0 : day_to_year (s - 1) = y - 1).
  { apply year_unique; try lia. replace (y - 1 + 1) with y by lia. lia. }
  pose proof (date_next (s - 1) ltac:(lia)) as N. replace (s - 1 + 1) with s in N by lia.
  rewrite year_core in Y0, Y1. revert Y0 Y1 N.
  generalize (day_to_date (s - 1)) (day_to_date s). intros a b Y0 Y1 N.
  destruct N as [|y0 m d n L Lt Ne|y0 m d L Lt|y0 d L]; cbn [fst] in Y0, Y1; try lia.
  f_equal. f_equal. lia.
Qed.

(** ** No overflow of the 32 bit arithmetic *)

Ltac Zify.zify_post_hook ::= idtac.

Lemma no_overflow day : first_day <= day <= 500000000 -> List.Forall int32 (intermediates day).
Proof.
  unfold first_day. intros [H1 H2].
  set (d := jd_of day). assert (Hd : -1401 <= d <= 502451545) by (unfold d, jd_of; lia).
  set (q := Z.quot (4 * d + 274277) 146097).
  assert (Hq : 0 <= q <= 14000).
  { unfold q. rewrite Z.quot_div_nonneg by lia. split; [apply Z.div_pos; lia|].
    apply Z.div_le_upper_bound; lia. }
  set (q3 := Z.quot (q * 3) 4).
  assert (Hq3 : 0 <= q3 <= 10500).
  { unfold q3. rewrite Z.quot_div_nonneg by lia. split; [apply Z.div_pos; lia|]. apply Z.div_le_upper_bound; lia. }
  set (f := f_of d).
  assert (Hf : 0 <= f <= 502500000).
  { unfold f, f_of. destruct (Z.ltb_spec 2299160 d); fold q; fold q3; lia. }
  set (e := e_of f). assert (He : 0 <= e <= 2010000003) by (unfold e, e_of; lia).
  set (r := Z.rem e 1461). assert (Hr : 0 <= r < 1461) by (apply Z.rem_bound_pos; lia).
  set (r4 := Z.quot r 4).
  assert (Hr4 : 0 <= r4 <= 365).
  { unfold r4. rewrite Z.quot_div_nonneg by lia. split; [apply Z.div_pos; lia|].
    apply Z.lt_succ_r, Z.div_lt_upper_bound; lia. }
  set (h := h_of e). assert (Hh : 2 <= h <= 1827) by (unfold h, h_of; fold r; fold r4; lia).
  set (h1 := Z.rem h 153). assert (Hh1 : 0 <= h1 < 153) by (apply Z.rem_bound_pos; lia).
  set (h2 := Z.quot h 153).
  assert (Hh2 : 0 <= h2 <= 11).
  { unfold h2. rewrite Z.quot_div_nonneg by lia. split; [apply Z.div_pos; lia|]. apply Z.lt_succ_r, Z.div_lt_upper_bound; lia. }
  set (h3 := Z.quot h1 5).
  assert (Hh3 : 0 <= h3 <= 31).
  { unfold h3. rewrite Z.quot_div_nonneg by lia. split; [apply Z.div_pos; lia|]. apply Z.lt_succ_r, Z.div_lt_upper_bound; lia. }
  set (mo := month_of h).
  assert (Hm : 1 <= mo <= 12).
  { unfold mo, month_of. fold h2. pose proof (Z.rem_bound_pos (h2 + 2) 12). lia. }
  set (ey := Z.quot e 1461).
  assert (Hey : 0 <= ey <= 1400000).
  { unfold ey. rewrite Z.quot_div_nonneg by lia. split; [apply Z.div_pos; lia|]. apply Z.div_le_upper_bound; lia. }
  set (mq := Z.quot (14 - mo) 12).
  assert (Hmq : 0 <= mq <= 1).
  { unfold mq. rewrite Z.quot_div_nonneg by lia. split; [apply Z.div_pos; lia|]. apply Z.lt_succ_r, Z.div_lt_upper_bound; lia. }
  unfold intermediates. cbv zeta. fold d. fold q. fold q3. fold f. fold e. fold r. fold r4. fold h. fold h1. fold h2. fold h3. fold mo. fold ey. fold mq.
  assert (Hy : year_of e mo = ey - 4716 + mq) by reflexivity. rewrite Hy.
  unfold int32. repeat (apply List.Forall_cons; [lia|]). apply List.Forall_nil.
Qed.

(** Before the first day the formulas are wrong. *)
Lemma before_first_day : exists day, day < first_day /\ ~ next_date (day_to_date day) (day_to_date (day + 1)).
Proof.
  exists (first_day - 1). split; [lia|].
  change (day_to_date (first_day - 1)) with (-4716, 3, 1).
  change (day_to_date (first_day - 1 + 1)) with (-4716, 3, 1).
  intro H. inversion H; lia.
Qed.

Lemma ex_dates : day_to_date (-152385) = (1582, 10, 4) /\ day_to_date (-152384) = (1582, 10, 15) /\
  day_to_date 59 = (2000, 2, 29) /\ day_to_date 9816 = (2026, 11, 16) /\ day_to_date (-36466) = (1900, 2, 28) /\
  day_to_date (-36465) = (1900, 3, 1) /\ mjd2k_year_start 2027 = 9862.
Proof. repeat split; reflexivity. Qed.
