(** Proofs about the sub-solar point of the quasi-dipole library. *)

From Coq Require Import Bool List ZArith Reals Lra Lia.
From Verif Require Import TimeModel GeoModel SunModel QdTimeModel QdSunModel.
From Verif Require Import CoordSpec SunSpec QdSunSpec.
From Verif Require Import Atan2Proofs TimeProofs DecimalProofs SunProofs QdTimeProofs QdCivilProofs.
Import ListNotations.

Ltac Zify.zify_post_hook ::= Z.to_euclidean_division_equations.

Open Scope Z_scope.

(** the days from 2000-01-01 to the first day of a year *)
Lemma nleap_spec y : 1601 <= y <= 2100 -> exists v, subsol_nleap y = Returns v /\ 365 * (y - 2000) + v = start_g y.
Proof.
  intros Hy. unfold subsol_nleap, start_g, start_j.
  replace ((y + 4799) / 400) with ((y - 1601) / 400 + 16) by lia.
  replace ((y + 4799) / 100) with ((y - 1601) / 100 + 64) by lia.
  replace ((y + 4799) / 4) with ((y - 1601) / 4 + 1600) by lia.
  rewrite !Z.quot_div_nonneg by lia.
  destruct (Z.leb_spec y 1900).
  - destruct (Z.leb_spec y 1600); [lia|]. eexists. split; [reflexivity|]. lia.
  - destruct (Z.leb_spec 2101 y); [lia|]. eexists. split; [reflexivity|]. lia.
Qed.

Lemma nleap_stop y : y <= 1600 \/ 2101 <= y -> subsol_nleap y = Terminated.
Proof.
  intros Hy. unfold subsol_nleap. destruct (Z.leb_spec y 1900).
  - destruct (Z.leb_spec y 1600); [reflexivity|lia].
  - destruct (Z.leb_spec 2101 y); [reflexivity|lia].
Qed.

Ltac Zify.zify_post_hook ::= idtac.
Open Scope R_scope.

Lemma abs_le x a : Rabs x <= a -> - a <= x <= a.
Proof. intros H. unfold Rabs in H. destruct (Rcase_abs x); lra. Qed.

Lemma sin_degrees_Z x k : sin (one_degree * (x + 360 * IZR k)) = sin (one_degree * x).
Proof.
  rewrite <- (sin_period_Z (one_degree * x) (- k)). f_equal. rewrite opp_IZR. unfold one_degree. field.
Qed.

Lemma cos_degrees_Z x k : cos (one_degree * (x + 360 * IZR k)) = cos (one_degree * x).
Proof.
  rewrite <- (cos_period_Z (one_degree * x) (- k)). f_equal. rewrite opp_IZR. unfold one_degree. field.
Qed.

(** The declination and the right ascension of a point of the ecliptic *)
Lemma ecliptic_point l e : 0 < cos e ->
  direction (asin (sin e * sin l) * R2D) (atan2 (cos e * sin l) (cos l) * R2D) = ecliptic_direction l e.
Proof.
  intros He. unfold direction, ecliptic_direction.
  assert (D : forall x, one_degree * (x * R2D) = x) by (intros x; unfold one_degree, R2D; pose proof PI_RGT_0; field; lra).
  rewrite !D.
  assert (Hb : -1 <= sin e * sin l <= 1) by (apply bounded_product; apply SIN_bound).
  assert (Hnz : cos l <> 0 \/ cos e * sin l <> 0).
  { destruct (Req_dec (cos l) 0) as [E|E]; [right|now left].
    pose proof (sin2_cos2 l) as P. unfold Rsqr in P. rewrite E in P.
    apply Rmult_integral_contrapositive_currified; [lra|intros Q; rewrite Q in P; lra]. }
  assert (Hcd : cos (asin (sin e * sin l)) = norm2d (cos l) (cos e * sin l)).
  { rewrite cos_asin by exact Hb. unfold norm2d. f_equal.
    pose proof (sin2_cos2 l) as P1. pose proof (sin2_cos2 e) as P2. unfold Rsqr in *.
    replace (cos l * cos l) with (1 - sin l * sin l) by lra.
    replace (cos e * sin l * (cos e * sin l)) with (sin l * sin l * (cos e * cos e)) by ring.
    replace (cos e * cos e) with (1 - sin e * sin e) by lra. ring. }
  rewrite Hcd. destruct (atan2_cos_sin (cos e * sin l) (cos l) Hnz) as [-> ->].
  rewrite sin_asin by exact Hb. now rewrite (Rmult_comm (cos e)), (Rmult_comm (sin e)).
Qed.

Lemma direction_turns lat lon k : direction lat (lon + 360 * IZR k) = direction lat lon.
Proof. unfold direction. now rewrite sin_degrees_Z, cos_degrees_Z. Qed.

Lemma nint_range x : -180 <= x - IZR (360 * nint (x / 360)) <= 180.
Proof.
  pose proof (nint_error (x / 360)) as H. rewrite mult_IZR. apply abs_le in H. lra.
Qed.

Lemma obliquity_degrees n : Rabs n <= 1e6 -> 0 < cos (one_degree * ecliptic_obliquity n).
Proof.
  intros H. apply abs_le in H. unfold ecliptic_obliquity, one_degree. pose proof PI_RGT_0.
  apply cos_gt_0; nra.
Qed.

Lemma subsol_spec y idoy h mi s u : (1601 <= y <= 2100)%Z ->
  (exists k : Z, IZR (h * 3600 + mi * 60) + s = 86400 * (u - IZR k)) ->
  (IZR (h * 3600 + mi * 60) + s) / 86400 + IZR (idoy - 1 + start_g y) = u -> Rabs u <= 5e5 ->
  exists lat lon, subsol y idoy h mi s = Returns (lat, lon) /\
    -90 <= lat <= 90 /\ -180 <= lon <= 180 /\ under_the_sun implemented_longitude u lat lon.
Proof.
  intros Hy [k Hk] Hu Hb. unfold subsol. destruct (nleap_spec y Hy) as (v & -> & Hv). cbv zeta.
  set (ut := IZR (h * 3600 + mi * 60) + s) in *.
  set (df := ut / 86400 - 1.5 + IZR idoy).
  assert (En : df + IZR (365 * (y - 2000) + v) = u - 1 / 2).
  { rewrite Hv, <- Hu. unfold df. rewrite !plus_IZR, minus_IZR. lra. }
  rewrite En.
  assert (Edf : df = u - 1 / 2 - 365 * IZR (y - 2000) - IZR v) by (rewrite <- En, plus_IZR, mult_IZR; ring).
  clearbody df. subst df.
  match goal with |- context [1.915 * sin (?g * D2R)] => set (G := g) end.
  assert (EG : G = sun_mean_anomaly (u - 1 / 2) + 360 * IZR (- (y - 2000) - 1)).
  { unfold G, sun_mean_anomaly. rewrite !minus_IZR, !opp_IZR, !minus_IZR, mult_IZR. lra. }
  match goal with |- context [?l + 1.915 * sin (G * D2R)] => set (L := l) end.
  assert (EL : L = sun_mean_longitude implemented_longitude (u - 1 / 2) + 360 * IZR (- (y - 2000) - 1)).
  { unfold L, sun_mean_longitude, implemented_longitude. rewrite !minus_IZR, !opp_IZR, !minus_IZR, mult_IZR. lra. }
  clearbody L G. set (kk := (- (y - 2000) - 1)%Z) in *. clearbody kk.
  assert (DR : forall x, x * D2R = one_degree * x) by (intros x; unfold D2R, one_degree; ring).
  rewrite !DR.
  assert (S1 : sin (one_degree * G) = sin (one_degree * sun_mean_anomaly (u - 1 / 2))) by (rewrite EG; apply sin_degrees_Z).
  assert (S2 : sin (2 * (one_degree * G)) = sin (2 * (one_degree * sun_mean_anomaly (u - 1 / 2)))).
  { replace (2 * (one_degree * G)) with (one_degree * (2 * sun_mean_anomaly (u - 1 / 2) + 360 * IZR (2 * kk)))
      by (rewrite EG, mult_IZR; ring). rewrite sin_degrees_Z. f_equal. ring. }
  rewrite S1, S2.
  set (lam := L + _ + _).
  assert (El : lam = sun_ecliptic_longitude implemented_longitude (u - 1 / 2) + 360 * IZR kk).
  { unfold lam, sun_ecliptic_longitude. rewrite EL. ring. }
  assert (Es : sin (one_degree * lam) = sin (one_degree * sun_ecliptic_longitude implemented_longitude (u - 1 / 2)))
    by (rewrite El; apply sin_degrees_Z).
  assert (Ec : cos (one_degree * lam) = cos (one_degree * sun_ecliptic_longitude implemented_longitude (u - 1 / 2)))
    by (rewrite El; apply cos_degrees_Z).
  rewrite Es, Ec. fold (ecliptic_obliquity (u - 1 / 2)).
  set (l := one_degree * sun_ecliptic_longitude implemented_longitude (u - 1 / 2)).
  set (e := one_degree * ecliptic_obliquity (u - 1 / 2)).
  set (lat := asin _ * R2D). set (al := atan2 _ _ * R2D). set (et := L - al - _). set (lo := 180 - _).
  eexists _, _. split; [reflexivity|]. split; [|split].
  - unfold lat. pose proof (asin_bound (sin e * sin l)) as B. unfold R2D.
    replace (asin (sin e * sin l) * (180 / PI)) with (asin (sin e * sin l) / PI * 180) by (field; apply PI_neq0).
    pose proof PI_RGT_0. assert (asin (sin e * sin l) = asin (sin e * sin l) / PI * PI) by (field; lra).
    set (q := asin (sin e * sin l) / PI) in *. split; nra.
  - apply nint_range.
  - unfold under_the_sun, sun_direction. fold l e.
    assert (He : 0 < cos e).
    { apply obliquity_degrees. apply abs_le in Hb. apply Rabs_le. lra. }
    rewrite <- (ecliptic_point l e He). fold lat al.
    match goal with |- direction lat (lo - IZR (360 * ?a) + _) = _ => set (k1 := a) end.
    unfold lo, et. match goal with |- context [L - al - IZR (360 * ?a)] => set (k2 := a) end.
    rewrite <- (direction_turns lat al (- k1 + k2 - kk + k)). f_equal.
    unfold greenwich. rewrite EL. rewrite !plus_IZR, minus_IZR, plus_IZR, opp_IZR, !mult_IZR.
    replace ut with (86400 * (u - IZR k)) by (symmetry; exact Hk). field.
Qed.

Lemma floor_whole n : floor (IZR n) = n.
Proof. apply floor_unique. lra. Qed.

(** INT is the day, but before 2000 it is the next one *)
Lemma c_int_day t : (0 <= t \/ whole t -> c_int t = floor t) /\
  (t < 0 -> ~ whole t -> c_int t = (floor t + 1)%Z).
Proof.
  split.
  - intros [H|[n ->]]; [now apply c_int_nonneg|].
    unfold c_int. destruct (Rlt_dec (IZR n) 0); [|reflexivity]. rewrite <- opp_IZR, !floor_whole. lia.
  - intros H W. unfold c_int. destruct (Rlt_dec t 0); [|lra].
    pose proof (floor_spec t) as F. rewrite (floor_unique (- t) (- (floor t + 1))); [lia|].
    rewrite opp_IZR, plus_IZR. split; [lra|].
    assert (t <> IZR (floor t)) by (intros E; apply W; now exists (floor t)). lra.
Qed.

Lemma item_spec t : -145731 <= t < 36890 -> exists lat lon u, eval_subsol_item t = Returns (lat, lon) /\
  Rabs (u - t) <= time_tolerance /\ -90 <= lat <= 90 /\ -180 <= lon <= 180 /\
  under_the_sun implemented_longitude (u + IZR (c_int t - floor t)) lat lon.
Proof.
  intros Ht. destruct (civil_years t) as (y & m & d & h & mi & s & E & _ & _ & H). specialize (H Ht) as [Hy Hs].
  unfold eval_subsol_item. rewrite E. unfold day_of_year. rewrite tmjd_day_year, nint_IZR by lia.
  apply abs_le in Hs. set (ut := IZR (h * 3600 + mi * 60) + s) in *.
  set (u := ut / 86400 + IZR (c_int t)).
  destruct (subsol_spec y (c_int t - start_g y + 1) h mi s u Hy) as (lat & lon & E1 & H1 & H2 & H3).
  - exists (c_int t). fold ut. unfold u. field.
  - fold ut. unfold u. f_equal. f_equal. lia.
  - assert (C : (floor t <= c_int t <= floor t + 1)%Z).
    { destruct (c_int_day t) as [C1 C2]. destruct (Rlt_le_dec t 0) as [N|N].
      - destruct (Req_dec t (IZR (floor t))) as [W|W].
        + rewrite C1 by (right; now exists (floor t)). lia.
        + rewrite C2; [lia|exact N|]. intros [n En]. apply W. rewrite En at 2. now rewrite floor_whole.
      - rewrite C1 by now left. lia. }
    destruct C as [C1 C2]. apply IZR_le in C1, C2. rewrite plus_IZR in C2. pose proof (floor_spec t).
    apply Rabs_le. unfold u. lra.
  - exists lat, lon, (u - IZR (c_int t - floor t)). split; [exact E1|]. split; [|split; [exact H1|split; [exact H2|]]].
    + unfold time_tolerance. apply Rabs_le. unfold u. rewrite minus_IZR. lra.
    + replace (u - IZR (c_int t - floor t) + IZR (c_int t - floor t)) with u by ring. exact H3.
Qed.

Lemma item_terminated t : eval_subsol_item t = Terminated <-> t < -145731 \/ 36890 <= t.
Proof.
  split.
  - intros H. destruct (Rlt_le_dec t (-145731)) as [A|A]; [now left|]. destruct (Rlt_le_dec t 36890) as [B|B]; [|now right].
    destruct (item_spec t (conj A B)) as (lat & lon & u & E & _). congruence.
  - intros H. destruct (civil_years t) as (y & m & d & h & mi & s & E & H1 & H2 & _).
    unfold eval_subsol_item. rewrite E. unfold subsol. rewrite nleap_stop; [reflexivity|]. destruct H as [H|H]; auto.
Qed.

Lemma eval_forall ts ps : eval_subsol ts = Returns ps -> Forall2 (fun t p => eval_subsol_item t = Returns p) ts ps.
Proof.
  revert ps. induction ts as [|t ts IH]; intros ps H; cbn [eval_subsol] in H.
  - assert (ps = []) by congruence. subst. constructor.
  - destruct (eval_subsol_item t) as [p|] eqn:E; [|discriminate]. destruct (eval_subsol ts) as [qs|]; [|discriminate].
    assert (ps = p :: qs) by congruence. subst. constructor; auto.
Qed.

Lemma eval_terminated ts : eval_subsol ts = Terminated <-> exists t, In t ts /\ (t < -145731 \/ 36890 <= t).
Proof.
  induction ts as [|t ts IH]; cbn [eval_subsol In].
  - split; [discriminate|]. intros (t & [] & _).
  - destruct (eval_subsol_item t) as [p|] eqn:E.
    + destruct (eval_subsol ts) as [qs|].
      * split; [discriminate|]. intros (t' & [<-|H] & B).
        -- apply item_terminated in B. congruence.
        -- destruct IH as [_ IH]. discriminate IH. now exists t'.
      * split; [|reflexivity]. intros _. destruct IH as [IH _]. destruct (IH eq_refl) as (t' & H & B).
        exists t'. split; [now right|exact B].
    + split; [|reflexivity]. intros _. exists t. split; [now left|]. now apply item_terminated.
Qed.

Lemma item_range t p : eval_subsol_item t = Returns p -> -145731 <= t < 36890.
Proof.
  intros H. destruct (Rlt_le_dec t (-145731)) as [A|A].
  - assert (E : eval_subsol_item t = Terminated) by (apply item_terminated; now left). congruence.
  - destruct (Rlt_le_dec t 36890) as [B|B]; [now split|].
    assert (E : eval_subsol_item t = Terminated) by (apply item_terminated; now right). congruence.
Qed.

Lemma subsol_position ts ps : eval_subsol ts = Returns ps ->
  Forall2 (fun t p => -90 <= fst p <= 90 /\ -180 <= snd p <= 180 /\
    exists u, Rabs (u - t) <= time_tolerance /\
      (0 <= t \/ whole t -> under_the_sun implemented_longitude u (fst p) (snd p)) /\
      (t < 0 -> ~ whole t -> under_the_sun implemented_longitude (u + 1) (fst p) (snd p))) ts ps.
Proof.
  intros H. apply eval_forall in H. induction H as [|t p ts ps H _ IH]; [constructor|constructor; [|exact IH]].
  destruct (item_spec t (item_range t p H)) as (lat & lon & u & E & H1 & H2 & H3 & H4).
  assert (p = (lat, lon)) by congruence. subst p. cbn [fst snd]. split; [exact H2|]. split; [exact H3|].
  exists u. split; [exact H1|]. destruct (c_int_day t) as [C1 C2]. split.
  - intros C. rewrite (C1 C), Z.sub_diag, Rplus_0_r in H4. exact H4.
  - intros Ca Cb. rewrite (C2 Ca Cb) in H4. replace (floor t + 1 - floor t)%Z with 1%Z in H4 by lia. exact H4.
Qed.

(** ** Different directions *)

Lemma sin_difference a b : a < b -> exists c, sin b - sin a = cos c * (b - a) /\ a < c < b.
Proof. intros H. exact (MVT_cor2 sin cos a b H (fun c _ => derivable_pt_lim_sin c)). Qed.

Lemma sin_lipschitz a b : Rabs (sin a - sin b) <= Rabs (a - b).
Proof.
  assert (L : forall x y, x < y -> Rabs (sin y - sin x) <= Rabs (y - x)).
  { intros x y H. destruct (sin_difference x y H) as (c & E & _). rewrite E, Rabs_mult.
    pose proof (COS_bound c). pose proof (Rabs_pos (y - x)). assert (Rabs (cos c) <= 1) by (apply Rabs_le; lra). nra. }
  destruct (Rtotal_order a b) as [H|[->|H]].
  - rewrite Rabs_minus_sym, (Rabs_minus_sym a). now apply L.
  - rewrite !Rminus_eq_0. lra.
  - now apply L.
Qed.

Lemma sin_growth a b : - (PI / 3) <= a -> a < b -> b <= PI / 3 -> (b - a) / 2 <= sin b - sin a.
Proof.
  intros Ha H Hb. destruct (sin_difference a b H) as (c & E & Hc). rewrite E.
  pose proof PI_RGT_0.
  assert (1 / 2 <= cos c); [|nra]. rewrite <- cos_PI3. destruct (Rle_dec 0 c).
  - apply cos_decr_1; lra.
  - rewrite <- (cos_neg c). apply cos_decr_1; lra.
Qed.

Lemma one_degree_bounds : 3 / 180 < one_degree <= 4 / 180.
Proof. unfold one_degree. pose proof PI_4. pose proof PI2_3_2. lra. Qed.

Lemma different_directions l1 u1 l2 u2 k lat lon :
  let a := sun_ecliptic_longitude l1 (u1 - 1 / 2) - 360 * IZR k in
  let b := sun_ecliptic_longitude l2 (u2 - 1 / 2) - 360 * IZR k in
  -60 <= b -> b < a -> a <= 60 -> Rabs u1 <= 1000 -> Rabs u2 <= 1000 ->
  Rabs (u1 - u2) * 1e-5 < a - b ->
  under_the_sun l1 u1 lat lon -> under_the_sun l2 u2 lat lon -> False.
Proof.
  cbv zeta. set (a := sun_ecliptic_longitude l1 _ - _). set (b := sun_ecliptic_longitude l2 _ - _).
  intros Hb Hab Ha H1 H2 Hd U1 U2. unfold under_the_sun, sun_direction, direction, ecliptic_direction in U1, U2.
  assert (E1 := f_equal snd U1). assert (E2 := f_equal snd U2). cbn [snd] in E1, E2. clear U1 U2.
  rewrite E1 in E2. clear E1.
  replace (sun_ecliptic_longitude l1 (u1 - 1 / 2)) with (a + 360 * IZR k) in E2 by (unfold a; ring).
  replace (sun_ecliptic_longitude l2 (u2 - 1 / 2)) with (b + 360 * IZR k) in E2 by (unfold b; ring).
  rewrite !sin_degrees_Z in E2. clearbody a b.
  set (e1 := ecliptic_obliquity (u1 - 1 / 2)) in *. set (e2 := ecliptic_obliquity (u2 - 1 / 2)) in *.
  apply abs_le in H1, H2. pose proof one_degree_bounds as O. set (o := one_degree) in *.
  assert (OP : o * 60 = PI / 3) by (unfold o, one_degree; lra). clearbody o.
  assert (He1 : 23 <= e1 <= 24) by (unfold e1, ecliptic_obliquity; lra).
  assert (He2 : e1 - e2 = 4e-7 * (u2 - u1)) by (unfold e1, e2, ecliptic_obliquity; lra).
  assert (G1 : (o * a - o * b) / 2 <= sin (o * a) - sin (o * b)) by (apply sin_growth; nra).
  assert (G2 : o * e1 / 2 <= sin (o * e1)).
  { pose proof (sin_growth 0 (o * e1)) as G. rewrite sin_0 in G. assert (0 < o * e1) by nra. assert (o * e1 <= PI / 3) by nra.
    specialize (G ltac:(lra) ltac:(lra) ltac:(lra)). lra. }
  pose proof (sin_lipschitz (o * e1) (o * e2)) as G3.
  assert (A3 : Rabs (o * e1 - o * e2) = o * (4e-7 * Rabs (u1 - u2))).
  { replace (o * e1 - o * e2) with (o * (e1 - e2)) by ring. rewrite He2.
    rewrite !Rabs_mult, (Rabs_pos_eq o) by lra. rewrite (Rabs_pos_eq 4e-7) by lra. now rewrite (Rabs_minus_sym u2). }
  rewrite A3 in G3. apply abs_le in G3.
  set (D := Rabs (u1 - u2)) in *. assert (0 <= D) by apply Rabs_pos. clearbody D.
  pose proof (SIN_bound (o * b)) as B.
  set (sa := sin (o * a)) in *. set (sb := sin (o * b)) in *. set (se1 := sin (o * e1)) in *. set (se2 := sin (o * e2)) in *.
  clearbody sa sb se1 se2.
  assert (K : se1 * (sa - sb) = sb * (se2 - se1)) by (transitivity (sa * se1 - sb * se1); [ring|rewrite E2; ring]).
  assert (K1 : sb * (se2 - se1) <= o * (4e-7 * D)).
  { destruct (Rle_dec 0 (se2 - se1)); nra. }
  assert (K2 : o * 23 / 2 * ((o * a - o * b) / 2) <= se1 * (sa - sb)).
  { apply Rmult_le_compat; try nra. }
  assert (K3 : o * (o * 23 / 4 * (a - b)) <= o * (4e-7 * D)) by nra.
  assert (K4 : o * 23 / 4 * (a - b) <= 4e-7 * D) by nra.
  nra.
Qed.

Lemma longitude_bounds l0 n : Rabs (sun_ecliptic_longitude l0 n - sun_mean_longitude l0 n) <= 1.935.
Proof.
  unfold sun_ecliptic_longitude.
  pose proof (SIN_bound (one_degree * sun_mean_anomaly n)). pose proof (SIN_bound (2 * (one_degree * sun_mean_anomaly n))).
  apply Rabs_le. lra.
Qed.

Lemma longitude_difference l1 n1 l2 n2 :
  Rabs (sun_ecliptic_longitude l1 n1 - sun_ecliptic_longitude l2 n2
        - (sun_mean_longitude l1 n1 - sun_mean_longitude l2 n2)) <= 0.05 * Rabs (n1 - n2).
Proof.
  unfold sun_ecliptic_longitude.
  pose proof (sin_lipschitz (one_degree * sun_mean_anomaly n1) (one_degree * sun_mean_anomaly n2)) as A.
  pose proof (sin_lipschitz (2 * (one_degree * sun_mean_anomaly n1)) (2 * (one_degree * sun_mean_anomaly n2))) as B.
  replace (one_degree * sun_mean_anomaly n1 - one_degree * sun_mean_anomaly n2)
    with (one_degree * 0.9856003 * (n1 - n2)) in A by (unfold sun_mean_anomaly; ring).
  replace (2 * (one_degree * sun_mean_anomaly n1) - 2 * (one_degree * sun_mean_anomaly n2))
    with (2 * one_degree * 0.9856003 * (n1 - n2)) in B by (unfold sun_mean_anomaly; ring).
  pose proof one_degree_bounds as O. rewrite Rabs_mult, (Rabs_pos_eq (one_degree * _)) in A by lra.
  rewrite Rabs_mult, (Rabs_pos_eq (2 * one_degree * _)) in B by lra.
  apply abs_le in A, B. set (D := Rabs (n1 - n2)) in *. assert (0 <= D) by apply Rabs_pos. apply Rabs_le.
  set (o := one_degree) in *. clearbody o D. split; nra.
Qed.

(** ** The wrong day *)

Lemma wrong_day : exists t lat lon, -366 < t < 0 /\ eval_subsol [t] = Returns [(lat, lon)] /\
  forall l0 u, l0 = almanac_longitude \/ l0 = implemented_longitude -> Rabs (u - t) <= 1 / 24 -> ~ under_the_sun l0 u lat lon.
Proof.
  destruct (item_spec (-286.5) ltac:(lra)) as (lat & lon & u & E & H1 & _ & _ & H4).
  exists (-286.5), lat, lon. split; [lra|]. cbn [eval_subsol]. rewrite E. split; [reflexivity|].
  assert (Ec : c_int (-286.5) = (-286)%Z).
  { unfold c_int. destruct (Rlt_dec (-286.5) 0); [|lra]. rewrite (floor_unique _ 286) by lra. reflexivity. }
  assert (Ef : floor (-286.5) = (-287)%Z) by (apply floor_unique; lra).
  rewrite Ec, Ef in H4. change (-286 - -287)%Z with 1%Z in H4. apply abs_le in H1. unfold time_tolerance in H1.
  intros l0 w Hl Hw U. apply abs_le in Hw.
  pose proof (longitude_bounds implemented_longitude (u + 1 - 1 / 2)) as B1. apply abs_le in B1.
  pose proof (longitude_bounds l0 (w - 1 / 2)) as B2. apply abs_le in B2.
  pose proof (longitude_difference implemented_longitude (u + 1 - 1 / 2) l0 (w - 1 / 2)) as B3. apply abs_le in B3.
  replace (u + 1 - 1 / 2 - (w - 1 / 2)) with (u + 1 - w) in B3 by ring.
  assert (D : Rabs (u + 1 - w) = u + 1 - w) by (apply Rabs_pos_eq; lra). rewrite D in B3.
  apply (different_directions implemented_longitude (u + 1) l0 w 0 lat lon); try assumption.
  1-3: unfold sun_mean_longitude, implemented_longitude, almanac_longitude in *; destruct Hl as [-> | ->]; lra.
  1-2: apply Rabs_le; lra.
  rewrite D. unfold sun_mean_longitude, implemented_longitude, almanac_longitude in *; destruct Hl as [-> | ->]; lra.
Qed.

(** ** The wrong mean longitude *)

Lemma wrong_longitude : exists t lat lon, 0 <= t < 366 /\ eval_subsol [t] = Returns [(lat, lon)] /\
  forall u, Rabs (u - t) <= time_tolerance -> ~ under_the_sun almanac_longitude u lat lon.
Proof.
  destruct (item_spec 80 ltac:(lra)) as (lat & lon & u & E & H1 & _ & _ & H4).
  exists 80, lat, lon. split; [lra|]. cbn [eval_subsol]. rewrite E. split; [reflexivity|].
  destruct (c_int_day 80) as [C _]. rewrite C in H4 by (left; lra). rewrite Z.sub_diag, Rplus_0_r in H4.
  apply abs_le in H1. unfold time_tolerance in *.
  intros w Hw U. apply abs_le in Hw.
  pose proof (longitude_bounds implemented_longitude (u - 1 / 2)) as B1. apply abs_le in B1.
  pose proof (longitude_bounds almanac_longitude (w - 1 / 2)) as B2. apply abs_le in B2.
  pose proof (longitude_difference almanac_longitude (w - 1 / 2) implemented_longitude (u - 1 / 2)) as B3. apply abs_le in B3.
  replace (w - 1 / 2 - (u - 1 / 2)) with (w - u) in B3 by ring.
  assert (D : Rabs (w - u) <= 2e-9) by (apply Rabs_le; lra).
  apply (different_directions almanac_longitude w implemented_longitude u 1 lat lon); try assumption.
  1-3: unfold sun_mean_longitude, implemented_longitude, almanac_longitude in *; lra.
  1-2: apply Rabs_le; lra.
  unfold sun_mean_longitude, implemented_longitude, almanac_longitude in *. lra.
Qed.

(** ** Example: winter and summer *)

Lemma latitude_sign t k lat lon : Rabs t <= 1000 -> under_the_sun implemented_longitude t lat lon -> -90 <= lat <= 90 ->
  let l := sun_mean_longitude implemented_longitude (t - 1 / 2) - 360 * IZR k in
  (2 <= l <= 178 -> 0 < lat) /\ (182 <= l <= 358 -> lat < 0).
Proof.
  cbv zeta. intros Ht U Hl. apply abs_le in Ht.
  assert (D := f_equal snd U). unfold direction, sun_direction, ecliptic_direction in D. cbn [snd] in D. clear U.
  pose proof (longitude_bounds implemented_longitude (t - 1 / 2)) as B. apply abs_le in B.
  replace (sun_ecliptic_longitude implemented_longitude (t - 1 / 2))
    with (sun_ecliptic_longitude implemented_longitude (t - 1 / 2) - 360 * IZR k + 360 * IZR k) in D by ring.
  rewrite sin_degrees_Z in D.
  set (a := sun_ecliptic_longitude _ _ - 360 * IZR k) in *. set (m := sun_mean_longitude _ _ - 360 * IZR k) in *.
  assert (B' : -1.935 <= a - m <= 1.935) by (unfold a, m; lra). clear B.
  assert (He : 23 <= ecliptic_obliquity (t - 1 / 2) <= 24) by (unfold ecliptic_obliquity; lra).
  set (e := ecliptic_obliquity _) in *. clearbody a m e.
  assert (OP : one_degree * 180 = PI) by (unfold one_degree; lra). pose proof one_degree_bounds as O. set (o := one_degree) in *.
  clearbody o.
  assert (Se : 0 < sin (o * e)) by (apply sin_gt_0; nra).
  split; intros H.
  - assert (Sa : 0 < sin (o * a)) by (apply sin_gt_0; nra).
    apply Rnot_le_lt. intros Hn. assert (sin (o * lat) <= 0); [|nra].
    assert (S : 0 <= sin (- (o * lat))) by (apply sin_ge_0; nra). rewrite sin_neg in S. lra.
  - assert (Sa : sin (o * a) < 0) by (apply sin_lt_0; nra).
    apply Rnot_le_lt. intros Hn. assert (0 <= sin (o * lat)) by (apply sin_ge_0; nra). nra.
Qed.

Lemma ex_subsol : exists p q, eval_subsol [0; 172.25] = Returns [p; q] /\ fst p < 0 /\ 0 < fst q.
Proof.
  cbn [eval_subsol].
  destruct (item_spec 0 ltac:(lra)) as (lat & lon & u & E & H1 & H2 & _ & H4).
  destruct (item_spec 172.25 ltac:(lra)) as (lat' & lon' & u' & E' & H1' & H2' & _ & H4'). rewrite E, E'.
  exists (lat, lon), (lat', lon'). split; [reflexivity|]. cbn [fst].
  destruct (c_int_day 0) as [C _]. rewrite C in H4 by (left; lra).
  destruct (c_int_day 172.25) as [C' _]. rewrite C' in H4' by (left; lra).
  rewrite Z.sub_diag, Rplus_0_r in H4, H4'. clear C C' E E'.
  apply abs_le in H1, H1'. unfold time_tolerance in *.
  split.
  - apply (latitude_sign u 0 lat lon); try assumption; [apply Rabs_le; lra|].
    unfold sun_mean_longitude, implemented_longitude. lra.
  - apply (latitude_sign u' 1 lat' lon'); try assumption; [apply Rabs_le; lra|].
    unfold sun_mean_longitude, implemented_longitude. lra.
Qed.
