(** The field depends on the position only. *)
From Coq Require Import Bool List Arith ZArith Reals Lia Lra.
From Coquelicot Require Import Coquelicot.
From Verif Require Import ArrModel LegendreModel LegendreSpec LegendrePoly LegendreGauss LegendreLow LegendreHigh GeoModel CoefModel
  ShEvalModel ShEvalSpec ShEvalSum ShEvalDeriv ShEvalHarmonic ShEvalProofs ShEvalGradProofs CoordModel CoordSpec CoordProofs ConvertProofs
  FrameProofs DipoleProofs FieldSpec GradientProofs MmaFieldSpec.
Import ListNotations.
Open Scope R_scope.
Set Bullet Behavior "Strict Subproofs".

(** ** Coordinates of one position *)
Lemma one_degree_DG : one_degree = DG2RAD.
Proof. unfold one_degree, DG2RAD. field. Qed.

Lemma same_spherical lat lon r lat' lon' r' : usual CT_GEOCENTRIC_SPHERICAL (lat, lon, r) -> usual CT_GEOCENTRIC_SPHERICAL (lat', lon', r') ->
  position CT_GEOCENTRIC_SPHERICAL (lat, lon, r) = position CT_GEOCENTRIC_SPHERICAL (lat', lon', r') ->
  r' = r /\ lat' = lat /\ (cos (DG2RAD * lat) = 0 \/ (cos (DG2RAD * lon') = cos (DG2RAD * lon) /\ sin (DG2RAD * lon') = sin (DG2RAD * lon))).
Proof.
  intros [Hl Hr] [Hl' Hr'] E.
  assert (Er : r' = r). { rewrite <- (distance_sph lat lon r), <- (distance_sph lat' lon' r'), E by lra. reflexivity. }
  subst r'. rewrite !position_sph_eq in E. injection E as E1 E2 E3.
  assert (Es : sin (DG2RAD * lat) = sin (DG2RAD * lat')) by (apply (Rmult_eq_reg_l r); lra).
  assert (El : DG2RAD * lat' = DG2RAD * lat).
  { rewrite <- (asin_sin (DG2RAD * lat)), <- (asin_sin (DG2RAD * lat')) by (apply lat_range; lra). now rewrite Es. }
  assert (lat' = lat). { apply (Rmult_eq_reg_l DG2RAD); [exact El|]. unfold DG2RAD. pose proof PI_RGT_0. lra. }
  subst lat'. split; [reflexivity|]. split; [reflexivity|]. destruct (Req_dec (cos (DG2RAD * lat)) 0) as [C|C]; [now left|]. right.
  assert (K : r * cos (DG2RAD * lat) <> 0) by (apply Rmult_integral_contrapositive_currified; lra).
  split; apply (Rmult_eq_reg_l (r * cos (DG2RAD * lat))); auto.
Qed.

(** ** Longitudes which differ by full circles *)
Lemma multiples_equal ph ph' : cos ph' = cos ph -> sin ph' = sin ph ->
  forall m, cos (INR m * ph') = cos (INR m * ph) /\ sin (INR m * ph') = sin (INR m * ph).
Proof.
  intros C S. induction m as [|m [IC IS]]; [now rewrite !Rmult_0_l|].
  rewrite S_INR, !Rmult_plus_distr_r, !Rmult_1_l, !cos_plus, !sin_plus, IC, IS, C, S. split; reflexivity.
Qed.
Lemma harmonic_equal gh m ph ph' : cos ph' = cos ph -> sin ph' = sin ph -> harmonic gh m ph' = harmonic gh m ph /\ harmonic' gh m ph' = harmonic' gh m ph.
Proof. intros C S. destruct (multiples_equal ph ph' C S m) as [A B]. unfold harmonic, harmonic'. now rewrite A, B. Qed.

(** ** The poles *)
Section Pole.
Variables (th ph : R) (gh : nat -> nat -> R * R).
Hypothesis C : cos th = 0.

Lemma pole_values n : sum_f_R0 (fun m => harmonic (gh n m) m ph * schmidt n m th) n = fst (gh n 0%nat) * schmidt n 0 th.
Proof using C.
  assert (E : forall k, sum_f_R0 (fun m => harmonic (gh n m) m ph * schmidt n m th) k = fst (gh n 0%nat) * schmidt n 0 th); [|apply E].
  induction k as [|k IH]; cbn [sum_f_R0].
  - unfold harmonic. change (INR 0) with 0. rewrite Rmult_0_l, cos_0, sin_0. ring.
  - rewrite IH, (schmidt_nf n (S k)). cbn [pow]. rewrite C. ring.
Qed.

Lemma pole_slopes n : sum_f_R0 (fun m => harmonic (gh n m) m ph * schmidt' n m th) n =
  if Nat.leb 1 n then harmonic (gh n 1%nat) 1 ph * (- sin th * (nf n 1 * legendre_deriv n 1 (sin th))) else 0.
Proof using C.
  assert (E : forall k, sum_f_R0 (fun m => harmonic (gh n m) m ph * schmidt' n m th) k =
    if Nat.leb 1 k then harmonic (gh n 1%nat) 1 ph * (- sin th * (nf n 1 * legendre_deriv n 1 (sin th))) else 0); [|apply E].
  induction k as [|k IH]; cbn [sum_f_R0 Nat.leb].
  - rewrite schmidt'_eq, C. cbn [INR]. ring.
  - rewrite IH, schmidt'_eq, C. destruct k as [|k]; cbn [Nat.leb pred pow INR]; ring.
Qed.
End Pole.

(** ** The components of the gradient *)
Definition near (th : R) : bool := Rltb (Rabs (cos th)) (1 / 10 ^ 10).
Lemma near_cos th : if near th then Rabs (cos th) < 1 / 10 ^ 10 else 1 / 10 ^ 10 <= Rabs (cos th).
Proof. unfold near, Rltb. destruct (Rlt_dec (Rabs (cos th)) (1 / 10 ^ 10)); lra. Qed.

Section Field.
Variables (internal : bool) (gh : nat -> nat -> R * R) (N : nat).

Definition east_gh (th : R) : nat -> nat -> R * R := if near th then low_orders gh else gh.
Definition gradient_at (lat lon r : R) : R * R * R :=
  let th := DG2RAD * lat in let ph := DG2RAD * lon in
  (/ r * pot_el internal 6371.2 gh N r th ph, / r * az_over_cos internal 6371.2 (east_gh th) N r th ph, pot_rd internal 6371.2 gh N r th ph).

Lemma gradient_position lat lon r lat' lon' r' :
  usual CT_GEOCENTRIC_SPHERICAL (lat, lon, r) -> usual CT_GEOCENTRIC_SPHERICAL (lat', lon', r') ->
  position CT_GEOCENTRIC_SPHERICAL (lat, lon, r) = position CT_GEOCENTRIC_SPHERICAL (lat', lon', r') ->
  potential internal 6371.2 gh N r (DG2RAD * lat) (DG2RAD * lon) = potential internal 6371.2 gh N r' (DG2RAD * lat') (DG2RAD * lon') /\
  in_space CT_GEOCENTRIC_SPHERICAL (lat, lon, r) (gradient_at lat lon r) = in_space CT_GEOCENTRIC_SPHERICAL (lat', lon', r') (gradient_at lat' lon' r').
Proof using.
  intros U U' E. destruct (same_spherical _ _ _ _ _ _ U U' E) as (-> & -> & Lon). destruct U as [Hl Hr]. clear E U'.
  pose proof (lat_range lat Hl) as Hth. assert (Hr0 : r <> 0) by lra. unfold gradient_at. cbv zeta. cbn [in_space]. rewrite one_degree_DG.
  set (th := DG2RAD * lat) in *. set (ph := DG2RAD * lon) in *. set (ph' := DG2RAD * lon') in *.
  destruct Lon as [C|[C S]].
  - (* the poles *)
    assert (Ss : sin th * sin th = 1). { pose proof (sin2_cos2 th) as K. unfold Rsqr in K. rewrite C in K. lra. }
    assert (Vv : forall p, potential internal 6371.2 gh N r th p = 6371.2 * sum_f_R0 (fun n => radial internal 6371.2 n r * (fst (gh n 0%nat) * schmidt n 0 th)) N).
    { intro p. unfold potential. f_equal. apply sum_ext. intros n _. f_equal. exact (pole_values th p gh C n). }
    assert (Vr : forall p, pot_rd internal 6371.2 gh N r th p =
      6371.2 * sum_f_R0 (fun n => radial_rate internal n * radial internal 6371.2 n r / r * (fst (gh n 0%nat) * schmidt n 0 th)) N).
    { intro p. unfold pot_rd. f_equal. apply sum_ext. intros n _. f_equal. exact (pole_values th p gh C n). }
    set (k := fun n => radial internal 6371.2 n r * (if Nat.leb 1 n then nf n 1 * legendre_deriv n 1 (sin th) else 0)).
    set (A := 6371.2 * sum_f_R0 (fun n => fst (gh n 1%nat) * k n) N). set (B := 6371.2 * sum_f_R0 (fun n => snd (gh n 1%nat) * k n) N).
    assert (Ve : forall p, pot_el internal 6371.2 gh N r th p = - sin th * (cos p * A + sin p * B)).
    { intro p. unfold pot_el, A, B. transitivity (6371.2 * (- sin th * (cos p * sum_f_R0 (fun n => fst (gh n 1%nat) * k n) N + sin p * sum_f_R0 (fun n => snd (gh n 1%nat) * k n) N))); [|ring].
      f_equal. rewrite <- !sum_scal, <- sum_add, <- sum_scal. apply sum_ext. intros n _. rewrite (pole_slopes th p gh C n).
      unfold k, harmonic. cbn [INR]. rewrite Rmult_1_l. destruct (Nat.leb 1 n); ring. }
    assert (Va : forall p, az_over_cos internal 6371.2 (east_gh th) N r th p = cos p * B - sin p * A).
    { intro p. rewrite az_over_cos_pole by exact C. unfold A, B.
      transitivity (6371.2 * (cos p * sum_f_R0 (fun n => snd (gh n 1%nat) * k n) N + - (sin p * sum_f_R0 (fun n => fst (gh n 1%nat) * k n) N))); [|ring].
      f_equal. rewrite <- !sum_scal, <- sum_opp, <- sum_add. apply sum_ext. intros n _.
      replace (east_gh th n 1%nat) with (gh n 1%nat) by (unfold east_gh; destruct (near th); reflexivity).
      unfold k, harmonic'. cbn [INR]. rewrite Rmult_1_l. destruct (Nat.leb 1 n); ring. }
    split; [rewrite !Vv; reflexivity|]. rewrite !Vr, !Ve, !Va, C.
    assert (G : forall p u, (- (/ r * (- sin th * (cos p * A + sin p * B))) * sin th * cos p - / r * (cos p * B - sin p * A) * sin p + u * 0 * cos p,
      - (/ r * (- sin th * (cos p * A + sin p * B))) * sin th * sin p + / r * (cos p * B - sin p * A) * cos p + u * 0 * sin p,
      / r * (- sin th * (cos p * A + sin p * B)) * 0 + u * sin th) = (/ r * A, / r * B, u * sin th)).
    { intros p u. pose proof (sin2_cos2 p) as K. unfold Rsqr in K. f_equal; [f_equal|ring].
      - transitivity (/ r * ((sin th * sin th) * (cos p * cos p * A + sin p * cos p * B) - cos p * sin p * B + sin p * sin p * A)); [ring|].
        rewrite Ss. replace (cos p * cos p) with (1 - sin p * sin p) by lra. ring.
      - transitivity (/ r * ((sin th * sin th) * (cos p * sin p * A + sin p * sin p * B) + cos p * cos p * B - sin p * cos p * A)); [ring|].
        rewrite Ss. replace (cos p * cos p) with (1 - sin p * sin p) by lra. ring. }
    rewrite !G. reflexivity.
  - (* elsewhere *)
    assert (H : forall g m, harmonic g m ph' = harmonic g m ph /\ harmonic' g m ph' = harmonic' g m ph) by (intros; now apply harmonic_equal).
    assert (V1 : potential internal 6371.2 gh N r th ph' = potential internal 6371.2 gh N r th ph).
    { unfold potential. f_equal. apply sum_ext. intros n _. f_equal. apply sum_ext. intros m _. f_equal. apply H. }
    assert (V2 : pot_el internal 6371.2 gh N r th ph' = pot_el internal 6371.2 gh N r th ph).
    { unfold pot_el. f_equal. apply sum_ext. intros n _. f_equal. apply sum_ext. intros m _. f_equal. apply H. }
    assert (V3 : pot_rd internal 6371.2 gh N r th ph' = pot_rd internal 6371.2 gh N r th ph).
    { unfold pot_rd. f_equal. apply sum_ext. intros n _. f_equal. apply sum_ext. intros m _. f_equal. apply H. }
    assert (V4 : az_over_cos internal 6371.2 (east_gh th) N r th ph' = az_over_cos internal 6371.2 (east_gh th) N r th ph).
    { unfold az_over_cos. f_equal. apply sum_ext. intros n _. f_equal. apply sum_ext. intros m _. f_equal. apply H. }
    rewrite V1, V2, V3, V4, C, S. split; reflexivity.
Qed.

Definition opposite (v : R * R * R) : R * R * R := let '(a, b, c) := v in (- a, - b, - c).
Lemma space_opposite ct c v w c' ct' : in_space ct c v = in_space ct' c' w -> in_space ct c (opposite v) = in_space ct' c' (opposite w).
Proof using.
  assert (K : forall ct c v, in_space ct c (opposite v) = opposite (in_space ct c v)).
  { clear. intros ct [[la lo] r] [[a b] c]. destruct ct; cbn [in_space opposite]; [| |reflexivity]; (f_equal; [f_equal|]; ring). }
  intro E. now rewrite !K, E.
Qed.

(** ** The field *)
Lemma gradient_field lat lon rad : -90 <= lat <= 90 -> rad <> 0 -> field_of internal gh N lat lon rad (opposite (gradient_at lat lon rad)).
Proof using.
  intros Hl Hr. unfold gradient_at, opposite, field_of. cbv zeta. rewrite !ShEvalGradProofs.deg_rad.
  pose proof (lat_range lat Hl) as Hth. set (th := DG2RAD * lat) in *. set (ph := DG2RAD * lon).
  assert (Hcos : 0 <= cos th) by (apply cos_ge_0; apply Hth). pose proof (near_cos th) as Hn. rewrite Rabs_pos_eq in Hn by exact Hcos.
  split; [|split; [|split; [|split]]].
  - eapply Rderive_eq; [|apply potential_el; auto using ref_nz]. field. exact Hr.
  - rewrite Ropp_involutive. apply potential_rd; auto using ref_nz.
  - intro K. unfold east_gh. destruct (near th); [lra|]. rewrite <- az_over_cos_eq by lra.
    eapply Rderive_eq; [|apply potential_az; auto using ref_nz]. field. split; lra.
  - intro K. unfold east_gh. destruct (near th); [|lra]. rewrite <- az_over_cos_eq by lra.
    eapply Rderive_eq; [|apply potential_az; auto using ref_nz]. field. split; lra.
  - intro K. assert (El : az_over_cos internal 6371.2 (east_gh th) N rad th ph = az_over_cos internal 6371.2 gh N rad th ph).
    { unfold east_gh. destruct (near th); [|reflexivity]. rewrite az_over_cos_low. symmetry. now apply az_over_cos_pole. }
    rewrite El.
    assert (P : th = PI / 2 \/ th = - (PI / 2)).
    { destruct (Rle_lt_or_eq_dec _ _ (proj1 Hth)) as [L1|E1]; [|right; lra]. destruct (Rle_lt_or_eq_dec _ _ (proj2 Hth)) as [L2|E2]; [|left; exact E2].
      pose proof (cos_gt_0 th L1 L2). lra. }
    pose proof (pole_limit internal 6371.2 gh N ref_nz th rad ph P Hr) as Lm.
    replace (- (/ rad * az_over_cos internal 6371.2 gh N rad th ph)) with (- (az_over_cos internal 6371.2 gh N rad th ph / rad)) by (unfold Rdiv; ring).
    exact (is_lim_opp _ _ _ Lm).
Qed.

Lemma field_unique lat lon rad g g' : -90 <= lat <= 90 -> rad <> 0 ->
  field_of internal gh N lat lon rad g -> field_of internal gh N lat lon rad g' -> g = g'.
Proof using.
  intros Hl Hr. destruct g as [[n e] u], g' as [[n' e'] u']. unfold field_of. cbv zeta. rewrite !ShEvalGradProofs.deg_rad.
  pose proof (lat_range lat Hl) as Hth. set (th := DG2RAD * lat) in *. set (ph := DG2RAD * lon).
  intros (A1 & A2 & A3 & A4 & A5) (B1 & B2 & B3 & B4 & B5).
  assert (Hcos : 0 <= cos th) by (apply cos_ge_0; apply Hth).
  assert (En : n = n'). { apply is_derive_unique in A1, B1. apply (Rmult_eq_reg_l rad); [lra|exact Hr]. }
  assert (Eu : u = u') by (apply is_derive_unique in A2, B2; lra).
  assert (Ee : e = e').
  { destruct (Req_dec (cos th) 0) as [C|C].
    - specialize (A5 C). specialize (B5 C). apply is_lim_unique in A5, B5. rewrite A5 in B5. now injection B5.
    - assert (K : rad * cos th <> 0) by (now apply Rmult_integral_contrapositive_currified). apply (Rmult_eq_reg_l (rad * cos th)); [|exact K].
      destruct (Rle_dec (1 / 10 ^ 10) (cos th)) as [L|L].
      + specialize (A3 L). specialize (B3 L). apply is_derive_unique in A3, B3. lra.
      + assert (L' : 0 < cos th < 1 / 10 ^ 10) by lra. specialize (A4 L'). specialize (B4 L'). apply is_derive_unique in A4, B4. lra. }
  now subst.
Qed.

(** The field at other coordinates of the same position is the same vector in space. *)
Lemma field_position d0 d1 d2 e0 e1 e2 g g' : usual CT_GEOCENTRIC_SPHERICAL (d0, d1, d2) -> usual CT_GEOCENTRIC_SPHERICAL (e0, e1, e2) ->
  position CT_GEOCENTRIC_SPHERICAL (d0, d1, d2) = position CT_GEOCENTRIC_SPHERICAL (e0, e1, e2) ->
  field_of internal gh N d0 d1 d2 g -> field_of internal gh N e0 e1 e2 g' ->
  in_space CT_GEOCENTRIC_SPHERICAL (d0, d1, d2) g = in_space CT_GEOCENTRIC_SPHERICAL (e0, e1, e2) g'.
Proof using.
  intros U U' E F F'. pose proof U as [Hl Hr]. pose proof U' as [Hl' Hr'].
  assert (N1 : d2 <> 0) by lra. assert (N2 : e2 <> 0) by lra.
  rewrite (field_unique _ _ _ _ _ Hl N1 F (gradient_field d0 d1 d2 Hl N1)), (field_unique _ _ _ _ _ Hl' N2 F' (gradient_field e0 e1 e2 Hl' N2)).
  apply space_opposite. now apply gradient_position.
Qed.
Lemma field_exists lat lon rad : -90 <= lat <= 90 -> rad <> 0 -> exists g, field_of internal gh N lat lon rad g.
Proof using. intros Hl Hr. eexists. now apply gradient_field. Qed.
End Field.
