(** The change of the field with the coefficients. *)
From Coq Require Import Bool List Arith ZArith Reals Lia Lra.
From Coquelicot Require Import Coquelicot.
From Verif Require Import ArrModel LegendreModel LegendreSpec GeoModel CoefModel ShEvalModel ShEvalSpec ShEvalSum ShEvalDeriv ShEvalHarmonic NearPoleProofs ShEvalProofs ShEvalGradProofs ShEvalExamples
  FieldSpec GradientProofs PositionProofs TruncationSpec TruncationExamples FieldSizeSpec FieldSizeProofs FieldStableSpec.
Import ListNotations.
Open Scope R_scope.

Lemma double_minus ref (a : nat -> R) (f g h : nat -> nat -> R) N : (forall n m, h n m = f n m - g n m) ->
  ref * sum_f_R0 (fun n => a n * sum_f_R0 (fun m => h n m) n) N =
  ref * sum_f_R0 (fun n => a n * sum_f_R0 (fun m => f n m) n) N - ref * sum_f_R0 (fun n => a n * sum_f_R0 (fun m => g n m) n) N.
Proof.
  intros H. rewrite <- Rmult_minus_distr_l. f_equal.
  rewrite <- minus_sum. apply sum_ext. intros n _. rewrite <- Rmult_minus_distr_l. f_equal. rewrite <- minus_sum. apply sum_ext. intros m _. apply H.
Qed.

Lemma gradient_minus internal gh gh' N lat lon rad :
  gradient_at internal (coefficient_difference gh gh') N lat lon rad =
  vector_minus (gradient_at internal gh N lat lon rad) (gradient_at internal gh' N lat lon rad).
Proof.
  unfold gradient_at. cbv zeta. cbn [vector_minus]. set (th := DG2RAD * lat). set (ph := DG2RAD * lon). f_equal; [f_equal|].
  - rewrite <- Rmult_minus_distr_l. f_equal. unfold pot_el. apply double_minus. intros n m. unfold coefficient_difference, harmonic. cbn [fst snd]. ring.
  - rewrite <- Rmult_minus_distr_l. f_equal. unfold az_over_cos. apply double_minus. intros n m. unfold coefficient_difference, east_gh, low_orders, harmonic'.
    destruct (near th), (Nat.leb m 1); cbn [fst snd]; ring.
  - unfold pot_rd. apply double_minus. intros n m. unfold coefficient_difference, harmonic. cbn [fst snd]. ring.
Qed.

Lemma field_stable internal gh gh' N lat lon rad f f' : -90 <= lat <= 90 -> rad <> 0 ->
  field_of internal gh N lat lon rad f -> field_of internal gh' N lat lon rad f' ->
  vector_length (vector_minus f f') <= whole_field internal (coefficient_difference gh gh') N rad.
Proof.
  intros Hl Hr F F'.
  rewrite (field_unique internal gh N lat lon rad _ _ Hl Hr F (gradient_field internal gh N lat lon rad Hl Hr)).
  rewrite (field_unique internal gh' N lat lon rad _ _ Hl Hr F' (gradient_field internal gh' N lat lon rad Hl Hr)).
  apply Rle_trans with (vector_length (opposite (gradient_at internal (coefficient_difference gh gh') N lat lon rad))).
  - right. f_equal. rewrite gradient_minus.
    destruct (gradient_at internal gh N lat lon rad) as [[a b] c], (gradient_at internal gh' N lat lon rad) as [[a' b'] c']. cbn. f_equal; [f_equal|]; ring.
  - apply (field_bound internal (coefficient_difference gh gh') N lat lon rad); [exact Hl|exact Hr|now apply gradient_field].
Qed.

Lemma sheval_stable csize deg N coef coef' internal lat lon rad mem mem' g g' :
  (1 <= csize < 2 ^ 50)%Z -> expansion_degree csize deg N -> -90 <= lat <= 90 -> rad <> 0 ->
  sheval (nd0 (lat, lon, rad)) csize (nd0 coef) CT_GEOCENTRIC_SPHERICAL CT_GEOCENTRIC_SPHERICAL SM_GRADIENT internal deg
    1 (1, 1, 1) mem = Ok ([], [(None, Some g)]) ->
  sheval (nd0 (lat, lon, rad)) csize (nd0 coef') CT_GEOCENTRIC_SPHERICAL CT_GEOCENTRIC_SPHERICAL SM_GRADIENT internal deg
    1 (1, 1, 1) mem' = Ok ([], [(None, Some g')]) ->
  vector_length (vector_minus g g') <=
    whole_field internal (coefficient_difference (fun n m => coef (n * (n + 1) / 2 + m)%nat) (fun n m => coef' (n * (n + 1) / 2 + m)%nat)) N rad.
Proof.
  intros Hc HN Hl Hr E E'.
  destruct (sheval_field csize deg N coef internal lat lon rad mem Hc HN Hl Hr) as (n & e & u & E1 & F). rewrite E in E1. injection E1 as ->.
  destruct (sheval_field csize deg N coef' internal lat lon rad mem' Hc HN Hl Hr) as (n' & e' & u' & E1' & F'). rewrite E' in E1'. injection E1' as ->.
  eapply Rle_trans; [|apply (field_stable internal _ _ N lat lon rad _ _ Hl Hr F F')].
  right. cbn [vector_minus vector_length]. f_equal. ring.
Qed.

(** A change of the coefficients in proportion to the rates [sv] *)
Lemma field_rate internal gh gh' sv dt N lat lon rad f f' : -90 <= lat <= 90 -> rad <> 0 ->
  (forall n m, (m <= n)%nat -> fst (gh n m) - fst (gh' n m) = dt * fst (sv n m) /\ ((0 < m)%nat -> snd (gh n m) - snd (gh' n m) = dt * snd (sv n m))) ->
  field_of internal gh N lat lon rad f -> field_of internal gh' N lat lon rad f' ->
  vector_length (vector_minus f f') <= Rabs dt * whole_field internal sv N rad.
Proof.
  intros Hl Hr H F F'.
  (* the sine coefficients of the order 0 do not matter *)
  set (z := fun (c : nat -> nat -> R * R) n m => if Nat.eqb m 0 then (fst (c n m), dt * snd (sv n m)) else c n m).
  set (z' := fun (c : nat -> nat -> R * R) n m => if Nat.eqb m 0 then (fst (c n m), 0) else c n m).
  assert (Pz : forall c d, (forall n m, fst (c n m) = fst (d n m)) -> (forall n m, (0 < m)%nat -> snd (c n m) = snd (d n m)) ->
    gradient_at internal c N lat lon rad = gradient_at internal d N lat lon rad).
  { intros c d C1 C2. unfold gradient_at. cbv zeta. set (th := DG2RAD * lat). set (ph := DG2RAD * lon).
    assert (Hh : forall n m, harmonic (c n m) m ph = harmonic (d n m) m ph).
    { intros n m. unfold harmonic. rewrite (C1 n m). destruct m as [|m]; [|rewrite (C2 n (S m)) by lia; reflexivity].
      cbn [INR]. replace (0 * ph) with 0 by ring. rewrite sin_0. ring. }
    assert (Hh' : forall n m, harmonic' (east_gh c th n m) m ph = harmonic' (east_gh d th n m) m ph).
    { intros n m. unfold harmonic', east_gh, low_orders. destruct m as [|m]; [cbn [INR]; ring|].
      destruct (near th), (Nat.leb (S m) 1); rewrite ?(C1 n (S m)), ?(C2 n (S m)) by lia; reflexivity. }
    f_equal; [f_equal|]; [f_equal; unfold pot_el|f_equal; unfold az_over_cos|unfold pot_rd]; f_equal; apply sum_ext; intros n _; f_equal;
      apply sum_ext; intros m _; [rewrite Hh|rewrite Hh'|rewrite Hh]; reflexivity. }
  pose proof (field_unique internal gh N lat lon rad _ _ Hl Hr F (gradient_field internal gh N lat lon rad Hl Hr)) as Ef.
  pose proof (field_unique internal gh' N lat lon rad _ _ Hl Hr F' (gradient_field internal gh' N lat lon rad Hl Hr)) as Ef'.
  assert (Hf : field_of internal (z gh) N lat lon rad f).
  { rewrite Ef, <- (Pz (z gh) gh); [now apply gradient_field| |]; intros n m; unfold z; destruct (Nat.eqb_spec m 0); try reflexivity; lia. }
  assert (Hf' : field_of internal (z' gh') N lat lon rad f').
  { rewrite Ef', <- (Pz (z' gh') gh'); [now apply gradient_field| |]; intros n m; unfold z'; destruct (Nat.eqb_spec m 0); try reflexivity; lia. }
  eapply Rle_trans; [exact (field_stable internal _ _ N lat lon rad _ _ Hl Hr Hf Hf')|]. right.
  unfold whole_field. rewrite (Rmult_comm (Rabs dt)), Rmult_assoc. f_equal. rewrite (Rmult_comm _ (Rabs dt)), <- sum_scal. apply sum_ext. intros n _.
  assert (S : degree_size (coefficient_difference (z gh) (z' gh')) n = Rabs dt * degree_size sv n); [|rewrite S; ring].
  unfold degree_size. rewrite <- (sqrt_Rsqr (Rabs dt)) by apply Rabs_pos. rewrite <- sqrt_mult_alt by apply Rle_0_sqr. f_equal.
  rewrite <- Rsqr_abs. rewrite <- sum_scal. apply sum_ext. intros m Hm. destruct (H n m Hm) as [H1 H2]. unfold coefficient_difference, z, z', Rsqr.
  destruct (Nat.eqb_spec m 0) as [E|E]; cbn [fst snd]; rewrite H1.
  - ring.
  - rewrite H2 by lia. ring.
Qed.
