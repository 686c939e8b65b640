(** The truncation error of the field: the call, and an example. *)
From Coq Require Import Bool List Arith ZArith Reals Lia Lra.
From Coquelicot Require Import Coquelicot.
From Verif Require Import ArrModel LegendreModel LegendreSpec LegendrePoly LegendreGauss GeoModel CoefModel
  ShEvalModel ShEvalSpec ShEvalSum ShEvalDeriv ShEvalHarmonic NearPoleProofs ShEvalProofs ShEvalGradProofs ShEvalLinProofs ShEvalExamples FieldSpec GradientProofs PositionProofs TruncationSpec TruncationExamples FieldSizeSpec.
From Verif Require Export FieldSizeProofs.
Import ListNotations.
Open Scope R_scope.

Lemma sheval_field_truncation csize deg deg' N M coef internal lat lon rad mem mem' g g' :
  (1 <= csize < 2 ^ 50)%Z -> expansion_degree csize deg N -> expansion_degree csize deg' M -> (N <= M)%nat -> -90 <= lat <= 90 -> rad <> 0 ->
  sheval (nd0 (lat, lon, rad)) csize (nd0 coef) CT_GEOCENTRIC_SPHERICAL CT_GEOCENTRIC_SPHERICAL SM_GRADIENT internal deg
    1 (1, 1, 1) mem = Ok ([], [(None, Some g)]) ->
  sheval (nd0 (lat, lon, rad)) csize (nd0 coef) CT_GEOCENTRIC_SPHERICAL CT_GEOCENTRIC_SPHERICAL SM_GRADIENT internal deg'
    1 (1, 1, 1) mem' = Ok ([], [(None, Some g')]) ->
  let gh := fun n m => coef (n * (n + 1) / 2 + m)%nat in
  vector_length (vector_minus g' g) <= remaining_field internal gh N M rad /\ vector_length g' <= whole_field internal gh M rad.
Proof.
  intros Hc HN HM NM Hl Hr E E' gh.
  destruct (sheval_field csize deg N coef internal lat lon rad mem Hc HN Hl Hr) as (n & e & u & E1 & F). rewrite E in E1. injection E1 as ->.
  destruct (sheval_field csize deg' M coef internal lat lon rad mem' Hc HM Hl Hr) as (n' & e' & u' & E2 & F'). rewrite E' in E2. injection E2 as ->.
  fold gh in F, F'. pose proof (field_truncation internal gh N M lat lon rad _ _ NM Hl Hr F F') as A. pose proof (field_bound internal gh M lat lon rad _ Hl Hr F') as B.
  cbn [vector_length vector_minus] in *. split.
  - eapply Rle_trans; [|exact A]. right. f_equal. ring.
  - eapply Rle_trans; [|exact B]. right. f_equal. ring.
Qed.

Lemma ex_field_size : field_of true (fun n m => g10 (n * (n + 1) / 2 + m)%nat) 1 90 0 6371.2 (0, 0, 2) /\
  vector_length (0, 0, 2) = 2 /\ whole_field true (fun n m => g10 (n * (n + 1) / 2 + m)%nat) 1 6371.2 = 2.
Proof.
  assert (D : forall n, (n <= 1)%nat -> degree_size (fun n m => g10 (n * (n + 1) / 2 + m)%nat) n = if Nat.eqb n 1 then 1 else 0).
  { intros [|[|n]] H; [| |lia]; unfold degree_size; cbn [sum_f_R0 Nat.eqb].
    - transitivity (sqrt 0); [f_equal|apply sqrt_0]. unfold g10. cbn. ring.
    - transitivity (sqrt 1); [f_equal|apply sqrt_1]. unfold g10. cbn. ring. }
  split; [|split].
  - set (gh := fun n m => g10 (n * (n + 1) / 2 + m)%nat).
    pose proof (gradient_field true gh 1 90 0 6371.2 ltac:(lra) ltac:(lra)) as F.
    replace (0, 0, 2) with (opposite (gradient_at true gh 1 90 0 6371.2)); [exact F|].
    assert (C : cos (DG2RAD * 90) = 0) by (replace (DG2RAD * 90) with (PI / 2) by (unfold DG2RAD; field); apply cos_PI2).
    assert (S : sin (DG2RAD * 90) = 1) by (replace (DG2RAD * 90) with (PI / 2) by (unfold DG2RAD; field); apply sin_PI2).
    unfold gradient_at. cbv zeta. set (th := DG2RAD * 90) in *. set (ph := DG2RAD * 0).
    assert (A : pot_el true 6371.2 gh 1 6371.2 th ph = 0).
    { unfold pot_el. rewrite (sum_ext _ (fun _ => 0 * 0)); [rewrite sum_scal; ring|]. intros n Hn. rewrite (pole_slopes th ph gh C n).
      destruct n as [|[|n]]; [cbn [Nat.leb]; ring| |lia]. unfold gh, g10, harmonic. cbn. ring. }
    assert (B : az_over_cos true 6371.2 (east_gh gh th) 1 6371.2 th ph = 0).
    { unfold az_over_cos. rewrite (sum_ext _ (fun _ => 0 * 0)); [rewrite sum_scal; ring|]. intros n Hn.
      rewrite (sum_ext _ (fun _ => 0 * 0)); [rewrite sum_scal; ring|]. intros m Hm.
      assert (Z : harmonic' (east_gh gh th n m) m ph = 0); [|rewrite Z; ring].
      destruct n as [|[|n]]; [| |lia]; (destruct m as [|[|m]]; [unfold harmonic'; cbn [INR]; ring| |lia]); [lia|].
      unfold east_gh, low_orders, gh, g10, harmonic'. destruct (near th); cbn; ring. }
    assert (U : pot_rd true 6371.2 gh 1 6371.2 th ph = - 2).
    { unfold pot_rd. rewrite (sum_ext _ (fun n => if Nat.eqb n 1 then - 2 / 6371.2 else 0)).
      - cbn [sum_f_R0 Nat.eqb]. field; lra.
      - intros n Hn. rewrite (pole_values th ph gh C n). destruct n as [|[|n]]; [unfold gh, g10; cbn; ring| |lia].
        rewrite schmidt_nf, nf_0, S, (proj1 (legendre_ends 1)). unfold gh, g10, radial, radial_rate. replace (6371.2 / 6371.2) with 1 by (field; lra). cbn. field; lra. }
    rewrite A, B, U. cbn [opposite]. f_equal; [f_equal|]; ring.
  - unfold vector_length. replace (0 ^ 2 + 0 ^ 2 + 2 ^ 2) with (2 ^ 2) by ring. apply sqrt_pow2. lra.
  - unfold whole_field. rewrite (Rabs_pos_eq 6371.2) by lra. cbn [sum_f_R0]. rewrite !D by lia. cbn [Nat.eqb]. unfold radial. replace (6371.2 / 6371.2) with 1 by (field; lra).
    rewrite !pow1, Rabs_R1. cbn [INR]. ring.
Qed.
