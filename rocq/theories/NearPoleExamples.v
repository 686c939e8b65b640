(** The error of the eastward component: the call, and an example. *)
From Coq Require Import Bool List Arith ZArith Reals Lia Lra.
From Coquelicot Require Import Coquelicot.
From Verif Require Import ArrModel LegendreModel LegendreSpec GeoModel CoefModel
  ShEvalModel ShEvalSpec ShEvalSum ShEvalProofs ShEvalGradProofs ShEvalLinProofs ShEvalExamples FieldSpec GradientProofs PositionProofs NearPoleSpec.
From Verif Require Export NearPoleProofs.
Import ListNotations.
Open Scope R_scope.
Set Bullet Behavior "Strict Subproofs".

Lemma sheval_east_error csize deg N coef internal lat lon rad mem north east up e :
  (1 <= csize < 2 ^ 50)%Z -> expansion_degree csize deg N -> -90 < lat < 90 -> rad <> 0 ->
  sheval (nd0 (lat, lon, rad)) csize (nd0 coef) CT_GEOCENTRIC_SPHERICAL CT_GEOCENTRIC_SPHERICAL SM_GRADIENT internal deg
    1 (1, 1, 1) mem = Ok ([], [(None, Some (north, east, up))]) ->
  let gh := fun n m => coef (n * (n + 1) / 2 + m)%nat in
  is_derive (fun p => potential internal 6371.2 gh N rad (lat * (PI / 180)) p) (lon * (PI / 180)) (rad * cos (lat * (PI / 180)) * e) ->
  Rabs (east - e) <= 1 / 10 ^ 10 * omitted_terms internal gh N rad /\ (1 / 10 ^ 10 <= cos (lat * (PI / 180)) -> east = e).
Proof.
  intros Hc HD Hl Hr E gh D. destruct (sheval_field csize deg N coef internal lat lon rad mem Hc HD ltac:(lra) Hr) as (n & e' & u & E' & F).
  rewrite E in E'. injection E' as <- <- <-. fold gh in F.
  destruct (east_error internal gh N lat lon rad _ _ _ (- e) Hl Hr F) as [A B].
  - eapply is_derive_ext; [reflexivity|]. replace (- (rad * cos (lat * (PI / 180)) * - e)) with (rad * cos (lat * (PI / 180)) * e) by ring. exact D.
  - split; [|intro K; specialize (B K); lra]. rewrite <- Rabs_Ropp. now replace (- (east - e)) with (- east - - e) by ring.
Qed.

Lemma ex_omitted : 0 < omitted_terms true (fun n m => g22 (n * (n + 1) / 2 + m)%nat) 2 6371.2 <= 2.
Proof.
  unfold omitted_terms. cbn [sum_f_R0 Nat.leb]. change (g22 (2 * (2 + 1) / 2 + 2)%nat) with ((1, 0) : R * R). cbn [fst snd].
  rewrite (Rabs_pos_eq 6371.2) by lra. unfold radial. rewrite ref_one, !pow1, !Rabs_R1, Rabs_R0.
  assert (S : 0 < pole_factor 2 2 <= 1).
  { unfold pole_factor. replace (2 * INR (fact (2 + 2)) / INR (fact (2 - 2))) with 48 by (cbn; field). replace (2 ^ 2 * INR (fact 2)) with 8 by (cbn; ring).
    pose proof (sqrt_lt_R0 48 ltac:(lra)). assert (sqrt 48 <= 8). { rewrite <- (sqrt_square 8) by lra. apply sqrt_le_1_alt. lra. } lra. }
  cbn [INR]. lra.
Qed.
