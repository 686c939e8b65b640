(** Example for the truncation of an expansion. *)
From Coq Require Import List ZArith Reals Lia Lra.
From Coquelicot Require Import Coquelicot.
From Verif Require Import ArrModel LegendreModel LegendreSpec LegendrePoly LegendreGauss CoefModel GeoModel ShEvalModel ShEvalSpec ShEvalProofs ShEvalExamples NearPoleSpec NearPoleProofs TruncationSpec.
From Verif Require Export SchmidtSumProofs.
Import ListNotations.
Open Scope R_scope.

(** g_1^0 = 1 *)
Definition g10 (k : nat) : R * R := if Nat.eqb k 1 then (1, 0) else (0, 0).

Lemma ex_truncation : forall mem mem',
  expansion_degree 3 0 0 /\ expansion_degree 3 1 1 /\
  sheval (nd0 (90, 0, 6371.2)) 3 (nd0 g10) CT_GEOCENTRIC_SPHERICAL CT_GEOCENTRIC_SPHERICAL SM_POTENTIAL true 0 1 (1, 1, 1) mem = Ok ([], [(Some 0, None)]) /\
  sheval (nd0 (90, 0, 6371.2)) 3 (nd0 g10) CT_GEOCENTRIC_SPHERICAL CT_GEOCENTRIC_SPHERICAL SM_POTENTIAL true 1 1 (1, 1, 1) mem' = Ok ([], [(Some 6371.2, None)]) /\
  remaining_degrees true (fun n m => g10 (n * (n + 1) / 2 + m)%nat) 0 1 6371.2 = 6371.2.
Proof.
  intros mem mem'. assert (E0 : expansion_degree 3 0 0) by (exists 1%nat; split; [lia|reflexivity]). assert (E1 : expansion_degree 3 1 1) by (exists 1%nat; split; [lia|reflexivity]).
  split; [exact E0|]. split; [exact E1|]. split; [|split].
  - rewrite (potential_any_output 3 0 0 g10 true _ 1 (1, 1, 1) 90 0 6371.2 mem) by (try lra; try lia; assumption). do 5 f_equal.
    unfold potential. cbn [sum_f_R0]. cbn [g10 Nat.eqb Nat.mul Nat.add Nat.div]. cbn. ring.
  - rewrite (potential_any_output 3 1 1 g10 true _ 1 (1, 1, 1) 90 0 6371.2 mem') by (try lra; try lia; assumption). do 5 f_equal.
    unfold potential. cbn [sum_f_R0].
    assert (S : schmidt 1 0 (90 * (PI / 180)) = 1).
    { rewrite schmidt_nf, nf_0. replace (90 * (PI / 180)) with (PI / 2) by field. rewrite sin_PI2, (proj1 (legendre_ends 1)). cbn. ring. }
    rewrite S, (Rmult_0_l (PI / 180)), !Rmult_0_r, cos_0, sin_0. unfold radial, g10. cbn -[schmidt INR Rdiv]. field; lra.
  - unfold remaining_degrees. cbn [sum_f_R0 Nat.leb].
    assert (D : degree_size (fun n m => g10 (n * (n + 1) / 2 + m)%nat) 1 = 1).
    { unfold degree_size. cbn [sum_f_R0]. transitivity (sqrt 1); [f_equal|apply sqrt_1]. unfold g10. cbn. ring. }
    rewrite D. unfold radial. replace (6371.2 / 6371.2) with 1 by (field; lra). rewrite pow1, Rabs_R1. ring.
Qed.
