(** Cases for the properties of the 32-bit integers. *)

From Coq Require Import Bool List Reals Arith ZArith Lia Lra.
From Verif Require Import ArrModel LegendreModel LegendreSpec LegendreProofs CoefModel SizeModel ShEvalModel ShEvalSpec TempModel BufModel IntModel IntSpec
  IntProofs IntTopProofs.
Import ListNotations.
Open Scope R_scope.

(** Two different machines: one stops at the first overflow, one wraps around. *)
Lemma ex_machines : conforming trapping /\ conforming wrapping /\
  trapping (2 ^ 31)%Z = None /\ wrapping (2 ^ 31)%Z = Some (- 2 ^ 31)%Z.
Proof. split; [exact trapping_conforming|]. split; [exact wrapping_conforming|]. split; reflexivity. Qed.

(** The poles are close to a pole and the equator is not. *)
Lemma ex_near : near_pole 90 /\ near_pole (-90) /\ ~ near_pole 0.
Proof.
  unfold near_pole. split; [|split].
  - replace (90 * DG2RAD) with (PI / 2) by (unfold DG2RAD; field). rewrite cos_PI2, Rabs_R0. lra.
  - replace (-90 * DG2RAD) with (- (PI / 2)) by (unfold DG2RAD; field). rewrite cos_neg, cos_PI2, Rabs_R0. lra.
  - rewrite Rmult_0_l, cos_0, Rabs_R1. lra.
Qed.

(** Degrees of the ranges *)
Lemma ex_degrees : exists d1 d2 d3 : nat,
  Z.of_nat d1 = 23172%Z /\ Z.of_nat d2 = 46340%Z /\ Z.of_nat d3 = 65534%Z.
Proof.
  exists (Z.to_nat 23172), (Z.to_nat 46340), (Z.to_nat 65534). rewrite !Z2Nat.id by lia. repeat split.
Qed.

(** The numbers of coefficients of a set of degree 46340 *)
Lemma ex_large_set : exists D : nat, (46340 <= Z.of_nat D)%Z /\ (1 <= 1073767311 < 2 ^ 50)%Z /\ expansion_degree 1073767311 (-1) D.
Proof.
  exists (Z.to_nat 46340). rewrite Z2Nat.id by lia. split; [lia|]. split; [lia|].
  exists (Z.to_nat 46340). rewrite Z2Nat.id by lia. split; [lia|reflexivity].
Qed.

(** A set of the degree 23172 evaluated at the pole *)
Lemma ex_pole_set : exists D : nat, (23172 <= Z.of_nat D)%Z /\ (1 <= 268505551 < 2 ^ 50)%Z /\ expansion_degree 268505551 (-1) D.
Proof.
  exists (Z.to_nat 23172). rewrite Z2Nat.id by lia. split; [lia|]. split; [lia|].
  exists (Z.to_nat 23172). rewrite Z2Nat.id by lia. split; [lia|reflexivity].
Qed.

(** The memory of a model of degree 13, and the last degree for which it is right *)
Lemma ex_sizes : i_sizes wrapping 13 = Some [840; 840; 224; 112; 224; 224]%Z /\
  i_sizes wrapping 46339 = Some [8589767760; 8589767760; 741440; 370720; 741440; 741440]%Z /\ i_sizes trapping 46340 = None.
Proof. split; [|split]; reflexivity. Qed.

(** The first degree for which too little memory is allocated *)
Lemma ex_small : i_nterm wrapping 65535 = Some 32768%Z /\ i_row (nm_offset (65535, 0)%Z) = 2147450880%Z.
Proof. split; reflexivity. Qed.

(** The row of a coefficient of the degree 65536 is the row of another one. *)
Lemma ex_wrapped_row : i_row (nm_offset (65536, 1)%Z) = i_row (nm_offset (65534, 65534)%Z).
Proof. reflexivity. Qed.
