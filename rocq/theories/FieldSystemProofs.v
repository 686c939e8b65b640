(** The truncation error in all coordinate systems. *)
From Coq Require Import Bool List Arith ZArith Reals Lia Lra.
From Coquelicot Require Import Coquelicot.
From Verif Require Import ArrModel GeoModel CoefModel CoordModel CoordSpec ShEvalModel ShEvalSpec ShEvalProofs ShEvalLinProofs MmaFieldSpec PosFieldProofs
  TruncationSpec SchmidtSumProofs FieldSizeSpec FieldSizeExamples.
Import ListNotations.
Open Scope R_scope.

Lemma space_length ct c v : vector_length (in_space ct c v) = vector_length v.
Proof.
  destruct c as [[lat lon] r], v as [[n e] u]. unfold in_space, vector_length. destruct ct; try reflexivity; f_equal;
  pose proof (sin2_cos2 (one_degree * lat)) as A; pose proof (sin2_cos2 (one_degree * lon)) as B; unfold Rsqr in A, B;
  set (s := sin (one_degree * lat)) in *; set (k := cos (one_degree * lat)) in *; set (S := sin (one_degree * lon)) in *; set (K := cos (one_degree * lon)) in *;
  replace ((- n * s * K - e * S + u * k * K) ^ 2 + (- n * s * S + e * K + u * k * S) ^ 2 + (n * k + u * s) ^ 2)
    with ((S * S + K * K) * (e ^ 2 + (u * k - n * s) ^ 2) + (n * k + u * s) ^ 2) by ring; rewrite B;
  replace (1 * (e ^ 2 + (u * k - n * s) ^ 2) + (n * k + u * s) ^ 2) with (e ^ 2 + (s * s + k * k) * (n ^ 2 + u ^ 2)) by ring; rewrite A; ring.
Qed.

Lemma space_minus ct c v w : in_space ct c (vector_minus v w) = vector_minus (in_space ct c v) (in_space ct c w).
Proof.
  destruct c as [[lat lon] r], v as [[n e] u], w as [[n' e'] u']. unfold in_space, vector_minus. destruct ct; try reflexivity; (apply f_equal2; [apply f_equal2|]); ring.
Qed.

Lemma truncation_anywhere csize deg deg' N M coef internal ci co x lat lon rad mem mem' v g v' g' :
  (1 <= csize < 2 ^ 50)%Z -> expansion_degree csize deg N -> expansion_degree csize deg' M -> (N <= M)%nat ->
  usual ci x -> -90 <= lat <= 90 -> 0 < rad -> position ci x = position CT_GEOCENTRIC_SPHERICAL (lat, lon, rad) ->
  sheval (nd0 x) csize (nd0 coef) ci co SM_POTENTIAL_AND_GRADIENT internal deg 1 (1, 1, 1) mem = Ok ([], [(Some v, Some g)]) ->
  sheval (nd0 x) csize (nd0 coef) ci co SM_POTENTIAL_AND_GRADIENT internal deg' 1 (1, 1, 1) mem' = Ok ([], [(Some v', Some g')]) ->
  let gh := fun n m => coef (n * (n + 1) / 2 + m)%nat in
  Rabs (v' - v) <= remaining_degrees internal gh N M rad /\
  vector_length (vector_minus g' g) <= remaining_field internal gh N M rad /\
  vector_length g' <= whole_field internal gh M rad.
Proof.
  intros Hc HN HM NM U A P E R R' gh. set (y := (lat, lon, rad)) in *.
  assert (U' : usual CT_GEOCENTRIC_SPHERICAL y) by (split; [exact A|exact P]).
  destruct (same_position ci CT_GEOCENTRIC_SPHERICAL co CT_GEOCENTRIC_SPHERICAL x y csize coef internal deg mem mem Hc U U' E) as (v0 & g0 & h & R0 & S & G).
  destruct (same_position ci CT_GEOCENTRIC_SPHERICAL co CT_GEOCENTRIC_SPHERICAL x y csize coef internal deg' mem' mem' Hc U U' E) as (v0' & g0' & h' & R0' & S' & G').
  rewrite R in R0. injection R0 as <- <-. rewrite R' in R0'. injection R0' as <- <-.
  destruct (sheval_modes _ _ _ _ _ _ _ _ _ _ _ _ S) as [S1 S2]. destruct (sheval_modes _ _ _ _ _ _ _ _ _ _ _ _ S') as [S1' S2'].
  cbn [map fst snd] in S1, S2, S1', S2'. assert (Q : rad <> 0) by lra.
  destruct (sheval_truncation csize deg deg' N M coef internal _ _ _ lat lon rad mem mem' _ _ Hc HN HM NM A Q S1 S1') as [T _].
  destruct (sheval_field_truncation csize deg deg' N M coef internal lat lon rad mem mem' _ _ Hc HN HM NM A Q S2 S2') as [T1 T2].
  rewrite Rabs_R1, Rmult_1_l in T. split; [exact T|].
  rewrite <- (space_length co (convert x ci co)), <- (space_length co (convert x ci co) g'), space_minus, G, G', <- space_minus, !space_length.
  split; [exact T1|exact T2].
Qed.

Lemma ex_system : usual CT_GEOCENTRIC_CARTESIAN (0, 0, 7000) /\ -90 <= 90 <= 90 /\ 0 < 7000 /\
  position CT_GEOCENTRIC_CARTESIAN (0, 0, 7000) = position CT_GEOCENTRIC_SPHERICAL (90, 45, 7000).
Proof. destruct ex_positions as (_ & _ & E & U). split; [exact U|]. repeat split; try lra. exact E. Qed.
