(** Proofs for C107 and C108: the decay and the change of the field in all coordinate systems *)
From Coq Require Import List ZArith Reals Lra.
From Verif Require Import ArrModel GeoModel CoefModel CoordModel CoordSpec ShEvalModel ShEvalSpec ShEvalProofs ShEvalLinProofs MmaFieldSpec TruncationSpec FieldSizeSpec FieldStableSpec TruncationExamples
  FieldDecayProofs FieldDecayExamples FieldStableProofs PosFieldProofs FieldSystemProofs.
Import ListNotations.
Open Scope R_scope.

(** The gradient in spherical coordinates at the same point *)
Lemma spherical_too csize deg coef internal ci co x lat lon rad mem v g : (1 <= csize < 2 ^ 50)%Z ->
  usual ci x -> -90 <= lat <= 90 -> 0 < rad -> position ci x = position CT_GEOCENTRIC_SPHERICAL (lat, lon, rad) ->
  sheval (nd0 x) csize (nd0 coef) ci co SM_POTENTIAL_AND_GRADIENT internal deg 1 (1, 1, 1) mem = Ok ([], [(Some v, Some g)]) ->
  exists h, sheval (nd0 (lat, lon, rad)) csize (nd0 coef) CT_GEOCENTRIC_SPHERICAL CT_GEOCENTRIC_SPHERICAL SM_GRADIENT internal deg
      1 (1, 1, 1) mem = Ok ([], [(None, Some h)]) /\
    in_space co (convert x ci co) g = in_space CT_GEOCENTRIC_SPHERICAL (convert (lat, lon, rad) CT_GEOCENTRIC_SPHERICAL CT_GEOCENTRIC_SPHERICAL) h.
Proof.
  intros Hc U A P E R. set (y := (lat, lon, rad)) in *.
  assert (U' : usual CT_GEOCENTRIC_SPHERICAL y) by (split; [exact A|exact P]).
  destruct (same_position ci CT_GEOCENTRIC_SPHERICAL co CT_GEOCENTRIC_SPHERICAL x y csize coef internal deg mem mem Hc U U' E) as (v0 & g0 & h & R0 & S & G).
  rewrite R in R0. injection R0 as <- <-. exists h.
  destruct (sheval_modes _ _ _ _ _ _ _ _ _ _ _ _ S) as [_ S2]. split; [exact S2|exact G].
Qed.

Lemma decay_anywhere csize deg N coef ci co x lat lon r0 rad mem v g :
  (1 <= csize < 2 ^ 50)%Z -> expansion_degree csize deg N -> coef 0%nat = (0, 0) ->
  usual ci x -> -90 <= lat <= 90 -> 0 < r0 <= rad -> position ci x = position CT_GEOCENTRIC_SPHERICAL (lat, lon, rad) ->
  sheval (nd0 x) csize (nd0 coef) ci co SM_POTENTIAL_AND_GRADIENT true deg 1 (1, 1, 1) mem = Ok ([], [(Some v, Some g)]) ->
  vector_length g <= (r0 / rad) ^ 3 * whole_field true (fun n m => coef (n * (n + 1) / 2 + m)%nat) N r0.
Proof.
  intros Hc HN C0 U A P E R. destruct (spherical_too csize deg coef true ci co x lat lon rad mem v g Hc U A ltac:(lra) E R) as (h & S & G).
  rewrite <- (space_length co (convert x ci co)), G, space_length. exact (sheval_decay _ _ _ _ _ _ _ _ _ _ Hc HN C0 P A S).
Qed.

Lemma external_anywhere csize deg N coef ci co x lat lon r0 rad mem v g :
  (1 <= csize < 2 ^ 50)%Z -> expansion_degree csize deg N ->
  usual ci x -> -90 <= lat <= 90 -> 0 < rad <= r0 -> position ci x = position CT_GEOCENTRIC_SPHERICAL (lat, lon, rad) ->
  sheval (nd0 x) csize (nd0 coef) ci co SM_POTENTIAL_AND_GRADIENT false deg 1 (1, 1, 1) mem = Ok ([], [(Some v, Some g)]) ->
  vector_length g <= whole_field false (fun n m => coef (n * (n + 1) / 2 + m)%nat) N r0.
Proof.
  intros Hc HN U A P E R. destruct (spherical_too csize deg coef false ci co x lat lon rad mem v g Hc U A ltac:(lra) E R) as (h & S & G).
  rewrite <- (space_length co (convert x ci co)), G, space_length. exact (sheval_external _ _ _ _ _ _ _ _ _ _ Hc HN P A S).
Qed.

Lemma stable_anywhere csize deg N coef coef' internal ci co x lat lon rad mem mem' v g v' g' :
  (1 <= csize < 2 ^ 50)%Z -> expansion_degree csize deg N ->
  usual ci x -> -90 <= lat <= 90 -> 0 < rad -> position ci x = position CT_GEOCENTRIC_SPHERICAL (lat, lon, rad) ->
  sheval (nd0 x) csize (nd0 coef) ci co SM_POTENTIAL_AND_GRADIENT internal deg 1 (1, 1, 1) mem = Ok ([], [(Some v, Some g)]) ->
  sheval (nd0 x) csize (nd0 coef') ci co SM_POTENTIAL_AND_GRADIENT internal deg 1 (1, 1, 1) mem' = Ok ([], [(Some v', Some g')]) ->
  vector_length (vector_minus g g') <=
    whole_field internal (coefficient_difference (fun n m => coef (n * (n + 1) / 2 + m)%nat) (fun n m => coef' (n * (n + 1) / 2 + m)%nat)) N rad.
Proof.
  intros Hc HN U A P E R R'. destruct (spherical_too csize deg coef internal ci co x lat lon rad mem v g Hc U A P E R) as (h & S & G).
  destruct (spherical_too csize deg coef' internal ci co x lat lon rad mem' v' g' Hc U A P E R') as (h' & S' & G').
  rewrite <- (space_length co (convert x ci co)), space_minus, G, G', <- space_minus, space_length.
  assert (Q : rad <> 0) by lra. exact (sheval_stable _ _ _ _ _ _ _ _ _ _ _ _ _ Hc HN A Q S S').
Qed.

Lemma ex_system_decay : usual CT_GEOCENTRIC_CARTESIAN (0, 0, 7000) /\ -90 <= 90 <= 90 /\ 0 < 6371.2 <= 7000 /\ g10 0 = (0, 0) /\
  position CT_GEOCENTRIC_CARTESIAN (0, 0, 7000) = position CT_GEOCENTRIC_SPHERICAL (90, 45, 7000).
Proof. destruct ex_system as (U & _ & _ & E). split; [exact U|]. split; [lra|]. split; [lra|]. split; [reflexivity|exact E]. Qed.
