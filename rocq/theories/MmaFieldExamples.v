(** Examples of the field of MMA models. *)
From Coq Require Import Bool List ZArith Reals Lra Lia.
From Coquelicot Require Import Coquelicot.
From Verif Require Import Ord ROrd CoefModel SparseModel SparseSpec SeriesSpec GeoModel ShEvalModel ShEvalSpec CoordModel CoordSpec CoordProofs DipoleProofs FieldSpec
  InterpSpec SeriesLineProofs MmaModel MmaSpec MmaProofs MmaExamples MmaFieldModel MmaFieldSpec.
Import ListNotations.
Open Scope R_scope.
Set Bullet Behavior "Strict Subproofs".

(** the second sets of the files *)
Definition ex_other_nm : list (Z * Z) := [(1, 1); (2, 0)]%Z.
Definition ex_other_1 : cdf_set := {|
  cv_epoch_type := true; cv_time := map ex_raw [1; 2]; cv_nm := Nm_2d ex_other_nm; cv_ncoeff := 2; cv_coeff := [[3; 5]; [7; 9]] |}.
Definition ex_other_2 : cdf_set := {|
  cv_epoch_type := true; cv_time := map ex_raw [4; 6]; cv_nm := Nm_2d ex_other_nm; cv_ncoeff := 2; cv_coeff := [[1; 3]; [2; 4]] |}.
Definition ex_2c_files : list (cdf_set * cdf_set) := [(ex_mma_1, ex_other_1); (ex_mma_2, ex_other_2)].

Lemma ex_other_times : all_times (map snd ex_2c_files) = [1; 2; 4; 6].
Proof. unfold all_times, ex_2c_files, file_times. cbn [map snd flat_map ex_other_1 ex_other_2 cv_time app]. now rewrite !ex_raw_time. Qed.
Lemma ex_other_increasing : increasing [1; 2; 4; 6].
Proof.
  intros i j a b L Ei Ej. destruct i as [|[|[|[|[|i]]]]]; try discriminate; destruct j as [|[|[|[|[|j]]]]]; try discriminate; try lia;
    cbn [nth_error] in Ei, Ej; assert (a = a) by reflexivity; injection Ei as <-; injection Ej as <-; lra.
Qed.
Lemma ex_other_proper : proper_files ex_other_nm (map snd ex_2c_files).
Proof.
  split; [|split; [|split; [|split]]].
  - split; [discriminate|split].
    + intros [|[|[|i]]] n m E; try discriminate; injection E as <- <-; unfold valid_nm; lia.
    + intros [|[|[|i]]] [|[|[|j]]] p E1 E2; try reflexivity; try discriminate; rewrite <- E2 in E1; discriminate.
  - intros f [<-|[<-|[]]]; (split; [reflexivity|split; [(left; reflexivity) || (right; reflexivity)|split; [reflexivity|split; [reflexivity|]]]]);
      cbn [ex_other_1 ex_other_2 cv_coeff snd]; intros row I; repeat destruct I as [<-|I]; try reflexivity; destruct I.
  - split; [|exact I]. exists [1], 2, 4, [6]. unfold file_times. cbn [ex_other_1 ex_other_2 cv_time map app snd]. rewrite !ex_raw_time.
    split; [reflexivity|split; [reflexivity|lra]].
  - rewrite ex_other_times. exact (increasing_distinct _ ex_other_increasing).
  - rewrite ex_other_times. cbn [length]. lia.
Qed.

Lemma ex_2c_sets : ex_2c_files <> [] /\ proper_files ex_mma_nm (map fst ex_2c_files) /\ proper_files ex_other_nm (map snd ex_2c_files) /\
  nm_up_to ex_mma_nm 2 /\ nm_up_to ex_other_nm 2 /\ (forall p, In p ex_mma_nm -> ~ In p ex_other_nm).
Proof.
  split; [discriminate|]. split; [exact ex_mma_proper|]. split; [exact ex_other_proper|].
  split; [intros n m [[= <- <-]|[[= <- <-]|[]]]; lia|]. split; [intros n m [[= <- <-]|[[= <- <-]|[]]]; lia|].
  intros p [<-|[<-|[]]] [K|[K|[]]]; discriminate.
Qed.

(** a coefficient of the first set and one of the second one, between the files *)
Lemma ex_2c_value : two_sets_value ex_mma_nm ex_other_nm ex_2c_files 3 1 (-1) 60 /\ two_sets_value ex_mma_nm ex_other_nm ex_2c_files 3 2 0 6.
Proof.
  split.
  - exists 60, 0. split; [exact ex_mma_value|]. split; [|ring]. right. split; [|reflexivity]. intros [K|[K|[]]]; discriminate.
  - exists 0, 6. split; [right; split; [intros [K|[K|[]]]; discriminate|reflexivity]|]. split; [|ring].
    left. exists 2, 9, 4, 3. rewrite ex_other_times. split; [|split; [|split; [|split; [|split]]]].
    + exists ex_other_1, 1%nat, 1%nat, (ex_raw 2), [7; 9]. repeat split; [now left|symmetry; apply ex_raw_time].
    + exists ex_other_2, 1%nat, 0%nat, (ex_raw 4), [1; 3]. repeat split; [right; now left|symmetry; apply ex_raw_time].
    + exact (increasing_neighbours _ 1 2 4 ex_other_increasing eq_refl eq_refl).
    + left; lra.
    + left; lra.
    + unfold line. field.
Qed.

(** the common validity: from 1 to 5 *)
Lemma ex_2c_valid v v1 v2 : covers (map fst ex_2c_files) v1 -> covers (map snd ex_2c_files) v2 ->
  (forall t, in_validity v t <-> in_validity v1 t /\ in_validity v2 t) -> in_validity v (Some 3) /\ ~ in_validity v (Some 0) /\ ~ in_validity v (Some 6).
Proof.
  intros C1 C2 H. unfold covers in C1, C2. rewrite ex_other_times in C2. change (map fst ex_2c_files) with ex_mma_files in C1. rewrite ex_mma_times in C1.
  specialize (C1 0 5 ltac:(cbn; tauto) ltac:(intros x K; repeat destruct K as [<-|K]; try lra; destruct K)
    ltac:(cbn; tauto) ltac:(intros x K; repeat destruct K as [<-|K]; try lra; destruct K)).
  specialize (C2 1 6 ltac:(cbn; tauto) ltac:(intros x K; repeat destruct K as [<-|K]; try lra; destruct K)
    ltac:(cbn; tauto) ltac:(intros x K; repeat destruct K as [<-|K]; try lra; destruct K)).
  split; [|split].
  - apply H. split; [apply C1|apply C2]; exists 3; (split; [reflexivity|lra]).
  - intro K. apply H in K as [_ K]. apply C2 in K as (u & [= <-] & K). lra.
  - intro K. apply H in K as [K _]. apply C1 in K as (u & [= <-] & K). lra.
Qed.

(** a location on the dipole equator *)
Lemma ex_2c_location : exists x, let m := get_dipole_rotation_matrix MMA2C_NGP_LATITUDE MMA2C_NGP_LONGITUDE in
  unique_coordinates CT_GEOCENTRIC_SPHERICAL (0, 0, 7000) /\
  position CT_GEOCENTRIC_SPHERICAL (0, 0, 7000) = row_times (position CT_GEOCENTRIC_CARTESIAN x) m /\ 1 / 10 ^ 10 <= cos (0 * (PI / 180)).
Proof.
  exists (times_column (get_dipole_rotation_matrix MMA2C_NGP_LATITUDE MMA2C_NGP_LONGITUDE) (position CT_GEOCENTRIC_SPHERICAL (0, 0, 7000))).
  cbv zeta. split; [|split].
  - cbn [unique_coordinates]. unfold usual_longitude. lra.
  - set (w := position CT_GEOCENTRIC_SPHERICAL (0, 0, 7000)).
    assert (K : forall v, position CT_GEOCENTRIC_CARTESIAN v = v) by (intros [[a b] c]; reflexivity). rewrite K. symmetry. apply matrix_orthogonal.
  - rewrite Rmult_0_l, cos_0. lra.
Qed.

Lemma ex_2f_sets : ex_mma_files <> [] /\ proper_files ex_mma_nm ex_mma_files /\ nm_up_to ex_mma_nm 2.
Proof. split; [discriminate|]. split; [exact ex_mma_proper|]. intros n m [[= <- <-]|[[= <- <-]|[]]]; lia. Qed.
