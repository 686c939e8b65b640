(** Examples of the field of MIO models. *)
From Coq Require Import Bool List ZArith Reals Lra Lia.
From Verif Require Import Ord CoefModel GeoModel ShEvalModel ShEvalSpec SparseSpec FourierSpec CoordModel CoordSpec DipoleProofs
  MioParseModel MioParseSpec MioFileExamples FieldSpec MioFieldSpec.
Import ListNotations.
Open Scope R_scope.
Set Bullet Behavior "Strict Subproofs".

Lemma ex_mio_proper : proper_nm ex_mio_nm 2 /\ proper_bounds ex_mio_h.
Proof.
  split; [split; [|split; [|split]]|].
  - intros n m [[= <- <-]|[[= <- <-]|[]]]; unfold valid_nm; lia.
  - repeat constructor; cbn; intros K; repeat destruct K as [K|K]; try discriminate; exact K.
  - exists (-1)%Z. right. now left.
  - lia.
  - left. cbn. lia.
Qed.

(** the coefficients: those of the two rows, the others are zero *)
Definition ex_mio_table (season hours : R) (rows : list (list R)) (factor : Z -> R) (n m : nat) : R * R :=
  match n, m with
  | 1%nat, 0%nat => (factor 1%Z * mio_series_value ex_mio_h (nth 0 rows []) season hours, 0)
  | 2%nat, 1%nat => (0, factor 2%Z * mio_series_value ex_mio_h (nth 1 rows []) season hours)
  | _, _ => (0, 0)
  end.
Lemma ex_mio_none h rows factor season hours n m : ~ In (n, m) ex_mio_nm -> row_coefficient h ex_mio_nm rows factor season hours n m 0.
Proof. intro H. right. split; [exact H|reflexivity]. Qed.

Lemma ex_mio_coefficients rows factor season hours : length rows = 2%nat ->
  coefficient_table (row_coefficient ex_mio_h ex_mio_nm rows factor season hours) (-1) (-1) (ex_mio_table season hours rows factor).
Proof.
  intros L n m Hm. destruct rows as [|r0 [|r1 [|r2 rows]]]; try discriminate. split.
  - intros _. unfold ex_mio_table.
    assert (D : (n = 1 /\ m = 0 \/ n = 2 /\ m = 1 \/ ~ (n = 1 /\ m = 0) /\ ~ (n = 2 /\ m = 1))%nat) by lia.
    destruct D as [[-> ->]|[[-> ->]|[D1 D2]]].
    + cbn [fst snd nth]. split; [left; exists 0%nat, r0; repeat split|intro; lia].
    + cbn [fst snd nth]. split; [|intros _; left; exists 1%nat, r1; repeat split].
      apply ex_mio_none. intros [[= K]|[[= K]|[]]].
    + assert (E : match n, m with
        | 1%nat, 0%nat => (factor 1%Z * mio_series_value ex_mio_h (nth 0 [r0; r1] []) season hours, 0)
        | 2%nat, 1%nat => (0, factor 2%Z * mio_series_value ex_mio_h (nth 1 [r0; r1] []) season hours)
        | _, _ => (0, 0) end = (0, 0)) by (destruct n as [|[|[|n]]], m as [|[|m]]; try reflexivity; exfalso; lia).
      rewrite E. cbn [fst snd]. split; [|intro]; apply ex_mio_none; intros [[= K1 K2]|[[= K1 K2]|[]]]; lia.
  - intro K. exfalso. apply K. unfold within_bounds. lia.
Qed.

(** a location on the dipole equator of the file, above the ionosphere *)
Lemma ex_mio_location : exists x, let m := get_dipole_rotation_matrix (mh_lat_ngp ex_mio_h) (mh_lon_ngp ex_mio_h) in
  unique_coordinates CT_GEOCENTRIC_SPHERICAL (0, 0, 7000) /\
  position CT_GEOCENTRIC_SPHERICAL (0, 0, 7000) = row_times (position CT_GEOCENTRIC_CARTESIAN x) m /\ 1 / 10 ^ 10 <= cos (0 * (PI / 180)) /\
  6371.2 + mh_height ex_mio_h < 7000.
Proof.
  exists (times_column (get_dipole_rotation_matrix (mh_lat_ngp ex_mio_h) (mh_lon_ngp ex_mio_h)) (position CT_GEOCENTRIC_SPHERICAL (0, 0, 7000))). cbv zeta.
  split; [|split; [|split]].
  - cbn [unique_coordinates]. unfold usual_longitude. lra.
  - set (w := position CT_GEOCENTRIC_SPHERICAL (0, 0, 7000)).
    assert (K : forall v, position CT_GEOCENTRIC_CARTESIAN v = v) by (intros [[a b] c]; reflexivity). rewrite K. symmetry. apply matrix_orthogonal.
  - rewrite Rmult_0_l, cos_0. lra.
  - cbn [mh_height ex_mio_h]. lra.
Qed.
