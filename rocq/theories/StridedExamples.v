(** Examples of arrays in memory: a transposed array of two vectors and a reversed array
    of two angles. *)

From Coq Require Import Bool List Reals ZArith Lia Lra.
From Verif Require Import CoefModel GeoModel LegendreModel ShEvalModel CoordModel TimeModel
  StridedModel StridedSpec StridedProofs.
Import ListNotations.
Open Scope Z_scope.

(** the doubles 0 to 7, of the same values, at the addresses 0 to 56 *)
Definition eight : memory := fun k => if (0 <=? k) && (k <? 8) then Some (IZR k) else None.
(** the columns (0, 2, 4) and (1, 3, 5) of the 3x2 array at the address 0 *)
Definition columns : arrd := {| data := 0; shape := [2; 3]%nat; stride := [8; 16] |}.
(** the elements 7 and 6 *)
Definition reversed : arrd := {| data := 56; shape := [2]%nat; stride := [-8] |}.
(** the element 6 *)
Definition scalar : arrd := {| data := 48; shape := []; stride := [] |}.

Lemma columns_in : array_in eight columns.
Proof.
  split; [reflexivity|]. intros idx H. cbn [columns shape] in H.
  inversion H as [|i ? ? ? Li T]; subst. inversion T as [|j ? ? ? Lj U]; subst. inversion U; subst.
  unfold Nat.lt in *.
  destruct i as [|[|i]]; [..|lia]; (destruct j as [|[|[|j]]]; [..|lia]); eexists; reflexivity.
Qed.

Lemma reversed_in : array_in eight reversed.
Proof.
  split; [reflexivity|]. intros idx H. cbn [reversed shape] in H.
  inversion H as [|i ? ? ? Li T]; subst. inversion T; subst. unfold Nat.lt in *.
  destruct i as [|[|i]]; [..|lia]; eexists; reflexivity.
Qed.

Lemma scalar_in : array_in eight scalar.
Proof.
  split; [reflexivity|]. intros idx H. cbn [scalar shape] in H. inversion H; subst. eexists; reflexivity.
Qed.

Lemma free_64 n : free_at eight 64 n.
Proof.
  split; [reflexivity|]. intros k Hk. change (64 / 8) with 8 in Hk. unfold eight.
  destruct (Z.ltb_spec k 8); [lia|]. now rewrite andb_false_r.
Qed.

Lemma ex_times junk : exists m' out,
  mjd2000_to_decimal_year eight 64 junk reversed = Ok (m', out) /\ shape out = [2]%nat /\
  element m' out [0%nat] = Some (mjd2k_to_decimal_year 7) /\
  element m' out [1%nat] = Some (mjd2k_to_decimal_year 6).
Proof.
  destruct (time_array_ok mjd2k_to_decimal_year eight 64 junk reversed) as (m' & out & E & Sh & _ & q).
  - cbn. lia.
  - exact reversed_in.
  - apply free_64.
  - exists m', out. split; [exact E|]. split; [exact Sh|].
    destruct (q [0%nat]) as (t & A & B); [repeat constructor|].
    destruct (q [1%nat]) as (u & C & D); [repeat constructor|].
    injection A as <-. injection C as <-. split; [exact B|exact D].
Qed.

Lemma ex_convert junk : exists m' out,
  convert_array eight 64 junk columns 2 1 = Ok (m', out) /\ shape out = [2; 3]%nat /\
  vector m' out [0%nat] =
    Some (convert (0, 2, 4)%R CT_GEOCENTRIC_CARTESIAN CT_GEOCENTRIC_SPHERICAL) /\
  vector m' out [1%nat] =
    Some (convert (1, 3, 5)%R CT_GEOCENTRIC_CARTESIAN CT_GEOCENTRIC_SPHERICAL) /\
  vector m' columns [1%nat] = Some (1, 3, 5)%R.
Proof.
  destruct (convert_array_ok eight 64 junk columns [2%nat] CT_GEOCENTRIC_CARTESIAN CT_GEOCENTRIC_SPHERICAL)
    as (m' & out & E & Sh & (_ & _ & K) & q).
  - reflexivity.
  - cbn. lia.
  - exact columns_in.
  - apply free_64.
  - discriminate.
  - exists m', out. split; [exact E|]. split; [exact Sh|].
    destruct (q [0%nat]) as (t & A & B); [repeat constructor|].
    destruct (q [1%nat]) as (u & C & D); [repeat constructor|].
    injection A as <-. injection C as <-. split; [exact B|]. split; [exact D|].
    unfold vector, element. cbn -[IZR].
    rewrite (K 1 1%R), (K 3 3%R), (K 5 5%R) by reflexivity. reflexivity.
Qed.

Lemma ex_rotation junk : exists m' out,
  vrot_sph2geod_array eight 64 junk columns reversed = Ok (m', out) /\
  vector m' out [0%nat] = Some (vrot_sph2geod (0, 2, 4)%R 7) /\
  vector m' out [1%nat] = Some (vrot_sph2geod (1, 3, 5)%R 6).
Proof.
  destruct (sph2geod_array_ok eight 64 junk columns [2%nat] reversed)
    as (m' & out & E & Sh & _ & q).
  - reflexivity.
  - cbn. lia.
  - exact columns_in.
  - apply free_64.
  - exact reversed_in.
  - now right.
  - exists m', out. split; [exact E|].
    destruct (q [0%nat]) as (t & x & A & A' & B); [repeat constructor|].
    destruct (q [1%nat]) as (u & y & C & C' & D); [repeat constructor|].
    injection A as <-. injection C as <-. injection A' as <-. injection C' as <-.
    split; [exact B|exact D].
Qed.

Lemma ex_rotation2 junk : exists m' out m'' out',
  vrot_sph2cart_array eight 64 junk columns reversed scalar = Ok (m', out) /\
  vector m' out [1%nat] = Some (vrot_sph2cart (1, 3, 5)%R 6 6) /\
  vrot_cart2sph_array eight 64 junk columns scalar reversed = Ok (m'', out') /\
  vector m'' out' [0%nat] = Some (vrot_cart2sph (0, 2, 4)%R 6 7).
Proof.
  destruct (sph2cart_array_ok eight 64 junk columns [2%nat] reversed scalar)
    as (m' & out & E & Sh & _ & q);
    [reflexivity|cbn; lia|exact columns_in|apply free_64|exact reversed_in|now right|exact scalar_in|now left|].
  destruct (cart2sph_array_ok eight 64 junk columns [2%nat] scalar reversed)
    as (m'' & out' & E' & Sh' & _ & q');
    [reflexivity|cbn; lia|exact columns_in|apply free_64|exact scalar_in|now left|exact reversed_in|now right|].
  exists m', out, m'', out'.
  destruct (q [1%nat]) as (u & x & y & A & B & C & D); [repeat constructor|].
  destruct (q' [0%nat]) as (u' & x' & y' & A' & B' & C' & D'); [repeat constructor|].
  injection A as <-. injection B as <-. injection C as <-.
  injection A' as <-. injection B' as <-. injection C' as <-. auto.
Qed.

(** the conversion to the same coordinates returns the array itself *)
Lemma new_array_refuted : ~ (forall m base junk a ds ct_in ct_out,
  shape a = ds ++ [3%nat] -> (length ds <= 15)%nat -> array_in m a ->
  free_at m base (size (shape a)) ->
  exists m' out, convert_array m base junk a (ct_number ct_in) (ct_number ct_out) = Ok (m', out) /\
    new_in m m' out).
Proof.
  intro H. destruct (H eight 64 (fun _ => 0%R) columns [2%nat] CT_GEOCENTRIC_SPHERICAL CT_GEOCENTRIC_SPHERICAL)
    as (m' & out & E & _ & N & _).
  - reflexivity.
  - cbn. lia.
  - exact columns_in.
  - apply free_64.
  - rewrite (convert_array_same _ _ _ columns [2%nat]) in E; [|reflexivity|cbn; lia].
    assert (out = columns) by congruence. subst out.
    specialize (N [0; 0]%nat). cbn in N. discriminate N. repeat constructor.
Qed.

Lemma ex_errors m base junk :
  convert_array m base junk columns 0 3 = Err ValueError /\
  convert_array m base junk reversed 0 1 = Err ValueError /\
  vrot_sph2geod_array m base junk columns columns = Err ValueError.
Proof.
  split; [|split].
  - apply convert_array_error. lia.
  - apply convert_array_error. intros (_ & _ & ds & E & _). destruct ds as [|d [|e l]]; discriminate.
  - apply sph2geod_array_error. intros (_ & [E|E]); discriminate.
Qed.
