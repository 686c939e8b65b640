(** C88: arrays of times, positions and vectors of any memory layout *)

From Coq Require Import List Reals ZArith.
From Verif Require Import CoefModel ShEvalModel CoordModel TimeModel
  StridedModel StridedSpec StridedProofs StridedExamples.
Import ListNotations.
Open Scope Z_scope.

(** Each time of an array of up to 15 dimensions and of any strides is converted, the
    result is a new array of the same shape and nothing else is changed. *)
Theorem C88_times : forall f call,
  (f, call) = (mjd2k_to_decimal_year, mjd2000_to_decimal_year) \/
  (f, call) = (mjd2k_to_year_fraction, mjd2000_to_year_fraction) \/
  (f, call) = (decimal_year_to_mjd2k, decimal_year_to_mjd2000) ->
  forall m base junk a,
  array_in m a -> free_at m base (size (shape a)) ->
  ((length (shape a) <= 15)%nat ->
   exists m' out, call m base junk a = Ok (m', out) /\
     shape out = shape a /\ new_in m m' out /\
     forall idx, index_of (shape a) idx ->
       exists t, element m a idx = Some t /\ element m' out idx = Some (f t)) /\
  ((15 < length (shape a))%nat -> call m base junk a = Err ValueError).
Proof.
  intros f call H m base junk a Ha Hf.
  assert (E : call = time_array f) by (destruct H as [H|[H|H]]; injection H as -> ->; reflexivity).
  rewrite E. split; intro L; [exact (time_array_ok f m base junk a L Ha Hf)|exact (time_array_error f m base junk a L)].
Qed.
Print Assumptions C88_times.

Example C88_times_example : forall junk, exists m' out,
  mjd2000_to_decimal_year eight 64 junk reversed = Ok (m', out) /\ shape out = [2]%nat /\
  element m' out [0%nat] = Some (mjd2k_to_decimal_year 7) /\
  element m' out [1%nat] = Some (mjd2k_to_decimal_year 6).
Proof. exact ex_times. Qed.

(** Each position of an array of up to 16 dimensions and of any strides is converted. *)
Theorem C88_convert : forall m base junk a ds ct_in ct_out,
  shape a = ds ++ [3%nat] -> (length ds <= 15)%nat -> array_in m a ->
  free_at m base (size (shape a)) -> ct_in <> ct_out ->
  exists m' out, convert_array m base junk a (ct_number ct_in) (ct_number ct_out) = Ok (m', out) /\
    shape out = shape a /\ new_in m m' out /\
    forall idx, index_of ds idx ->
      exists v, vector m a idx = Some v /\ vector m' out idx = Some (convert v ct_in ct_out).
Proof. exact convert_array_ok. Qed.
Print Assumptions C88_convert.

Example C88_convert_example : forall junk, exists m' out,
  convert_array eight 64 junk columns 2 1 = Ok (m', out) /\ shape out = [2; 3]%nat /\
  vector m' out [0%nat] =
    Some (convert (0, 2, 4)%R CT_GEOCENTRIC_CARTESIAN CT_GEOCENTRIC_SPHERICAL) /\
  vector m' out [1%nat] =
    Some (convert (1, 3, 5)%R CT_GEOCENTRIC_CARTESIAN CT_GEOCENTRIC_SPHERICAL) /\
  vector m' columns [1%nat] = Some (1, 3, 5)%R.
Proof. exact ex_convert. Qed.

(** The conversion to the same coordinates returns the array which was given, not a copy. *)
Theorem C88_same_coordinates : forall m base junk a ds ct,
  shape a = ds ++ [3%nat] -> (length ds <= 15)%nat ->
  convert_array m base junk a (ct_number ct) (ct_number ct) = Ok (m, a).
Proof. exact convert_array_same. Qed.
Print Assumptions C88_same_coordinates.

Theorem C88_new_array_refuted : ~ (forall m base junk a ds ct_in ct_out,
  shape a = ds ++ [3%nat] -> (length ds <= 15)%nat -> array_in m a ->
  free_at m base (size (shape a)) ->
  exists m' out, convert_array m base junk a (ct_number ct_in) (ct_number ct_out) = Ok (m', out) /\
    new_in m m' out).
Proof. exact new_array_refuted. Qed.
Print Assumptions C88_new_array_refuted.

(** Each vector is rotated by its own angle, or all of them by a scalar angle. *)
Theorem C88_sph2geod : forall m base junk a ds ad,
  shape a = ds ++ [3%nat] -> (length ds <= 15)%nat -> array_in m a ->
  free_at m base (size (shape a)) -> array_in m ad -> shape ad = [] \/ shape ad = ds ->
  exists m' out, vrot_sph2geod_array m base junk a ad = Ok (m', out) /\
    shape out = shape a /\ new_in m m' out /\
    forall idx, index_of ds idx ->
      exists v t, vector m a idx = Some v /\ angle m ad idx = Some t /\
        vector m' out idx = Some (vrot_sph2geod v t).
Proof. exact sph2geod_array_ok. Qed.
Print Assumptions C88_sph2geod.

Example C88_sph2geod_example : forall junk, exists m' out,
  vrot_sph2geod_array eight 64 junk columns reversed = Ok (m', out) /\
  vector m' out [0%nat] = Some (vrot_sph2geod (0, 2, 4)%R 7) /\
  vector m' out [1%nat] = Some (vrot_sph2geod (1, 3, 5)%R 6).
Proof. exact ex_rotation. Qed.

Theorem C88_sph2cart : forall m base junk a ds alat alon,
  shape a = ds ++ [3%nat] -> (length ds <= 15)%nat -> array_in m a ->
  free_at m base (size (shape a)) ->
  array_in m alat -> shape alat = [] \/ shape alat = ds ->
  array_in m alon -> shape alon = [] \/ shape alon = ds ->
  exists m' out, vrot_sph2cart_array m base junk a alat alon = Ok (m', out) /\
    shape out = shape a /\ new_in m m' out /\
    forall idx, index_of ds idx ->
      exists v la lo, vector m a idx = Some v /\ angle m alat idx = Some la /\
        angle m alon idx = Some lo /\ vector m' out idx = Some (vrot_sph2cart v la lo).
Proof. exact sph2cart_array_ok. Qed.
Print Assumptions C88_sph2cart.

Theorem C88_cart2sph : forall m base junk a ds alat alon,
  shape a = ds ++ [3%nat] -> (length ds <= 15)%nat -> array_in m a ->
  free_at m base (size (shape a)) ->
  array_in m alat -> shape alat = [] \/ shape alat = ds ->
  array_in m alon -> shape alon = [] \/ shape alon = ds ->
  exists m' out, vrot_cart2sph_array m base junk a alat alon = Ok (m', out) /\
    shape out = shape a /\ new_in m m' out /\
    forall idx, index_of ds idx ->
      exists v la lo, vector m a idx = Some v /\ angle m alat idx = Some la /\
        angle m alon idx = Some lo /\ vector m' out idx = Some (vrot_cart2sph v la lo).
Proof. exact cart2sph_array_ok. Qed.
Print Assumptions C88_cart2sph.

Example C88_rotations_example : forall junk, exists m' out m'' out',
  vrot_sph2cart_array eight 64 junk columns reversed scalar = Ok (m', out) /\
  vector m' out [1%nat] = Some (vrot_sph2cart (1, 3, 5)%R 6 6) /\
  vrot_cart2sph_array eight 64 junk columns scalar reversed = Ok (m'', out') /\
  vector m'' out' [0%nat] = Some (vrot_cart2sph (0, 2, 4)%R 6 7).
Proof. exact ex_rotation2. Qed.

(** Other shapes and coordinate types are errors; there is no access of other memory. *)
Theorem C88_errors : forall m base junk a b c ct_in ct_out,
  (~ ((0 <= ct_in <= 2) /\ (0 <= ct_out <= 2) /\ vectors_shape (shape a)) ->
   convert_array m base junk a ct_in ct_out = Err ValueError) /\
  (~ (vectors_shape (shape a) /\ angles_shape (shape b) (shape a)) ->
   vrot_sph2geod_array m base junk a b = Err ValueError) /\
  (~ (vectors_shape (shape a) /\ angles_shape (shape b) (shape a) /\ angles_shape (shape c) (shape a)) ->
   vrot_sph2cart_array m base junk a b c = Err ValueError /\
   vrot_cart2sph_array m base junk a b c = Err ValueError).
Proof.
  intros m base junk a b c ct_in ct_out. split; [exact (convert_array_error m base junk a ct_in ct_out)|].
  split; [exact (sph2geod_array_error m base junk a b)|].
  intro H. split; [exact (sph2cart_array_error m base junk a b c H)|exact (cart2sph_array_error m base junk a b c H)].
Qed.
Print Assumptions C88_errors.

Example C88_errors_example : forall m base junk,
  convert_array m base junk columns 0 3 = Err ValueError /\
  convert_array m base junk reversed 0 1 = Err ValueError /\
  vrot_sph2geod_array m base junk columns columns = Err ValueError.
Proof. exact ex_errors. Qed.
