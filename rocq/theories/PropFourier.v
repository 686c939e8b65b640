(** C23, C29, C59 and C65: the 2D Fourier series and the spherical harmonic models with such
    coefficients. *)

From Coq Require Import List Reals ZArith.
From Verif Require Import LegendreModel CoefModel GeoModel ShEvalModel ShEvalSpec SparseModel SparseSpec TempSpec
  FourierModel FourierSpec FourierProofs FourierEvalProofs FourierExamples.
Import ListNotations.
Open Scope R_scope.

(** fourier2d is the double sum for each of the times and of the arrays of coefficients.  Missing:
    the degrees for which the code writes outside of its buffer, see C29_refuted. *)
Theorem C29_value_partial : forall t1 t2 c0 size1 size2 min1 min2 s1 s2 mem,
  degrees_fit size1 size2 min1 min2 -> dims t1 = dims t2 ->
  fourier2d t1 t2 c0 size1 size2 min1 min2 s1 s2 mem =
  Ok (dims t1 ++ dims c0,
      map (fun ix => fourier_value (get c0 (skipn (length (dims t1)) ix)) size1 size2 min1 min2 s1 s2
                       (at_index t1 ix) (at_index t2 ix)) (indices (dims t1 ++ dims c0))).
Proof. exact fourier2d_value. Qed.
Print Assumptions C29_value_partial.

(** The times of different dimensions are refused. *)
Theorem C29_shape : forall t1 t2 c0 size1 size2 min1 min2 s1 s2 mem,
  dims t1 <> dims t2 -> fourier2d t1 t2 c0 size1 size2 min1 min2 s1 s2 mem = Err ValueError.
Proof. exact fourier2d_shape. Qed.
Print Assumptions C29_shape.

Example C29_example : degrees_fit 2 3 0 (-1) /\
  fourier_value ex_ab 1 2 0 (-1) 1 2 0 5 = 0 * cos (-10) + 1 * sin (-10) + (1 * cos 0 + 1 * sin 0).
Proof. exact ex_fit. Qed.

(** There are degrees for which there is no result for any times and coefficients. *)
Theorem C29_refuted : exists size1 size2 min1 min2, forall t1 t2 c s1 s2 mem,
  fourier2d (nd0 t1) (nd0 t2) (nd0 c) size1 size2 min1 min2 s1 s2 mem = Err OutOfBounds.
Proof. exact series_refuted. Qed.
Print Assumptions C29_refuted.

(** All the degrees which do not fit make fourier2d write outside of its buffer. *)
Theorem C59_fourier2d_refuted : forall t1 t2 c0 size1 size2 min1 min2 s1 s2 mem,
  ~ degrees_fit size1 size2 min1 min2 -> dims t1 = dims t2 -> indices (dims t1) <> [] ->
  fourier2d t1 t2 c0 size1 size2 min1 min2 s1 s2 mem = Err OutOfBounds.
Proof. exact fourier2d_outside. Qed.
Print Assumptions C59_fourier2d_refuted.

Example C59_fourier2d_example : ~ degrees_fit 1 2 0 (-3).
Proof. exact ex_unfit. Qed.

(** Every element of a call for arrays is the result of a call for its times and its position alone. *)
Theorem C23_batch_pointwise : forall t1 t2 x s ci co mode internal sp sg mem fmem odims out,
  sheval2dfs t1 t2 x s ci co mode internal sp sg mem fmem = Ok (odims, out) ->
  length out = length (indices odims) /\
  forall k ix, nth_error (indices odims) k = Some ix ->
    exists o, nth_error out k = Some o /\
      forall mem' fmem', sheval2dfs (nd0 (at_index t1 ix)) (nd0 (at_index t2 ix)) (nd0 (at_index x ix)) s
        ci co mode internal sp sg mem' fmem' = Ok ([], [o]).
Proof. exact fs_pointwise. Qed.
Print Assumptions C23_batch_pointwise.

(** The arrays are accepted just when their common leading dimensions are the same; the result has
    the dimensions of the array which has the most of them. *)
Theorem C23_shape : forall t1 t2 x s ci co mode internal sp sg mem fmem, usable_2dfs s ->
  (leading_match (dims t1) (dims t2) /\ leading_match (dims t1) (dims x) /\ leading_match (dims t2) (dims x) ->
   exists odims out, sheval2dfs t1 t2 x s ci co mode internal sp sg mem fmem = Ok (odims, out) /\
     longest_of odims (dims t1) (dims t2) (dims x)) /\
  (~ (leading_match (dims t1) (dims t2) /\ leading_match (dims t1) (dims x) /\ leading_match (dims t2) (dims x)) ->
   sheval2dfs t1 t2 x s ci co mode internal sp sg mem fmem = Err ValueError).
Proof. exact fs_shape. Qed.
Print Assumptions C23_shape.

Example C23_example : leading_match [2%nat] [2%nat; 3%nat] /\ leading_match [2%nat] [2%nat; 3%nat; 4%nat] /\
  leading_match [2%nat; 3%nat] [2%nat; 3%nat; 4%nat] /\
  longest_of [2%nat; 3%nat; 4%nat] [2%nat] [2%nat; 3%nat] [2%nat; 3%nat; 4%nat].
Proof. exact ex_dims. Qed.

(** A call for two times is a call of sheval with the coefficients which are the values of the
    series for the times, and zero if there is no series for the degree and order; the last one counts
    if there are more series for the same degree and order.  The first degree of the
    second series has to fit, see C29_refuted. *)
Theorem C65_value_partial : forall s N t1 t2, usable_2dfs s ->
  largest_degree (fs_nm s) N -> (N < 2 ^ 24)%Z ->
  exists c : coefs,
    (forall i n m ab, nth_error (fs_nm s) i = Some (n, m) -> nth_error (fs_ab s) i = Some ab ->
       (forall j, (i < j)%nat -> nth_error (fs_nm s) j <> Some (n, m)) ->
       coef_nm c n m = series_value s ab t1 t2) /\
    (forall n m, valid_nm n m -> ~ In (n, m) (fs_nm s) -> coef_nm c n m = 0) /\
    forall x csize ci co mode internal sp sg mem fmem mem', (2 * csize = (N + 1) * (N + 2))%Z ->
      sheval2dfs (nd0 t1) (nd0 t2) x s ci co mode internal sp sg mem fmem =
      sheval x csize (nd0 c) ci co mode internal (-1) sp sg mem'.
Proof. exact fs_last. Qed.
Print Assumptions C65_value_partial.

Example C65_example : usable_2dfs ex_set /\
  (forall i j p, nth_error (fs_nm ex_set) i = Some p -> nth_error (fs_nm ex_set) j = Some p -> i = j) /\
  largest_degree (fs_nm ex_set) 2 /\ (2 * 6 = (2 + 1) * (2 + 2))%Z.
Proof. exact ex_set_ok. Qed.

Example C65_example_twice : usable_2dfs ex_set_twice /\ largest_degree (fs_nm ex_set_twice) 2 /\
  nth_error (fs_nm ex_set_twice) 0 = nth_error (fs_nm ex_set_twice) 2 /\
  (forall j, (2 < j)%nat -> nth_error (fs_nm ex_set_twice) j <> Some (2, -1)%Z).
Proof. exact ex_set_twice_ok. Qed.

(** sheval2dfs stays inside of its buffers for the usable sets of coefficients ... *)
Theorem C59_sheval2dfs_partial : forall t1 t2 x s ci co mode internal sp sg mem fmem, usable_2dfs s ->
  sheval2dfs t1 t2 x s ci co mode internal sp sg mem fmem <> Err OutOfBounds.
Proof. exact fs_in_bounds. Qed.
Print Assumptions C59_sheval2dfs_partial.

(** ... but not for sets of one series and two pairs (n, m), a mistake of the caller which is
    detected and then ignored, or for the degrees which do not fit. *)
Theorem C59_sheval2dfs_refuted : exists s s',
  length (fs_ab s) <> length (fs_nm s) /\ (length (fs_ab s') = length (fs_nm s') /\ forall n m, In (n, m) (fs_nm s') -> valid_nm n m) /\
  forall t1 t2 x ci co mode internal sp sg mem fmem,
    sheval2dfs (nd0 t1) (nd0 t2) (nd0 x) s ci co mode internal sp sg mem fmem = Err OutOfBounds /\
    sheval2dfs (nd0 t1) (nd0 t2) (nd0 x) s' ci co mode internal sp sg mem fmem = Err OutOfBounds.
Proof. exact fs_refuted. Qed.
Print Assumptions C59_sheval2dfs_refuted.
