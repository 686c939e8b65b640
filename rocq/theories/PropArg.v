(** Property C95: the functions of the C extension raise ValueError exactly for the codes and shapes of the arguments which are not
    the documented ones.  A refused call returns no memory, so that nothing has been changed by it.  What happens for the accepted
    ones is in the properties C88, C89 and C93. *)
From Coq Require Import Bool List Reals ZArith.
From Verif Require Import ArrModel LegendreModel CoefModel ShEvalModel ShEvalSpec InterpModel TempModel FourierModel SunModel StridedModel
  StridedSpec StridedEvalModel NdModel NdSpec ArgSpec ArgFunProofs ArgEvalProofs ArgExamples.
Import ListNotations.
Open Scope Z_scope.

(** The nodes are a 1D array and the side is 0 or 1. *)
Theorem C95_bisect : forall m base junk v x side,
  refused (bisect_array m base junk v x side) <-> ~ ((side = 0 \/ side = 1) /\ exists n, shape v = [n]).
Proof. exact bisect_refused. Qed.
Print Assumptions C95_bisect.

Example C95_example_bisect : forall m base junk, refused (bisect_array m base junk (ex_arr [3%nat; 2%nat]) (ex_arr []) 0) /\
  refused (bisect_array m base junk (ex_arr [3%nat]) (ex_arr []) 2) /\ ~ refused (bisect_array m base junk (ex_arr [3%nat]) (ex_arr []) 1).
Proof. exact ex_bisect_arg. Qed.

(** The last axis of the coefficients is that of the nodes, whose number is enough for the kind. *)
Theorem C95_interp : forall m base junk t t0 c0 kind extrapolate,
  refused (interp_array m base junk t t0 c0 kind extrapolate) <->
  ~ exists n ds, shape t0 = [n] /\ shape c0 = ds ++ [n] /\ node_code kind n.
Proof. exact interp_refused. Qed.
Print Assumptions C95_interp.

Example C95_example_interp : node_code 17 2 /\ ~ node_code 17 1 /\ ~ node_code 2 5.
Proof. exact ex_node_code. Qed.

(** The degree is not negative. *)
Theorem C95_legendre : forall m bp bd junk lat degree buf init,
  refused (legendre_array m bp bd junk lat degree buf init) <-> ~ 0 <= degree.
Proof. exact legendre_refused. Qed.
Print Assumptions C95_legendre.

Theorem C95_loncossin : forall m base junk lon degree fast init,
  refused (loncossin_array m base junk lon degree fast init) <-> ~ 0 <= degree.
Proof. exact loncossin_refused. Qed.
Print Assumptions C95_loncossin.

(** The reference radius is positive. *)
Theorem C95_relradpow : forall m base junk rad degree reference internal init,
  refused (relradpow_array m base junk rad degree reference internal init) <-> ~ (0 <= degree /\ (0 < reference)%R).
Proof. exact relradpow_refused. Qed.
Print Assumptions C95_relradpow.

(** The shapes of the arrays agree in the dimensions which they have and there is at least the degree 0 in each of them.  The sizes are less than 2^50. *)
Theorem C95_spharpot : forall m base junk rad coef lp rrp lcs degree, not_huge coef -> not_huge lp ->
  (refused (spharpot_array m base junk rad coef lp rrp lcs degree) <->
   ~ exists dc dl dr ds, pairs_shape coef dc /\ row_shape lp dl /\ row_shape rrp dr /\ pairs_shape lcs ds /\
       agree [shape rad; dc; dl; dr; ds]).
Proof. exact spharpot_refused. Qed.
Print Assumptions C95_spharpot.

(** The same with the derivatives. *)
Theorem C95_sphargrd : forall m base junk lat coef lp ldp rrp lcs internal degree,
  not_huge coef -> not_huge lp -> not_huge ldp ->
  (refused (sphargrd_array m base junk lat coef lp ldp rrp lcs internal degree) <->
   ~ exists dc dl dd dr ds, pairs_shape coef dc /\ row_shape lp dl /\ row_shape ldp dd /\ row_shape rrp dr /\ pairs_shape lcs ds /\
       agree [shape lat; dc; dl; dd; dr; ds]).
Proof. exact sphargrd_refused. Qed.
Print Assumptions C95_sphargrd.

Example C95_example_agree : agree [[]; [2%nat; 5%nat]; [2%nat]] /\ ~ agree [[2%nat; 5%nat]; [5%nat]].
Proof. exact ex_agree. Qed.

Example C95_example_pairs : pairs_shape (ex_arr [4%nat; 3%nat; 2%nat]) [4%nat] /\ row_shape (ex_arr [4%nat; 3%nat]) [4%nat] /\
  not_huge (ex_arr [4%nat; 3%nat; 2%nat]) /\ ~ (exists ds, pairs_shape (ex_arr [4%nat; 0%nat; 2%nat]) ds).
Proof. exact ex_pairs_shape. Qed.

(** The times have the same shape and the coefficients three more axes, the last one of two. *)
Theorem C95_fourier2d : forall m base junk t1 t2 c0 min1 min2 s1 s2 mem,
  refused (fourier2d_array m base junk t1 t2 c0 min1 min2 s1 s2 mem) <->
  ~ (shape t1 = shape t2 /\ exists ds n1 n2, shape c0 = ds ++ [n1; n2; 2%nat]).
Proof. exact fourier2d_refused. Qed.
Print Assumptions C95_fourier2d.

(** The arguments are scalars or have one common shape of at most 15 dimensions. *)
Theorem C95_sunpos : forall m base junk mjd lat lon rad dtt,
  refused (sunpos_array m base junk mjd lat lon rad dtt) <->
  ~ exists D, (length D <= 15)%nat /\ List.Forall (scalar_or D) [mjd; lat; lon; rad; dtt].
Proof. exact (fun m base junk mjd lat lon rad dtt => sun_refused _ m base junk mjd [lat; lon; rad; dtt]). Qed.
Print Assumptions C95_sunpos.

Theorem C95_sunpos_original : forall m base junk mjd lat lon rad dtt pres temp,
  refused (sunpos_original_array m base junk mjd lat lon rad dtt pres temp) <->
  ~ exists D, (length D <= 15)%nat /\ List.Forall (scalar_or D) [mjd; lat; lon; rad; dtt; pres; temp].
Proof. exact (fun m base junk mjd lat lon rad dtt pres temp => sun_refused _ m base junk mjd [lat; lon; rad; dtt; pres; temp]). Qed.
Print Assumptions C95_sunpos_original.

Example C95_example_sun : (exists D, (length D <= 15)%nat /\ List.Forall (scalar_or D) [ex_arr []; ex_arr [4%nat]; ex_arr []; ex_arr [4%nat]; ex_arr []]) /\
  ~ (exists D, (length D <= 15)%nat /\ List.Forall (scalar_or D) [ex_arr [1%nat]; ex_arr [4%nat]; ex_arr []; ex_arr []; ex_arr []]).
Proof. exact ex_sun_arg. Qed.

(** The conversions of the times: at most 15 dimensions. *)
Theorem C95_times : forall m base junk a,
  (refused (mjd2000_to_decimal_year m base junk a) <-> ~ (length (shape a) <= 15)%nat) /\
  (refused (mjd2000_to_year_fraction m base junk a) <-> ~ (length (shape a) <= 15)%nat) /\
  (refused (decimal_year_to_mjd2000 m base junk a) <-> ~ (length (shape a) <= 15)%nat).
Proof. exact (fun m base junk a => conj (time_refused _ m base junk a) (conj (time_refused _ m base junk a) (time_refused _ m base junk a))). Qed.
Print Assumptions C95_times.

(** The conversion of the coordinates and the rotations of the vectors. *)
Theorem C95_convert : forall m base junk a ci co,
  refused (convert_array m base junk a ci co) <-> ~ (coord_code ci /\ coord_code co /\ vectors_shape (shape a)).
Proof. exact convert_refused. Qed.
Print Assumptions C95_convert.

Theorem C95_vrot_sph2geod : forall m base junk a b,
  refused (vrot_sph2geod_array m base junk a b) <-> ~ (vectors_shape (shape a) /\ angles_shape (shape b) (shape a)).
Proof. exact sph2geod_refused. Qed.
Print Assumptions C95_vrot_sph2geod.

Theorem C95_vrot_sph2cart : forall m base junk a b c,
  refused (vrot_sph2cart_array m base junk a b c) <->
  ~ (vectors_shape (shape a) /\ angles_shape (shape b) (shape a) /\ angles_shape (shape c) (shape a)).
Proof. exact sph2cart_refused. Qed.
Print Assumptions C95_vrot_sph2cart.

Theorem C95_vrot_cart2sph : forall m base junk a b c,
  refused (vrot_cart2sph_array m base junk a b c) <->
  ~ (vectors_shape (shape a) /\ angles_shape (shape b) (shape a) /\ angles_shape (shape c) (shape a)).
Proof. exact cart2sph_refused. Qed.
Print Assumptions C95_vrot_cart2sph.

(** The evaluation of a model.  Missing: the last axis of the positions, which is not checked, see below. *)
Theorem C95_sheval_partial : forall m bp bg junk x coef ci co mode internal degree sp scale mem,
  not_huge coef -> has_strides scale ->
  (refused (sheval_array m bp bg junk x coef ci co mode internal degree sp scale mem) <->
   ~ (coord_code ci /\ coord_code co /\ eval_code mode /\ scale_shape scale /\
     exists dx k dc, shape x = dx ++ [k] /\ pairs_shape coef dc /\ agree [dx; dc])).
Proof. exact sheval_refused. Qed.
Print Assumptions C95_sheval_partial.

Example C95_example_scale : has_strides (Some (ex_arr [3%nat])) /\ scale_shape (Some (ex_arr [3%nat])) /\ ~ scale_shape (Some (ex_arr [2%nat])).
Proof. exact ex_scale. Qed.

(** Positions of other than three coordinates are accepted. *)
Theorem C95_sheval_refuted : ~ (forall m bp bg junk x coef ci co mode internal degree sp scale mem, not_huge coef -> has_strides scale ->
  (refused (sheval_array m bp bg junk x coef ci co mode internal degree sp scale mem) <->
   ~ (coord_code ci /\ coord_code co /\ eval_code mode /\ scale_shape scale /\
      exists dx dc, shape x = dx ++ [3%nat] /\ pairs_shape coef dc /\ agree [dx; dc]))).
Proof. exact sheval_axis_refuted. Qed.
Print Assumptions C95_sheval_refuted.

(** The evaluation of a model with time-dependent coefficients.  Missing: that the sets of coefficients can be evaluated. *)
Theorem C95_shevaltemp_partial : forall m bp bg junk t x sets ci co mode internal sp scale mem, has_strides scale ->
  (refused (shevaltemp_array m bp bg junk t x sets ci co mode internal sp scale mem) <->
   ~ (coord_code ci /\ coord_code co /\ eval_code mode /\ scale_shape scale /\
     (1 <= length sets <= 16)%nat /\ List.Forall set_sizes sets /\
      exists dx, shape x = dx ++ [3%nat] /\ agree [shape t; dx])).
Proof. exact shevaltemp_refused. Qed.
Print Assumptions C95_shevaltemp_partial.

(** Sets with fewer times than the spline needs and with orders larger than the degree are accepted. *)
Theorem C95_shevaltemp_refuted : ~ (forall m bp bg junk t x sets ci co mode internal sp scale mem, has_strides scale ->
  (refused (shevaltemp_array m bp bg junk t x sets ci co mode internal sp scale mem) <->
   ~ (coord_code ci /\ coord_code co /\ eval_code mode /\ scale_shape scale /\
      (1 <= length sets <= 16)%nat /\ List.Forall set_sizes sets /\ List.Forall set_complete sets /\
      exists dx, shape x = dx ++ [3%nat] /\ agree [shape t; dx]))).
Proof. exact shevaltemp_sets_refuted. Qed.
Print Assumptions C95_shevaltemp_refuted.

(** Each such set is accepted. *)
Theorem C95_incomplete_sets_refuted : forall s m bp bg junk internal sp mem, set_sizes s -> ~ set_complete s ->
  let call := shevaltemp_array m bp bg junk (ex_arr []) (ex_arr [3%nat]) [s] 1 1 1 internal sp None mem in
  ~ refused call.
Proof. exact shevaltemp_incomplete. Qed.
Print Assumptions C95_incomplete_sets_refuted.

Example C95_example_sets : set_sizes ([0%R], [[1%R]], [(1, 5)], 1) /\ ~ set_complete ([0%R], [[1%R]], [(1, 5)], 1) /\
  set_sizes ([0%R], [[1%R]], [(1, 1)], 2) /\ ~ set_complete ([0%R], [[1%R]], [(1, 1)], 2) /\
  set_sizes ([0%R; 1%R], [[1%R; 2%R]], [(1, -1)], 2) /\ set_complete ([0%R; 1%R], [[1%R; 2%R]], [(1, -1)], 2).
Proof. exact ex_incomplete. Qed.

(** The evaluation of a model with 2D Fourier series.  Missing: the number of the coefficients. *)
Theorem C95_sheval2dfs_partial : forall m bp bg junk t1 t2 x s ci co mode internal sp scale mem fmem, has_strides scale ->
  (refused (sheval2dfs_array m bp bg junk t1 t2 x s ci co mode internal sp scale mem fmem) <->
   ~ (coord_code ci /\ coord_code co /\ eval_code mode /\ scale_shape scale /\
     exists dx, shape x = dx ++ [3%nat] /\ agree [shape t1; shape t2; dx])).
Proof. exact sheval2dfs_refused. Qed.
Print Assumptions C95_sheval2dfs_partial.

(** A number of coefficients other than that of the degrees and orders does not raise ValueError. *)
Theorem C95_sheval2dfs_refuted : ~ (forall m bp bg junk t1 t2 x s ci co mode internal sp scale mem fmem, has_strides scale ->
  (refused (sheval2dfs_array m bp bg junk t1 t2 x s ci co mode internal sp scale mem fmem) <->
   ~ (coord_code ci /\ coord_code co /\ eval_code mode /\ scale_shape scale /\
      length (fs_ab s) = length (fs_nm s) /\
      exists dx, shape x = dx ++ [3%nat] /\ agree [shape t1; shape t2; dx]))).
Proof. exact sheval2dfs_sizes_refuted. Qed.
Print Assumptions C95_sheval2dfs_refuted.

