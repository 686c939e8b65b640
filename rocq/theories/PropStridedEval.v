(** C89: the evaluation of the models for arrays of any memory layout *)

From Coq Require Import List Reals ZArith.
From Verif Require Import GeoModel CoefModel ShEvalModel ShEvalSpec TempModel TempExamples FourierModel FourierExamples
  StridedModel StridedSpec StridedExamples
  StridedEvalModel StridedEvalSpec StridedEvalProofs StridedEvalTopProofs StridedEvalExamples.
Import ListNotations.
Open Scope Z_scope.

(** For positions of any number of dimensions and of any strides but the one of the last
    dimension, sheval gives new arrays of the results for the positions and the coefficients
    at the same index, and changes no other memory.  Missing: other strides of the last dimension,
    see C89_strided_refuted. *)
Theorem C89_sheval_partial : forall m bp bg junk x nx coef csize nc ci co mode internal deg sp scale sg mem,
  positions m x nx -> packed x -> coefficients m coef csize nc -> c_contiguous coef -> Z.of_nat csize < 2 ^ 50 ->
  scales m scale sg -> room m bp bg mode (longer (dims nx) (dims nc)) ->
  same_result mode m (sheval nx (Z.of_nat csize) nc ci co mode internal deg sp sg mem)
    (sheval_array m bp bg junk x coef (ct_code ci) (ct_code co) (mode_code mode) internal deg sp scale mem).
Proof. exact sheval_packed. Qed.
Print Assumptions C89_sheval_partial.

Example C89_sheval_example : forall junk mem, exists m' out,
  positions eight rows two_rows /\ packed rows /\ coefficients eight monopole 1 nmonopole /\ c_contiguous monopole /\
  room eight 64 0 SM_POTENTIAL [2%nat] /\
  sheval_array eight 64 0 junk rows monopole 1 1 1 true (-1) 1 None mem = Ok (m', Some out, None) /\
  element m' out [0%nat] = Some (6371.2 * (6371.2 / 2))%R /\ element m' out [1%nat] = Some (6371.2 * (6371.2 / 5))%R.
Proof. exact ex_sheval. Qed.

(** The same for shevaltemp; the times have any strides. *)
Theorem C89_shevaltemp_partial : forall m bp bg junk t nt x nx sets ci co mode internal sp scale sg mem,
  numbers m t nt -> positions m x nx -> packed x -> scales m scale sg -> room m bp bg mode (longer (dims nt) (dims nx)) ->
  same_result mode m (shevaltemp nt nx sets ci co mode internal sp sg mem)
    (shevaltemp_array m bp bg junk t x sets (ct_code ci) (ct_code co) (mode_code mode) internal sp scale mem).
Proof. exact shevaltemp_packed. Qed.
Print Assumptions C89_shevaltemp_partial.

(** The same for sheval2dfs. *)
Theorem C89_sheval2dfs_partial : forall m bp bg junk t1 nt1 t2 nt2 x nx s ci co mode internal sp scale sg mem fmem,
  numbers m t1 nt1 -> numbers m t2 nt2 -> positions m x nx -> packed x -> scales m scale sg ->
  room m bp bg mode (longer (longer (dims nt1) (dims nt2)) (dims nx)) ->
  same_result mode m (sheval2dfs nt1 nt2 nx s ci co mode internal sp sg mem fmem)
    (sheval2dfs_array m bp bg junk t1 t2 x s (ct_code ci) (ct_code co) (mode_code mode) internal sp scale mem fmem).
Proof. exact sheval2dfs_packed. Qed.
Print Assumptions C89_sheval2dfs_partial.

Example C89_others_example : forall junk mem fmem,
  numbers eight reversed (two_numbers 7 6) /\ numbers eight scalar (nd0 6%R) /\ positions eight rows two_rows /\ packed rows /\
  scales eight (Some scalar) (6, 6, 6)%R /\ room eight 64 80 SM_POTENTIAL_AND_GRADIENT [2%nat] /\
  (exists m' pot grd, shevaltemp_array eight 64 80 junk reversed rows ex_sets 0 1 3 true 1 (Some scalar) mem = Ok (m', Some pot, Some grd) /\
     shape pot = [2]%nat /\ shape grd = [2; 3]%nat) /\
  (exists m' pot grd, sheval2dfs_array eight 64 80 junk reversed scalar rows ex_set 0 2 3 false 1 (Some scalar) mem fmem
     = Ok (m', Some pot, Some grd) /\ shape pot = [2]%nat /\ shape grd = [2; 3]%nat).
Proof. exact ex_others. Qed.

(** The columns of a 3x2 array, that is, of a transposed array of two positions: the results are not
    those for the positions of the array, because the components are read as if they were
    next to each other. *)
Theorem C89_strided_refuted : forall junk mem,
  positions eight columns two_columns /\ coefficients eight monopole 1 nmonopole /\ c_contiguous monopole /\
  room eight 64 0 SM_POTENTIAL [2%nat] /\
  sheval two_columns 1 nmonopole CT_GEOCENTRIC_SPHERICAL CT_GEOCENTRIC_SPHERICAL SM_POTENTIAL true (-1) 1 (1, 1, 1)%R mem =
    Ok ([2%nat], [(Some (6371.2 * (6371.2 / 4))%R, None); (Some (6371.2 * (6371.2 / 5))%R, None)]) /\
  exists m' out,
  sheval_array eight 64 0 junk columns monopole 1 1 1 true (-1) 1 None mem = Ok (m', Some out, None) /\
  element m' out [0%nat] = Some (6371.2 * (6371.2 / 2))%R /\ element m' out [1%nat] = Some (6371.2 * (6371.2 / 3))%R.
Proof. exact strided_refuted. Qed.
Print Assumptions C89_strided_refuted.

(** An array whose last dimension is not 3 is not rejected by sheval: the memory behind a
    position of two numbers is read. *)
Theorem C89_short_refuted : forall junk mem,
  array_in eight short /\ room eight 80 0 SM_POTENTIAL [] /\
  sheval_array eight 80 0 junk short monopole 1 1 1 true (-1) 1 None mem = Err OutOfBounds.
Proof. exact short_refuted. Qed.
Print Assumptions C89_short_refuted.

(** Other coordinate types, modes and shapes of the gradient scale are errors, and so are the positions
    of another last dimension for shevaltemp and sheval2dfs. *)
Theorem C89_errors : forall m bp bg junk t1 t2 x coef sets s ci co mode internal deg sp scale mem fmem,
  (~ (0 <= ci <= 2 /\ 0 <= co <= 2 /\ 1 <= mode <= 3) \/
   (exists a, scale = Some a /\ shape a <> [] /\ shape a <> [3%nat]) ->
   sheval_array m bp bg junk x coef ci co mode internal deg sp scale mem = Err ValueError) /\
  (~ (0 <= ci <= 2 /\ 0 <= co <= 2 /\ 1 <= mode <= 3) \/
   last (shape x) 0%nat <> 3%nat \/ (exists a, scale = Some a /\ shape a <> [] /\ shape a <> [3%nat]) ->
   shevaltemp_array m bp bg junk t1 x sets ci co mode internal sp scale mem = Err ValueError /\
   sheval2dfs_array m bp bg junk t1 t2 x s ci co mode internal sp scale mem fmem = Err ValueError).
Proof.
  intros m bp bg junk t1 t2 x coef sets s ci co mode internal deg sp scale mem fmem. split.
  - intros [H|(a & -> & H1 & H2)]; [now apply sheval_codes|now apply sheval_scale_error].
  - intros [H|H]; split; [now apply shevaltemp_codes|now apply sheval2dfs_codes|now apply shevaltemp_wrong|now apply sheval2dfs_wrong].
Qed.
Print Assumptions C89_errors.

Example C89_errors_example : forall m bp bg junk internal sp mem,
  sheval_array m bp bg junk rows monopole 1 3 1 internal (-1) sp None mem = Err ValueError /\
  sheval_array m bp bg junk rows monopole 1 1 1 internal (-1) sp (Some columns) mem = Err ValueError /\
  shevaltemp_array m bp bg junk scalar short ex_sets 0 0 1 internal sp None mem = Err ValueError.
Proof. exact ex_eval_errors. Qed.
