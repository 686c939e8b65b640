(** C59: the buffers of the evaluation of the spherical harmonics have an end, and no element has a
    value before it is written.  [None] is an access outside of a buffer or the reading of an
    element without a value; [sheval] is the evaluation with unbounded arrays, [mem] their content
    before they are written. *)

From Coq Require Import Bool List Reals Arith ZArith.
From Verif Require Import ArrModel LegendreModel LegendreSpec GeoModel SizeModel CoefModel ShEvalModel BufModel BufSpec
  BufTopProofs BufExamples.
Import ListNotations.
Open Scope R_scope.

(** sheval of a degree above 0: every access is inside of the buffers and the result does not depend
    on what was in them. *)
Theorem C59_sheval_partial : forall x csize cb cn ct_in ct_out mode internal degree scale_pot scale_grd mem,
  (0 <= csize < 2 ^ 50)%Z -> coef_buffers (Z.to_nat csize) cb cn ->
  degree <> 0%Z -> csize = 0%Z \/ (3 <= csize)%Z ->
  b_sheval x csize cb ct_in ct_out mode internal degree scale_pot scale_grd =
  Some (sheval x csize cn ct_in ct_out mode internal degree scale_pot scale_grd mem).
Proof. exact sheval_safe. Qed.
Print Assumptions C59_sheval_partial.

(** sheval of the degree 0 writes behind its buffers, in every call with a position. *)
Theorem C59_sheval_refuted : forall x csize cb ct_in ct_out mode internal degree scale_pot scale_grd,
  (1 <= csize < 2 ^ 50)%Z -> degree = 0%Z \/ (csize <= 2)%Z ->
  (forall odims, odims = dims x \/ odims = dims cb -> List.Forall (fun d => (0 < d)%nat) odims) ->
  let odims := if Nat.ltb (length (dims x)) (length (dims cb)) then dims cb else dims x in
  compare_dimensions odims (dims x) = false -> compare_dimensions odims (dims cb) = false ->
  b_sheval x csize cb ct_in ct_out mode internal degree scale_pot scale_grd = None.
Proof. exact sheval_overrun. Qed.
Print Assumptions C59_sheval_refuted.

(** Any sequence of evaluations with the same buffers, as shevaltemp and sheval2dfs do them: of a
    degree above 0 with sets of (degree + 1) * (degree + 2) / 2 coefficients ... *)
Theorem C59_workspace_partial : forall cfg mode st items,
  (1 <= degree cfg)%nat -> b_model_init (degree cfg) = Some st ->
  List.Forall (fun item => exists a, initialised (nm_size (degree cfg)) (snd item) a) items ->
  exists out, b_evals cfg mode items st = Some out.
Proof. exact workspace_safe. Qed.
Print Assumptions C59_workspace_partial.

(** ... and of the degree 0 *)
Theorem C59_workspace_refuted : forall cfg mode st xyz coeff items,
  degree cfg = 0%nat -> b_model_init 0 = Some st -> b_evals cfg mode ((xyz, coeff) :: items) st = None.
Proof. exact workspace_overrun. Qed.
Print Assumptions C59_workspace_refuted.

Example C59_example_sheval : exists out,
  b_sheval one_place 6 (two_bufs 6) CT_GEOCENTRIC_SPHERICAL CT_GEOCENTRIC_SPHERICAL SM_GRADIENT true 2 1 (1, 1, 1)
    = Some (Ok ([2%nat], out)).
Proof. exact ex_sheval_safe. Qed.

Example C59_example_sheval_overrun :
  b_sheval one_place 6 (two_bufs 6) CT_GEOCENTRIC_SPHERICAL CT_GEOCENTRIC_SPHERICAL SM_GRADIENT true 0 1 (1, 1, 1) = None.
Proof. exact ex_sheval_overrun. Qed.

(** a set of coefficients which ends too early, and an element which has no value *)
Example C59_example_short : b_eval_v 2 1 {| bf_size := 5; bf_cell := fun _ => Some (1, 1) |}
  {| bf_size := 3; bf_cell := fun _ => Some (1, 0) |} {| bf_size := 6; bf_cell := fun _ => Some 1 |}
  {| bf_size := 3; bf_cell := fun _ => Some 1 |} = None.
Proof. exact ex_short. Qed.
Example C59_example_unwritten : b_eval_v 2 1 {| bf_size := 6; bf_cell := fun _ => Some (1, 1) |}
  {| bf_size := 3; bf_cell := fun _ => Some (1, 0) |} {| bf_size := 6; bf_cell := fun k => if Nat.eqb k 4 then None else Some 1 |}
  {| bf_size := 3; bf_cell := fun _ => Some 1 |} = None.
Proof. exact ex_unwritten. Qed.

Example C59_example_workspace : exists (c : model_cfg) st out, degree c = 3%nat /\ b_model_init 3 = Some st /\
  b_evals c SM_POTENTIAL_AND_GRADIENT
    [((30, 60, 7000), {| bf_size := 10; bf_cell := fun _ => Some (1, 1) |});
     ((30, 61, 7000), {| bf_size := 10; bf_cell := fun _ => Some (1, 2) |})] st = Some out.
Proof. exact ex_workspace. Qed.
