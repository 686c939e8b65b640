(** The decay of the fields of the loaded models. *)
From Coq Require Import Bool List Arith ZArith Reals Lia Lra.
From Coquelicot Require Import Coquelicot.
From Verif Require Import Ord ROrd RbarOrd ArrModel GeoModel CoefModel ShEvalModel ShEvalSpec TextModel SparseSpec InterpSpec TimeModel YearSetModel ShcModel ShcSpec ShcLoadModel ShcLoadSpec
  IgrfModel IgrfSpec EmmModel EmmSpec FieldModel FieldSpec FieldProofs FileFieldSpec FileFieldProofs FieldSizeSpec FieldDecayProofs FieldRateProofs
  ShcExamples WmmExamples ShcLoadExamples IgrfExamples EmmExamples.
Import ListNotations.
Open Scope R_scope.

Lemma table_monopole (value : Z -> Z -> R -> Prop) lo hi gh : (forall v, value 0%Z 0%Z v -> v = 0) -> coefficient_table value lo hi gh -> fst (gh 0%nat 0%nat) = 0.
Proof.
  intros Z T. destruct (T 0%nat 0%nat (Nat.le_refl 0)) as [T1 T2].
  assert (X : within_bounds lo hi (Z.of_nat 0) \/ ~ within_bounds lo hi (Z.of_nat 0)) by (unfold within_bounds; lia).
  destruct X as [X|X]; [|now rewrite (T2 X)]. apply Z. exact (proj1 (T1 X)).
Qed.

Lemma result_decay validity value lo hi N u lat lon rad r0 f gh : field_result validity value true lo hi N (Some u, (lat, lon, rad)) (Some f) ->
  (forall v, value u 0%Z 0%Z v -> v = 0) -> -90 <= lat <= 90 -> 0 < r0 <= rad -> coefficient_table (value u) lo hi gh ->
  vector_length f <= (r0 / rad) ^ 3 * whole_field true gh N r0.
Proof.
  intros G Z A L T. pose proof (valid_result _ _ _ _ _ _ _ _ _ G) as V.
  destruct (proj2 G u gh eq_refl V A ltac:(lra) T) as (f' & [= <-] & Ff).
  apply (field_decay gh N lat lon r0 rad f); try assumption. now apply (table_monopole (value u) lo hi).
Qed.

Lemma igrf_decay to_int to_float file times rows t1 t2 N lo hi mem txs :
  igrf_file to_int to_float file times rows -> increasing times -> proper_igrf times rows ->
  nth_error times 0 = Some t1 -> nth_error times (length times - 1) = Some t2 ->
  (forall r, In r rows -> (1 <= i_n r <= Z.of_nat N)%Z) -> (Z.of_nat N < 2 ^ 24)%Z ->
  exists td out, load_coeff_igrf to_int to_float file = Parsed td /\
    model_eval_array (year_validity td) [year_leaf td] true lo hi CT_GEOCENTRIC_SPHERICAL CT_GEOCENTRIC_SPHERICAL (1, 1, 1) mem txs = Ok out /\
    forall i u lat lon rad r0 f gh, nth_error txs i = Some (Some u, (lat, lon, rad)) -> nth_error out i = Some (Some f) ->
      -90 <= lat <= 90 -> 0 < r0 <= rad ->
      coefficient_table (fun n m v => igrf_coefficient times rows n m (mjd2k_to_decimal_year u) v) lo hi gh ->
      vector_length f <= (r0 / rad) ^ 3 * whole_field true gh N r0.
Proof.
  intros F I P T1 T2 D B.
  destruct (igrf_field to_int to_float file times rows t1 t2 N true lo hi mem F I P T1 T2 (fun r H => proj2 (D r H)) B) as (td & E & H & _).
  destruct (H txs) as (out & O & R). exists td, out. split; [exact E|split; [exact O|]].
  intros i u lat lon rad r0 f gh Ii Oi A L T.
  apply (result_decay _ _ _ _ _ _ _ _ _ _ _ _ (result_of _ _ _ _ _ _ _ _ i _ _ R Ii Oi)); try assumption.
  intros v [(r & Ir & N0 & _)|[_ V0]]; [|exact V0]. specialize (D r Ir). lia.
Qed.

Lemma emm_decay to_int to_float file_static file_secvar epoch variable constant secvar N lo hi mem txs :
  emm_file to_int to_float file_static epoch (variable ++ constant) -> emm_file to_int to_float file_secvar epoch secvar ->
  same_rows variable secvar -> proper_emm (variable ++ constant) -> secvar <> [] -> nonzero_rows constant ->
  (forall r, In r (variable ++ constant) -> (1 <= m_n r <= Z.of_nat N)%Z) -> (Z.of_nat N < 2 ^ 24)%Z ->
  exists emm out, load_coeff_emm to_int to_float file_static file_secvar = Parsed emm /\
    model_eval_array (emm_validity emm) (emm_items emm) true lo hi CT_GEOCENTRIC_SPHERICAL CT_GEOCENTRIC_SPHERICAL (1, 1, 1) mem txs = Ok out /\
    forall i u lat lon rad r0 f gh, nth_error txs i = Some (Some u, (lat, lon, rad)) -> nth_error out i = Some (Some f) ->
      -90 <= lat <= 90 -> 0 < r0 <= rad ->
      coefficient_table (fun n m v => emm_coefficient epoch variable constant secvar n m (mjd2k_to_decimal_year u) v) lo hi gh ->
      vector_length f <= (r0 / rad) ^ 3 * whole_field true gh N r0.
Proof.
  intros F F' S P Z C D B.
  destruct (emm_field to_int to_float file_static file_secvar epoch variable constant secvar N true lo hi mem F F' S P Z C (fun r H => proj2 (D r H)) B) as (td & E & H & _).
  destruct (H txs) as (out & O & R). exists td, out. split; [exact E|split; [exact O|]].
  intros i u lat lon rad r0 f gh Ii Oi A L T.
  apply (result_decay _ _ _ _ _ _ _ _ _ _ _ _ (result_of _ _ _ _ _ _ _ _ i _ _ R Ii Oi)); try assumption.
  intros v [(k & s & w & a & b & I1 & _ & O1 & _)|[(s & I1 & O1)|[_ V0]]]; [| |exact V0]; exfalso.
  - apply nth_error_In in I1. specialize (D s (in_or_app _ _ _ (or_introl I1))). unfold of_order in O1. lia.
  - specialize (D s (in_or_app _ _ _ (or_intror I1))). unfold of_order in O1. lia.
Qed.

Lemma shc_decay to_int to_float years vstart vend file d N lo hi mem txs :
  shc_file to_int to_float file d -> proper_shc d -> proper_times years (shc_t d) -> degrees_up_to d N -> (Z.of_nat N < 2 ^ 24)%Z -> ~ file_lists d 0 0 ->
  exists set out, load_coeff_shc to_int to_float years vstart vend file = Parsed set /\
    model_eval_array (shc_validity set) [shc_leaf set] true lo hi CT_GEOCENTRIC_SPHERICAL CT_GEOCENTRIC_SPHERICAL (1, 1, 1) mem txs = Ok out /\
    forall i u lat lon rad r0 f gh, nth_error txs i = Some (Some u, (lat, lon, rad)) -> nth_error out i = Some (Some f) ->
      -90 <= lat <= 90 -> 0 < r0 <= rad -> file_coefficients years d lo hi u gh ->
      vector_length f <= (r0 / rad) ^ 3 * whole_field true gh N r0.
Proof.
  intros F P T D B Z.
  destruct (array_field to_int to_float years vstart vend file d N true lo hi mem txs F P T D B) as (set & out & E1 & E2 & E3 & H).
  exists set, out. split; [exact E1|split; [exact E2|]]. intros i u lat lon rad r0 f gh I O A L G.
  apply (result_decay (shc_validity set) (fun u n m v => shc_value years d n m u v) lo hi N u lat lon rad r0 f gh); try assumption.
  - exact (H i (Some u) lat lon rad (Some f) I O).
  - intros v V. unfold shc_value, shc_constant, shc_coefficient in V.
    assert (X : forall t w, ~ file_value d 0 0 t w) by (intros t w (k & c & j & K & _); apply Z; unfold file_lists; now apply nth_error_In in K).
    destruct V as [[_ [[y V]|[_ V]]]|[_ V]]; [exfalso; exact (X _ _ V)|exact V|].
    destruct years; destruct V as [(ta & ca & tb & cb & V & _)|[_ V]]; (exact V || (exfalso; exact (X _ _ V))).
Qed.

Lemma ex_decay_files : ~ file_lists ex_load_shc 0 0 /\ (forall r, In r ex_igrf_rows -> (1 <= i_n r <= Z.of_nat 1)%Z) /\
  (forall r, In r (ex_emm_variable ++ ex_emm_constant) -> (1 <= m_n r <= Z.of_nat 2)%Z).
Proof.
  split; [|split].
  - intros [H|[H|[]]]; discriminate H.
  - intros r H. repeat destruct H as [<-|H]; cbn; try lia. destruct H.
  - intros r H. repeat destruct H as [<-|H]; cbn; try lia. destruct H.
Qed.
