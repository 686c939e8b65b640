(** The decay of the field: the calls, and an example. *)
From Coq Require Import Bool List Arith ZArith Reals Lia Lra.
From Coquelicot Require Import Coquelicot.
From Verif Require Import Ord ROrd RbarOrd ArrModel GeoModel CoefModel ShEvalModel ShEvalSpec ShEvalExamples TextModel SparseSpec InterpSpec TimeModel YearSetModel WmmModel WmmSpec FieldModel FieldSpec FileFieldSpec FileFieldProofs
  TruncationSpec TruncationExamples FieldSizeSpec FieldSizeExamples FieldDecayProofs WmmExamples FileFieldExamples.
Import ListNotations.
Open Scope R_scope.

Lemma sheval_decay csize deg N coef lat lon r0 rad mem g :
  (1 <= csize < 2 ^ 50)%Z -> expansion_degree csize deg N -> coef 0%nat = (0, 0) -> 0 < r0 <= rad -> -90 <= lat <= 90 ->
  sheval (nd0 (lat, lon, rad)) csize (nd0 coef) CT_GEOCENTRIC_SPHERICAL CT_GEOCENTRIC_SPHERICAL SM_GRADIENT true deg
    1 (1, 1, 1) mem = Ok ([], [(None, Some g)]) ->
  vector_length g <= (r0 / rad) ^ 3 * whole_field true (fun n m => coef (n * (n + 1) / 2 + m)%nat) N r0.
Proof.
  intros B D Z L A E. apply Rle_trans with (whole_field true (fun n m => coef (n * (n + 1) / 2 + m)%nat) N rad).
  - exact (proj2 (sheval_field_truncation csize deg deg N N coef true lat lon rad mem mem g g B D D (Nat.le_refl N) A ltac:(lra) E E)).
  - apply decay_internal; [exact Z|exact L].
Qed.

Lemma sheval_external csize deg N coef lat lon r0 rad mem g :
  (1 <= csize < 2 ^ 50)%Z -> expansion_degree csize deg N -> 0 < rad <= r0 -> -90 <= lat <= 90 ->
  sheval (nd0 (lat, lon, rad)) csize (nd0 coef) CT_GEOCENTRIC_SPHERICAL CT_GEOCENTRIC_SPHERICAL SM_GRADIENT false deg
    1 (1, 1, 1) mem = Ok ([], [(None, Some g)]) ->
  vector_length g <= whole_field false (fun n m => coef (n * (n + 1) / 2 + m)%nat) N r0.
Proof.
  intros B D L A E. apply Rle_trans with (whole_field false (fun n m => coef (n * (n + 1) / 2 + m)%nat) N rad).
  - exact (proj2 (sheval_field_truncation csize deg deg N N coef false lat lon rad mem mem g g B D D (Nat.le_refl N) A ltac:(lra) E E)).
  - now apply decay_external.
Qed.

Lemma wmm_decay to_int to_float file epoch rows N lo hi mem txs :
  wmm_file to_int to_float file epoch rows -> proper_rows rows -> some_nonzero rows ->
  (forall r, In r rows -> (1 <= w_n r <= Z.of_nat N)%Z) -> (Z.of_nat N < 2 ^ 24)%Z ->
  exists td out, load_coeff_wmm to_int to_float file = Parsed td /\
    model_eval_array (year_validity td) [year_leaf td] true lo hi CT_GEOCENTRIC_SPHERICAL CT_GEOCENTRIC_SPHERICAL (1, 1, 1) mem txs = Ok out /\
    forall i u lat lon rad r0 f gh, nth_error txs i = Some (Some u, (lat, lon, rad)) -> nth_error out i = Some (Some f) ->
      -90 <= lat <= 90 -> 0 < r0 <= rad ->
      coefficient_table (fun n m v => wmm_coefficient epoch rows n m (mjd2k_to_decimal_year u) v) lo hi gh ->
      vector_length f <= (r0 / rad) ^ 3 * whole_field true gh N r0.
Proof.
  intros F P S D B.
  destruct (wmm_field to_int to_float file epoch rows N true lo hi mem F P S (fun r H => proj2 (D r H)) B) as (td & E & H & _).
  destruct (H txs) as (out & O & R). exists td, out. split; [exact E|split; [exact O|]].
  intros i u lat lon rad r0 f gh I O' A L T.
  assert (G : field_result (Finite (decimal_year_to_mjd2k epoch), Finite (decimal_year_to_mjd2k (epoch + 5)))
    (fun u n m v => wmm_coefficient epoch rows n m (mjd2k_to_decimal_year u) v) true lo hi N (Some u, (lat, lon, rad)) (Some f)).
  { clear - I O' R. revert i I O'. induction R as [|tx o0 txs out R0 R IH]; intros [|i] I O'; try discriminate.
    - injection I as ->. injection O' as ->. exact R0.
    - exact (IH i I O'). }
  destruct G as [G1 G2].
  assert (V : in_validity (Finite (decimal_year_to_mjd2k epoch), Finite (decimal_year_to_mjd2k (epoch + 5))) (Some u)).
  { destruct (Rle_dec (decimal_year_to_mjd2k epoch) u) as [V1|V1]; [destruct (Rle_dec u (decimal_year_to_mjd2k (epoch + 5))) as [V2|V2]|].
    - exists u. split; [reflexivity|split; [exact V1|exact V2]].
    - exfalso. assert (K : Some f = None) by (apply G1; intros (x & [= <-] & _ & X); now apply V2). discriminate K.
    - exfalso. assert (K : Some f = None) by (apply G1; intros (x & [= <-] & X & _); now apply V1). discriminate K. }
  destruct (G2 u gh eq_refl V A ltac:(lra) T) as (f' & [= <-] & Ff).
  apply (field_decay gh N lat lon r0 rad f); try assumption.
  destruct (T 0%nat 0%nat (Nat.le_refl 0)) as [T1 T2].
  assert (X : within_bounds lo hi (Z.of_nat 0) \/ ~ within_bounds lo hi (Z.of_nat 0)) by (unfold within_bounds; lia).
  destruct X as [X|X]; [|now rewrite (T2 X)]. destruct (T1 X) as [[(r & Ir & N0 & _)|[_ V0]] _]; [|exact V0].
  specialize (D r Ir). cbn in N0. lia.
Qed.

Lemma ex_decay : g10 0 = (0, 0) /\ 0 < 6371.2 <= 12742.4 /\
  (6371.2 / 12742.4) ^ 3 * whole_field true (fun n m => g10 (n * (n + 1) / 2 + m)%nat) 1 6371.2 = 1 / 4.
Proof.
  split; [reflexivity|split; [lra|]]. rewrite (proj2 (proj2 ex_field_size)). replace (6371.2 / 12742.4) with (1 / 2) by lra. lra.
Qed.

Lemma ex_decay_rows : forall r, In r ex_wmm_rows -> (1 <= w_n r <= Z.of_nat 2)%Z.
Proof. intros r H. repeat destruct H as [<-|H]; cbn; try lia. destruct H. Qed.
