(** C70: loading of the SHC files *)

From Coq Require Import List ZArith Reals.
From Coquelicot Require Import Rbar.
From Verif Require Import Ord ROrd RbarOrd TextModel ShcModel ShcSpec SparseSpec SeriesSpec TimeModel CombineProofs ShcLoadModel ShcLoadSpec ShcLoadProofs
  ShcExamples WmmExamples ShcLoadExamples.
Import ListNotations.
Open Scope R_scope.

(** Each SHC file is loaded, and at every time the coefficients are those of the file: on the line through the two columns around
    the time (in MJD2000, or in decimal years if asked for), the value of the only column, zero where the file has no
    coefficient or beyond the bounds of the degree. *)
Theorem C70_values : forall to_int to_float years vstart vend file d,
  shc_file to_int to_float file d -> proper_shc d -> proper_times years (shc_t d) ->
  exists set, load_coeff_shc to_int to_float years vstart vend file = Parsed set /\
    forall t lo hi, exists result, shc_call set t lo hi = Some result /\
      forall n m v, valid_nm n m -> shc_value years d n m t v -> bounded_coefficient lo hi result n m v.
Proof. exact shc_values. Qed.
Print Assumptions C70_values.

(** The validity: the arguments, the header, or the first and last column. *)
Theorem C70_validity : forall to_int to_float years vstart vend file d a b set,
  shc_file to_int to_float file d -> proper_shc d -> proper_times years (shc_t d) ->
  (2 <= length (shc_t d))%nat -> start_year vstart d a -> end_year vend d b ->
  load_coeff_shc to_int to_float years vstart vend file = Parsed set ->
  shc_validity set = (Finite (decimal_year_to_mjd2k a), Finite (decimal_year_to_mjd2k b)).
Proof. exact shc_series_validity. Qed.
Print Assumptions C70_validity.

(** ... and without limits for a single column. *)
Theorem C70_constant_validity : forall to_int to_float years vstart vend file d set,
  shc_file to_int to_float file d -> proper_shc d -> length (shc_t d) = 1%nat ->
  load_coeff_shc to_int to_float years vstart vend file = Parsed set ->
  shc_validity set =
    (match vstart, h_validity (shc_head d) with
     | Some x, _ | None, Some (x, _) => Finite (decimal_year_to_mjd2k x)
     | None, None => m_infty
     end,
     match vend, h_validity (shc_head d) with
     | Some x, _ | None, Some (_, x) => Finite (decimal_year_to_mjd2k x)
     | None, None => p_infty
     end).
Proof. exact shc_constant_bounds. Qed.
Print Assumptions C70_constant_validity.

(** Combined files: the sum of the coefficients of the files, ... *)
Theorem C70_combined : forall to_int to_float years files ds,
  Forall2 (shc_file to_int to_float) files ds -> List.Forall proper_shc ds -> List.Forall (fun d => proper_times years (shc_t d)) ds ->
  exists sets, pmap (load_coeff_shc to_int to_float years None None) files = Parsed sets /\
    forall t lo hi, exists result, combined_shc_call sets t lo hi = Some result /\
      forall n m vs, valid_nm n m -> Forall2 (fun d v => shc_value years d n m t v) ds vs ->
        bounded_coefficient lo hi result n m (fold_right Rplus 0 vs).
Proof. exact shc_combined. Qed.
Print Assumptions C70_combined.

(** ... valid when all of them are valid. *)
Theorem C70_combined_validity : forall sets t,
  (le (fst (combined_shc_validity sets)) t /\ le t (snd (combined_shc_validity sets))) <->
  forall s, In s sets -> le (fst (shc_validity s)) t /\ le t (snd (shc_validity s)).
Proof. exact combined_validity. Qed.
Print Assumptions C70_combined_validity.

(** The order of the splines in the header is ignored: a file of order 1 is not piecewise constant. *)
Theorem C70_spline_order_refuted : ~ (forall to_int to_float file d set t result n m ta ca tb,
  shc_file to_int to_float file d -> proper_shc d -> proper_times false (shc_t d) -> (2 <= length (shc_t d))%nat ->
  h_spline_order (shc_head d) = 1%Z -> load_coeff_shc to_int to_float false None None file = Parsed set ->
  shc_call set t (-1) (-1) = Some result -> valid_nm n m -> file_value d n m ta ca -> In tb (shc_t d) -> neighbours (shc_t d) ta tb ->
  decimal_year_to_mjd2k ta <= t < decimal_year_to_mjd2k tb -> coefficient result n m ca).
Proof. exact shc_spline_order_refuted. Qed.
Print Assumptions C70_spline_order_refuted.

Example C70_example_files : Forall2 (shc_file ex_int ex_real) [ex_load_lines; ex_static_lines] [ex_load_shc; ex_static_shc].
Proof. exact (Forall2_cons _ _ ex_load_file (Forall2_cons _ _ ex_static_file (Forall2_nil _))). Qed.
Example C70_example_proper : proper_shc ex_load_shc /\ proper_times false (shc_t ex_load_shc).
Proof. exact ex_load_proper. Qed.
Example C70_example_static : proper_shc ex_static_shc /\ proper_times false (shc_t ex_static_shc).
Proof. exact ex_static_proper. Qed.
Example C70_example_value : shc_value false ex_load_shc 1 0 ex_load_time 2.
Proof. exact ex_load_value. Qed.
