(** C69: EMM files *)

From Coq Require Import List ZArith Reals.
From Coquelicot Require Import Rbar.
From Verif Require Import TextModel SparseModel SparseSpec SeriesSpec TimeModel EmmModel EmmSpec EmmProofs ShcExamples WmmExamples EmmExamples.
Open Scope R_scope.

(** The coefficients loaded from the two files of the EMM: at any time the static value plus the rate of the secular
    variation times the years elapsed since the epoch, the static value where there is no rate, zero where the files have no
    coefficient or beyond the bounds of the degree.  The validity is five years from the epoch. *)
Theorem C69_emm_values : forall to_int to_float file_static file_secvar epoch variable constant secvar,
  emm_file to_int to_float file_static epoch (variable ++ constant) -> emm_file to_int to_float file_secvar epoch secvar ->
  same_rows variable secvar -> proper_emm (variable ++ constant) -> secvar <> nil -> nonzero_rows constant ->
  exists emm, load_coeff_emm to_int to_float file_static file_secvar = Parsed emm /\
    emm_validity emm = (Finite (decimal_year_to_mjd2k epoch), Finite (decimal_year_to_mjd2k (epoch + 5))) /\
    forall t lo hi, exists result, emm_call emm t lo hi = Some result /\
      forall n m v, valid_nm n m -> emm_coefficient epoch variable constant secvar n m (mjd2k_to_decimal_year t) v ->
        bounded_coefficient lo hi result n m v.
Proof. exact emm_load. Qed.
Print Assumptions C69_emm_values.

(** Nothing but EMM files is loaded. *)
Theorem C69_emm_files_only : forall to_int to_float file_static file_secvar emm,
  load_coeff_emm to_int to_float file_static file_secvar = Parsed emm ->
  exists epoch_static static epoch_secvar secvar,
    emm_file to_int to_float file_static epoch_static static /\ emm_file to_int to_float file_secvar epoch_secvar secvar /\ secvar <> nil.
Proof. exact emm_load_sound. Qed.
Print Assumptions C69_emm_files_only.

(** Files without coefficients or without an epoch, static coefficients which are all zero where there is no rate, and
    rates for which there is no static coefficient are refused. *)
Theorem C69_refused : forall to_int to_float file_static file_secvar epoch static,
  (emm_file to_int to_float file_static epoch nil -> load_coeff_emm to_int to_float file_static file_secvar = Failed E_Index) /\
  (emm_file_without_epoch to_int to_float file_static static ->
     load_coeff_emm to_int to_float file_static file_secvar = Failed E_Key) /\
  (emm_file to_int to_float file_static epoch static -> static <> nil ->
   (forall epoch', emm_file to_int to_float file_secvar epoch' nil ->
      load_coeff_emm to_int to_float file_static file_secvar = Failed E_Index) /\
   (forall secvar, emm_file_without_epoch to_int to_float file_secvar secvar ->
      load_coeff_emm to_int to_float file_static file_secvar = Failed E_Key) /\
   (forall epoch' secvar variable constant, emm_file to_int to_float file_secvar epoch' secvar -> secvar <> nil ->
      static = variable ++ constant -> same_rows variable secvar -> ~ nonzero_rows constant ->
      load_coeff_emm to_int to_float file_static file_secvar = Failed E_Value) /\
   (forall epoch' secvar more, emm_file to_int to_float file_secvar epoch' secvar -> more <> nil ->
      (exists variable, secvar = variable ++ more /\ same_rows static variable) ->
      load_coeff_emm to_int to_float file_static file_secvar = Failed E_Value)).
Proof. exact emm_refused. Qed.
Print Assumptions C69_refused.

(** Files of different epochs, or with different degrees and orders, are not refused: the exception is made but not raised. *)
Theorem C69_incompatible_refuted : ~ (forall to_int to_float file_static file_secvar epoch_static epoch_secvar static secvar,
  emm_file to_int to_float file_static epoch_static static -> emm_file to_int to_float file_secvar epoch_secvar secvar ->
  (epoch_static <> epoch_secvar \/ ~ exists variable constant, static = variable ++ constant /\ same_rows variable secvar) ->
  exists e, load_coeff_emm to_int to_float file_static file_secvar = Failed e).
Proof. exact emm_incompatible_refuted. Qed.
Print Assumptions C69_incompatible_refuted.

Example C69_example : emm_file ex_int ex_real ex_emm_static 2015 (ex_emm_variable ++ ex_emm_constant) /\
  emm_file ex_int ex_real ex_emm_secvar 2015 ex_emm_rates.
Proof. exact ex_emm_files. Qed.
Example C69_example_refused : emm_file ex_int ex_real ex_emm_header 2015 nil /\
  emm_file_without_epoch ex_int ex_real ex_emm_undated ex_emm_rates.
Proof. exact ex_emm_refused. Qed.
Example C69_example_rows : same_rows ex_emm_variable ex_emm_rates /\ proper_emm (ex_emm_variable ++ ex_emm_constant) /\
  ex_emm_rates <> nil /\ nonzero_rows ex_emm_constant.
Proof. exact ex_emm_proper. Qed.
Example C69_example_coefficient : emm_coefficient 2015 ex_emm_variable ex_emm_constant ex_emm_rates 1 (-1) 2017 4736.
Proof. exact ex_emm_coefficient. Qed.
