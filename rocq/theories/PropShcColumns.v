(** C70: which SHC files are loaded *)
From Coq Require Import List ZArith Reals.
From Verif Require Import Ord ROrd TextModel ShcModel ShcSpec SparseSpec ShcLoadModel ShcLoadSpec ShcExamples WmmExamples ShcColumnProofs ShcColumnExamples.
Import ListNotations.

(** Only files of the form are loaded, with a degree and an order and a value for each time in each row ... if there is not exactly one time. *)
Theorem C70_loaded_partial : forall to_int to_float years vstart vend file set,
  load_coeff_shc to_int to_float years vstart vend file = Parsed set ->
  exists d, shc_file to_int to_float file d /\ shc_nm d <> [] /\ (forall row, In row (shc_nm d) -> exists n m, row = [n; m]) /\
    (forall c, In c (shc_gh d) -> (1 <= length c)%nat) /\
    (length (shc_t d) <> 1%nat -> forall c, In c (shc_gh d) -> length c = length (shc_t d)).
Proof. exact loaded_files. Qed.
Print Assumptions C70_loaded_partial.

(** Files with one time and several columns are loaded ... *)
Theorem C70_columns_refuted : ~ (forall to_int to_float years vstart vend file set,
  load_coeff_shc to_int to_float years vstart vend file = Parsed set ->
  exists d, shc_file to_int to_float file d /\ forall c, In c (shc_gh d) -> length c = length (shc_t d)).
Proof. exact columns_refuted. Qed.
Print Assumptions C70_columns_refuted.

(** ... and so are files which list a coefficient twice. *)
Theorem C70_twice_refuted : ~ (forall to_int to_float years vstart vend file set,
  load_coeff_shc to_int to_float years vstart vend file = Parsed set ->
  exists d, shc_file to_int to_float file d /\
    forall i j row, nth_error (shc_nm d) i = Some row -> nth_error (shc_nm d) j = Some row -> i = j).
Proof. exact twice_refuted. Qed.
Print Assumptions C70_twice_refuted.

Example C70_example_loaded : exists set, load_coeff_shc ex_int ex_real false None None ex_twice_lines = Parsed set.
Proof. exact ex_twice_loaded. Qed.
