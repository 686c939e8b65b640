(** C80: the MMA models loaded from one or more files *)

From Coq Require Import List ZArith Reals.
From Verif Require Import Ord ROrd CoefModel SparseModel SparseSpec SeriesSpec MmaModel MmaSpec MmaProofs MmaExamples.
Import ListNotations.
Open Scope R_scope.

(** Files of the same degrees and orders given in the order of their times are loaded.  At any time the coefficients are on
    the line through the values at the neighbouring times of all of the files.  The validity is from the first to the
    last of the times. *)
Theorem C80_values : forall nm files, files <> [] -> proper_files nm files ->
  exists td, load_coeff_mma_single_set files = Ok td /\
    (forall t1 t2, In t1 (all_times files) -> first_time (all_times files) t1 -> In t2 (all_times files) -> last_time (all_times files) t2 ->
       td_validity td = (t1, t2)) /\
    forall t lo hi, exists result, mma_call td t lo hi = Some result /\
      forall n m v, valid_nm n m -> mma_value nm files n m t v -> bounded_coefficient lo hi result n m v.
Proof. exact mma_values. Qed.
Print Assumptions C80_values.

(** The 2C products of two sets each: the sum of both, valid when both of them are valid *)
Theorem C80_two_sets : forall nm1 nm2 files, files <> [] -> proper_files nm1 (map fst files) -> proper_files nm2 (map snd files) ->
  exists s, load_coeff_mma_multi_set files = Ok s /\
    (forall a b c d, In a (all_times (map fst files)) -> first_time (all_times (map fst files)) a ->
       In b (all_times (map fst files)) -> last_time (all_times (map fst files)) b ->
       In c (all_times (map snd files)) -> first_time (all_times (map snd files)) c ->
       In d (all_times (map snd files)) -> last_time (all_times (map snd files)) d ->
       forall t, fst (mma_2c_validity s) <= t <= snd (mma_2c_validity s) <-> a <= t <= b /\ c <= t <= d) /\
    forall t lo hi, exists result, mma_2c_call s t lo hi = Some result /\
      forall n m v1 v2, valid_nm n m -> mma_value nm1 (map fst files) n m t v1 -> mma_value nm2 (map snd files) n m t v2 ->
        bounded_coefficient lo hi result n m (v1 + v2).
Proof. exact mma_2c_values. Qed.
Print Assumptions C80_two_sets.

(** Files of different degrees and orders, or in the wrong order, are refused. *)
Theorem C80_refused : forall pre a b post na nb, file_nm a na -> file_nm b nb ->
  (na <> nb \/ exists ts t u us, file_times a = ts ++ [t] /\ file_times b = u :: us /\ u < t) ->
  exists e, load_coeff_mma_single_set (pre ++ a :: b :: post) = Err e.
Proof. exact mma_refused. Qed.
Print Assumptions C80_refused.

(** A file which begins at the last time of the one before is accepted, although this time has two values. *)
Theorem C80_distinct_times_refuted : exists files td,
  load_coeff_mma_single_set files = Ok td /\ ~ distinct_times (all_times files).
Proof. exact ex_touching_loaded. Qed.
Print Assumptions C80_distinct_times_refuted.

Example C80_example : proper_files ex_mma_nm ex_mma_files.
Proof. exact ex_mma_proper. Qed.
Example C80_example_value : mma_value ex_mma_nm ex_mma_files 1 (-1) 3 60.
Proof. exact ex_mma_value. Qed.
