(** Specification of the MMA coefficients given by the CDF files. *)

From Coq Require Import List ZArith Reals.
From Verif Require Import Ord ROrd SparseSpec InterpSpec SeriesSpec MmaModel.
Import ListNotations.
Open Scope R_scope.

(** The times in days since 2000-01-01: milliseconds, 730485 days (the years 0 to 1999) subtracted *)
Definition mma_time (raw : R) : R := raw / 86400000 - 730485.
Definition file_times (f : cdf_set) : list R := map mma_time (cv_time f).
Definition all_times (files : list cdf_set) : list R := flat_map file_times files.

Definition file_nm (f : cdf_set) (nm : list (Z * Z)) : Prop := cv_nm f = Nm_2d nm \/ cv_nm f = Nm_3d [nm].

(** A set of the degrees and orders, listed once, with a row of coefficients for each time *)
Definition proper_mma (nm : list (Z * Z)) (f : cdf_set) : Prop :=
  cv_epoch_type f = true /\ file_nm f nm /\ cv_ncoeff f = length nm /\ length (cv_coeff f) = length (cv_time f) /\
  (forall row, In row (cv_coeff f) -> length row = length nm).
Definition proper_nm (nm : list (Z * Z)) : Prop :=
  nm <> [] /\ (forall i n m, nth_error nm i = Some (n, m) -> valid_nm n m) /\
  (forall i j p, nth_error nm i = Some p -> nth_error nm j = Some p -> i = j).

(** the last time of the file is not after the first time of the next one *)
Definition follows (a b : cdf_set) : Prop :=
  exists ts t u us, file_times a = ts ++ [t] /\ file_times b = u :: us /\ t <= u.
Fixpoint ordered_files (files : list cdf_set) : Prop :=
  match files with
  | a :: ((b :: _) as rest) => follows a b /\ ordered_files rest
  | _ => True
  end.

(** the value of the degree n and of the order m at a time of one of the files *)
Definition mma_point (nm : list (Z * Z)) (files : list cdf_set) (n m : Z) (t v : R) : Prop :=
  exists f i k raw row, In f files /\ nth_error nm i = Some (n, m) /\ nth_error (cv_time f) k = Some raw /\ t = mma_time raw /\
    nth_error (cv_coeff f) k = Some row /\ nth_error row i = Some v.

(** The coefficient at any time: on the line through the values at the neighbouring times of all the files, or the
    first or last two ones; zero if the files do not have it *)
Definition mma_value (nm : list (Z * Z)) (files : list cdf_set) (n m : Z) (t v : R) : Prop :=
  (exists ta ca tb cb, mma_point nm files n m ta ca /\ mma_point nm files n m tb cb /\ neighbours (all_times files) ta tb /\
     (ta <= t \/ first_time (all_times files) ta) /\ (t <= tb \/ last_time (all_times files) tb) /\
     v = line ta ca tb cb t) \/
  ~ In (n, m) nm /\ v = 0.

(** Files which can be merged: each with the same degrees and orders, in the order of their times, which are all different *)
Definition proper_files (nm : list (Z * Z)) (files : list cdf_set) : Prop :=
  proper_nm nm /\ (forall f, In f files -> proper_mma nm f) /\ ordered_files files /\
  distinct_times (all_times files) /\ (2 <= length (all_times files))%nat.
