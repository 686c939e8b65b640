(** C78: the parser of the MIO files; C79: the models loaded from the MIO files *)

From Coq Require Import List Ascii ZArith Reals.
From Verif Require Import Ord TextModel ShEvalModel FourierModel FourierSpec MioModel ShcExamples
  MioParseModel MioParseSpec MioParseProofs MioFileProofs MioFileExamples.
Import ListNotations.
Open Scope R_scope.

(** What is parsed are the numbers of the file, unless there is one row of the external and two
    rows of the internal coefficients (the ranges of the seasonal and diurnal degrees being not empty). *)
Theorem C78_sound_partial : forall to_int to_float file p,
  parse_mio_file to_int to_float file = Parsed p ->
  (mh_smin (mp_header p) <= mh_smax (mp_header p))%Z -> (mh_pmin (mp_header p) <= mh_pmax (mp_header p))%Z ->
  mio_file to_int to_float file p \/ (length (mp_qs p) = 1%nat /\ length (mp_gh p) = 2%nat).
Proof. exact mio_sound. Qed.
Print Assumptions C78_sound_partial.

(** Any file of the format is accepted. *)
Theorem C78_complete : forall to_int to_float file h nm qs gh,
  mio_contents to_int to_float file h nm qs gh -> exists p,
  parse_mio_file to_int to_float file = Parsed p /\ mp_header p = h /\ mp_nm p = map (fun p => [fst p; snd p]) nm /\
  Forall2 pairs_of qs (mp_qs p) /\ Forall2 pairs_of gh (mp_gh p) /\
  In (mp_degree_min p) (map fst nm) /\ In (mp_degree_max p) (map fst nm) /\
  (forall n, In n (map fst nm) -> mp_degree_min p <= n <= mp_degree_max p)%Z.
Proof. exact mio_complete. Qed.
Print Assumptions C78_complete.

(** A file of three rows of the same degree and order is accepted although there are not as many
    external as internal coefficients. *)
Theorem C78_sound_refuted : exists to_int to_float file p,
  parse_mio_file to_int to_float file = Parsed p /\
  (mh_smin (mp_header p) <= mh_smax (mp_header p))%Z /\ (mh_pmin (mp_header p) <= mh_pmax (mp_header p))%Z /\
  ~ mio_file to_int to_float file p.
Proof. exact (ex_intro _ ex_int (ex_intro _ ex_real (ex_intro _ ex_odd_file ex_odd))). Qed.
Print Assumptions C78_sound_refuted.

(** The internal model: the pole, the Wolf ratio and, for each row of the internal coefficients, its 2D Fourier
    series of the fraction of the year and of the magnetic universal time in hours *)
Theorem C79_internal : forall T (OT : TOrd T) to_int to_float year_fraction subsol (validity : T * T) file h nm qs gh,
  mio_contents to_int to_float file h nm qs gh -> exists m,
  load_internal_file to_int to_float year_fraction subsol validity file = Parsed m /\
  mio_north_pole m = (mh_lat_ngp h, mh_lon_ngp h) /\ mio_wolf_ratio m = mh_wolf_ratio h /\ mio_internal m = true /\
  mio_validity m = validity /\ fs_nm (mio_set m) = nm /\ length (fs_ab (mio_set m)) = length nm /\
  forall k values, nth_error gh k = Some values -> exists ab, nth_error (fs_ab (mio_set m)) k = Some ab /\
    forall season hours, series_value (mio_set m) ab season hours = mio_series_value h values season hours.
Proof. exact (fun T OT => @internal_file T). Qed.
Print Assumptions C79_internal.

(** The external models below and above the ionosphere: the series of the rows of the external coefficients,
    multiplied by -n/(n+1) (1 + height/6371.2)^(2n+1) above *)
Theorem C79_external : forall T (OT : TOrd T) to_int to_float year_fraction subsol (validity : T * T) file h nm qs gh,
  mio_contents to_int to_float file h nm qs gh -> (forall n m, In (n, m) nm -> 0 <= n)%Z -> exists below above,
  load_external_file to_int to_float year_fraction subsol validity file = Parsed (below, above, mh_height h) /\
  mio_north_pole below = (mh_lat_ngp h, mh_lon_ngp h) /\ mio_wolf_ratio below = mh_wolf_ratio h /\ mio_internal below = false /\
  mio_north_pole above = (mh_lat_ngp h, mh_lon_ngp h) /\ mio_wolf_ratio above = mh_wolf_ratio h /\ mio_internal above = true /\
  fs_nm (mio_set below) = nm /\ length (fs_ab (mio_set below)) = length nm /\
  fs_nm (mio_set above) = nm /\ length (fs_ab (mio_set above)) = length nm /\
  forall k n m values, nth_error nm k = Some (n, m) -> nth_error qs k = Some values ->
    (exists ab, nth_error (fs_ab (mio_set below)) k = Some ab /\
       forall season hours, series_value (mio_set below) ab season hours = mio_series_value h values season hours) /\
    (exists ab, nth_error (fs_ab (mio_set above)) k = Some ab /\
       forall season hours, series_value (mio_set above) ab season hours =
         - (IZR n / (IZR n + 1)) * (1 + mh_height h / 6371.2) ^ Z.to_nat (2 * n + 1) * mio_series_value h values season hours).
Proof. exact (fun T OT => @external_file T). Qed.
Print Assumptions C79_external.

(** A file of two series with two seasonal and three diurnal degrees *)
Example C78_C79_example : mio_contents ex_int ex_real ex_mio_file ex_mio_h ex_mio_nm ex_mio_qs ex_mio_gh.
Proof. exact ex_mio_contents. Qed.
