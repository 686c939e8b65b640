(** Property theorems C83: the magnetic local time of the quasi-dipole library. *)

From Coq Require Import List ZArith Reals.
From Verif Require Import QdSunModel QdMltModel QdMltSpec QdMltProofs QdMltCacheProofs.
Import ListNotations.
Open Scope R_scope.

(** C83: after any sequence of calls, the returned values are the magnetic local times of
    the sub-solar points of the same times.  Partial: the pole of the dipole is not the one of
    the time of the point, but of this or of an earlier point of the array, at most one day
    off. *)
Theorem C83_time_partial : forall b2 b3 b4 calls results saved any points mlts saved',
  mlt_session calls (initial_magcof b2 b3 b4) = Returns (results, saved) ->
  eval_mlt any points saved = Returns (mlts, saved') ->
  exists sun, eval_subsol (map snd points) = Returns sun /\ List.length mlts = List.length points /\
  forall i q t lat lon mlt, nth_error points i = Some (q, t) -> nth_error sun i = Some (lat, lon) ->
    nth_error mlts i = Some mlt ->
    exists j q' t' c, (j <= i)%nat /\ nth_error points j = Some (q', t') /\ Rabs (t - t') <= 1 /\
      dipole_coefficients (2000 + t' / 365.25) c /\ magnetic_local_time (dipole_pole c) lat lon q mlt.
Proof. exact mlt_time. Qed.
Print Assumptions C83_time_partial.

(** With the pole of its own time the value of a point of an array may be another one: the
    result depends on the points before it. *)
Theorem C83_own_pole_refuted : forall any b2 b3 b4, exists mlts s sun mlt lat lon,
  let points := [(0, 1826.25); (0, 1827)] in
  eval_mlt any points (initial_magcof b2 b3 b4) = Returns (mlts, s) /\ eval_subsol (map snd points) = Returns sun /\
  nth_error mlts 1 = Some mlt /\ nth_error sun 1 = Some (lat, lon) /\
  forall c, dipole_coefficients (2000 + 1827 / 365.25) c -> ~ magnetic_local_time (dipole_pole c) lat lon 0 mlt.
Proof. exact mlt_own_pole. Qed.
Print Assumptions C83_own_pole_refuted.

(** The result does not depend on the calls made before it, nor on the uninitialised variables. *)
Theorem C83_history : forall b2 b3 b4 calls results saved any points,
  mlt_session calls (initial_magcof b2 b3 b4) = Returns (results, saved) ->
  forall any' d2 d3 d4 mlts,
    (exists s, eval_mlt any points saved = Returns (mlts, s)) <->
    (exists s, eval_mlt any' points (initial_magcof d2 d3 d4) = Returns (mlts, s)).
Proof. exact mlt_history. Qed.
Print Assumptions C83_history.

(** For longitudes from -360 to 360 the values are hours of a day. *)
Theorem C83_range_partial : forall b2 b3 b4 calls results saved any points mlts saved',
  mlt_session calls (initial_magcof b2 b3 b4) = Returns (results, saved) ->
  eval_mlt any points saved = Returns (mlts, saved') ->
  (forall q t, In (q, t) points -> -360 <= q < 360) -> List.Forall (fun mlt => 0 <= mlt < 24) mlts.
Proof. exact mlt_range. Qed.
Print Assumptions C83_range_partial.

Theorem C83_range_refuted : forall any b2 b3 b4, exists mlt s,
  eval_mlt any [(721, 0)] (initial_magcof b2 b3 b4) = Returns ([mlt], s) /\ 24 < mlt.
Proof. exact mlt_out_of_range. Qed.
Print Assumptions C83_range_refuted.

(** The call returns for the times from 1900 (the day -36525) to the end of the year 2100;
    with a time after this, or one day or more before it, the process ends. *)
Theorem C83_terminates_partial : forall b2 b3 b4 calls results saved any points,
  mlt_session calls (initial_magcof b2 b3 b4) = Returns (results, saved) ->
  ((forall q t, In (q, t) points -> -36525 <= t < 36890) -> exists mlts s, eval_mlt any points saved = Returns (mlts, s)) /\
  ((exists q t, In (q, t) points /\ (t < -36526 \/ 36890 <= t)) -> eval_mlt any points saved = Terminated).
Proof. exact mlt_terminates. Qed.
Print Assumptions C83_terminates_partial.

(** Within the day before this limit it depends on the other points of the array. *)
Theorem C83_before_1900_refuted : forall any b2 b3 b4,
  eval_mlt any [(0, -36525.5)] (initial_magcof b2 b3 b4) = Terminated /\
  exists mlts s, eval_mlt any [(0, -36525); (0, -36525.5)] (initial_magcof b2 b3 b4) = Returns (mlts, s).
Proof. exact mlt_before_1900. Qed.
Print Assumptions C83_before_1900_refuted.

Example C83_example : forall any b2 b3 b4, exists results s mlts s',
  mlt_session [(any, [(10, 0)])] (initial_magcof b2 b3 b4) = Returns (results, s) /\
  eval_mlt any [(-170, 0); (0, 0.5); (359, 4000)] s = Returns (mlts, s') /\ List.length mlts = 3%nat /\
  List.Forall (fun mlt => 0 <= mlt < 24) mlts.
Proof. exact ex_mlt. Qed.
