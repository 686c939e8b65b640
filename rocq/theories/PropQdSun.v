(** Property theorems C82: the sub-solar point of the quasi-dipole library. *)

From Coq Require Import List ZArith Reals.
From Verif Require Import SunSpec QdTimeModel QdSunModel QdSunSpec QdSunProofs.
Import ListNotations.
Open Scope R_scope.

(** C82: for every array of times the returned points are those under the Sun, within half of
    the 10000th part of a second.  Partial: for the times from 2000 on and for whole days,
    and with the mean longitude 280.451 in the place of the one of the Almanac. *)
Theorem C82_position_partial : forall ts ps,
  eval_subsol ts = Returns ps ->
  Forall2 (fun t p => -90 <= fst p <= 90 /\ -180 <= snd p <= 180 /\
    exists u, Rabs (u - t) <= time_tolerance /\
      (0 <= t \/ whole t -> under_the_sun implemented_longitude u (fst p) (snd p)) /\
      (t < 0 -> ~ whole t -> under_the_sun implemented_longitude (u + 1) (fst p) (snd p))) ts ps.
Proof. exact subsol_position. Qed.
Print Assumptions C82_position_partial.

(** Before 2000 the point of the next day is returned: not even within an hour is there a
    time for which the point is right. *)
Theorem C82_before_2000_refuted : exists t lat lon,
  -366 < t < 0 /\ eval_subsol [t] = Returns [(lat, lon)] /\
  forall l0 u, l0 = almanac_longitude \/ l0 = implemented_longitude -> Rabs (u - t) <= 1 / 24 ->
    ~ under_the_sun l0 u lat lon.
Proof. exact wrong_day. Qed.
Print Assumptions C82_before_2000_refuted.

(** The formula of the Almanac is not followed. *)
Theorem C82_almanac_refuted : exists t lat lon,
  0 <= t < 366 /\ eval_subsol [t] = Returns [(lat, lon)] /\
  forall u, Rabs (u - t) <= time_tolerance -> ~ under_the_sun almanac_longitude u lat lon.
Proof. exact wrong_longitude. Qed.
Print Assumptions C82_almanac_refuted.

(** The process ends if, and only if, a time is before the year 1601 (the day -145731) or
    after the year 2100 (from the day 36890). *)
Theorem C82_terminates : forall ts,
  eval_subsol ts = Terminated <-> exists t, In t ts /\ (t < -145731 \/ 36890 <= t).
Proof. exact eval_terminated. Qed.
Print Assumptions C82_terminates.

Example C82_example : exists p q, eval_subsol [0; 172.25] = Returns [p; q] /\ fst p < 0 /\ 0 < fst q.
Proof. exact ex_subsol. Qed.
