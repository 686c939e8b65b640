(** Property theorems C91: interpolation in double precision. *)

From Coq Require Import List ZArith Reals.
From Verif Require Import FpSpec InterpModel InterpSpec FpInterpModel FpInterpProofs.
Import ListNotations.
Open Scope R_scope.

(** At a node the linear interpolation is the value of the node, without any error ... *)
Theorem C91_node : forall t0 c0 extrapolate k tk ck,
  increasing t0 -> length c0 = length t0 -> (2 <= length t0)%nat -> doubles t0 -> doubles c0 ->
  nth_error t0 k = Some tk -> nth_error c0 k = Some ck ->
  interp_one_fl t0 c0 INTERP_C1 extrapolate (Some tk) = Some (Some ck).
Proof. exact fl_node. Qed.
Print Assumptions C91_node.

(** ... between two nodes it is on their line up to a relative error of 16 half units of
    the last place of the two values ... *)
Theorem C91_between : forall t0 c0 extrapolate t k ta ca tb cb,
  increasing t0 -> length c0 = length t0 -> doubles t0 -> doubles c0 -> double t ->
  segment t0 c0 k ta ca tb cb -> ta <= t <= tb ->
  exists r, interp_one_fl t0 c0 INTERP_C1 extrapolate (Some t) = Some (Some r) /\
    Rabs (r - line ta ca tb cb t) <= powerRZ 2 (-49) * (Rabs ca + Rabs cb) + powerRZ 2 (-1073).
Proof. exact fl_between. Qed.
Print Assumptions C91_between.

(** ... and outside of the nodes it is NaN, or on the line of the first or last two nodes
    with an error that increases with the distance. *)
Theorem C91_before : forall t0 c0 (extrapolate : bool) t ta ca tb cb,
  increasing t0 -> length c0 = length t0 -> doubles t0 -> doubles c0 -> double t ->
  segment t0 c0 0 ta ca tb cb -> t < ta ->
  if extrapolate then exists r, interp_one_fl t0 c0 INTERP_C1 true (Some t) = Some (Some r) /\
    Rabs (r - line ta ca tb cb t) <=
      powerRZ 2 (-50) * (1 + Rabs ((t - ta) / (tb - ta))) * (Rabs ca + Rabs cb) + powerRZ 2 (-1073)
  else interp_one_fl t0 c0 INTERP_C1 false (Some t) = Some None.
Proof. exact fl_before. Qed.
Print Assumptions C91_before.

Theorem C91_after : forall t0 c0 (extrapolate : bool) t k ta ca tb cb,
  increasing t0 -> length c0 = length t0 -> doubles t0 -> doubles c0 -> double t -> S (S k) = length t0 ->
  segment t0 c0 k ta ca tb cb -> tb < t ->
  if extrapolate then exists r, interp_one_fl t0 c0 INTERP_C1 true (Some t) = Some (Some r) /\
    Rabs (r - line ta ca tb cb t) <=
      powerRZ 2 (-50) * (1 + Rabs ((t - ta) / (tb - ta))) * (Rabs ca + Rabs cb) + powerRZ 2 (-1073)
  else interp_one_fl t0 c0 INTERP_C1 false (Some t) = Some None.
Proof. exact fl_after. Qed.
Print Assumptions C91_after.

Theorem C91_nan : forall t0 c0 kind extrapolate, length c0 = length t0 -> (2 <= length t0)%nat ->
  kind = INTERP_C1 -> interp_one_fl t0 c0 kind extrapolate None = Some None.
Proof. exact fl_nan. Qed.
Print Assumptions C91_nan.

(** The derivative kind is the slope of the two nodes up to a relative error. *)
Theorem C91_derivative : forall t0 c0 extrapolate t k ta ca tb cb,
  increasing t0 -> length c0 = length t0 -> doubles t0 -> doubles c0 ->
  segment t0 c0 k ta ca tb cb -> ta <= t < tb -> powerRZ 2 (-990) <= tb - ta <= powerRZ 2 990 ->
  exists r, interp_one_fl t0 c0 INTERP_C1D1 extrapolate (Some t) = Some (Some r) /\
    Rabs (r - (cb - ca) / (tb - ta)) <= powerRZ 2 (-50) * (Rabs ca + Rabs cb) / (tb - ta) + powerRZ 2 (-1073).
Proof. exact fl_derivative. Qed.
Print Assumptions C91_derivative.

(** The piecewise constant kind has no rounding at all (see C18). *)
Theorem C91_constant : forall t0 c0 extrapolate t,
  interp_one_fl t0 c0 INTERP_C0 extrapolate t = interp_one t0 c0 INTERP_C0 extrapolate t.
Proof. exact fl_constant. Qed.
Print Assumptions C91_constant.

(** The array function: every element is that of one time and one series. *)
Theorem C91_array_element : forall time time0 coeff0 kind extrapolate res i j t c0,
  interp_fl time time0 coeff0 kind extrapolate = Returned res ->
  nth_error time i = Some t -> nth_error coeff0 j = Some c0 ->
  length c0 = length time0 /\ (min_nt kind <= length time0)%nat /\
  exists row, nth_error res i = Some row /\ length row = length coeff0 /\
    nth_error row j = Some (interp_one_fl time0 c0 kind extrapolate t).
Proof. exact fl_element. Qed.
Print Assumptions C91_array_element.

Theorem C91_array_raises : forall time time0 coeff0 kind extrapolate,
  interp_fl time time0 coeff0 kind extrapolate = Raised <-> interp time time0 coeff0 kind extrapolate = Raised.
Proof. exact fl_raises. Qed.
Print Assumptions C91_array_raises.

Example C91_example : increasing [1; 3; 7] /\ doubles [1; 3; 7] /\ doubles [10; 4; 5] /\
  interp_one_fl [1; 3; 7] [10; 4; 5] INTERP_C1 false (Some 7) = Some (Some 5) /\
  interp_one_fl [1; 3; 7] [10; 4; 5] INTERP_C1 false (Some 3) = Some (Some 4) /\
  segment [1; 3; 7] [10; 4; 5] 0 1 10 3 4 /\ line 1 10 3 4 2 = 7.
Proof. exact ex_series. Qed.
