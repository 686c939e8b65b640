(** Property theorems C16-C19: interval search and interpolation. *)

From Coq Require Import List ZArith Reals.
From Coquelicot Require Import Coquelicot.
From Verif Require Import Ord ROrd BisectModel BisectSpec BisectProofs
  InterpModel InterpSpec InterpProofs.
Import ListNotations.

(** C16: the result is the index of the last node not after (LEFT: before) the value. *)
Theorem C16_bisect_position :
  forall T (OT : TOrd T) (v : list T) xs right k x,
  sorted_nodes v -> nth_error xs k = Some (Some x) ->
  exists i, nth_error (bisect v xs right) k = Some (Some i) /\
    last_index (fun a => if right then le a x else lt a x) v i.
Proof. exact @bisect_position. Qed.
Print Assumptions C16_bisect_position.

(** C16: the nodes around the value; -1 below the first node, n - 1 from the last one. *)
Theorem C16_bisect_brackets :
  forall T (OT : TOrd T) (v : list T) xs right k x, sorted_nodes v -> v <> [] ->
  nth_error xs k = Some (Some x) ->
  exists i, nth_error (bisect v xs right) k = Some (Some i) /\
  (i = -1 <-> exists a, nth_error v 0 = Some a /\ if right then lt x a else le x a)%Z /\
  (i = Z.of_nat (length v) - 1 <-> exists a, nth_error v (length v - 1) = Some a /\
     if right then le a x else lt a x)%Z /\
  (0 <= i < Z.of_nat (length v) - 1 -> exists a b, nth_error v (Z.to_nat i) = Some a /\
     nth_error v (Z.to_nat (i + 1)) = Some b /\ if right then le a x /\ lt x b else lt a x /\ le x b)%Z.
Proof. exact @bisect_brackets. Qed.
Print Assumptions C16_bisect_brackets.

(** C16: for any array, sorted or not, and any values, NaN included, the search ends and
    reads only inside of the array. *)
Theorem C16_bisect_in_bounds :
  forall T (OT : TOrd T) (v : list T) xs right,
  length (bisect v xs right) = length xs /\
  forall r, In r (bisect v xs right) ->
    exists i, r = Some i /\ (-1 <= i < Z.max 1 (Z.of_nat (length v)))%Z.
Proof. exact @bisect_in_bounds. Qed.
Print Assumptions C16_bisect_in_bounds.

(** C16: NaN gives -1 (the documentation of the C code says n - 1). *)
Theorem C16_bisect_nan :
  forall T (OT : TOrd T) (v : list T) xs right k, nth_error xs k = Some None ->
  nth_error (bisect v xs right) k = Some (Some (-1)%Z).
Proof. exact @bisect_nan. Qed.
Print Assumptions C16_bisect_nan.

Example C16_example : (sorted_nodes [1; 3; 3; 7; 9] /\
  bisect [1; 3; 3; 7; 9] [Some 0; Some 1; Some 3; Some 5; Some 9; None] true
    = map Some [-1; 0; 2; 2; 4; -1] /\
  bisect [1; 3; 3; 7; 9] [Some 0; Some 1; Some 3; Some 5; Some 9; Some 10; None] false
    = map Some [-1; -1; 0; 2; 3; 4; -1])%Z.
Proof. exact ex_bisect. Qed.

(** C17: between two neighbouring nodes the result is on their line, with or without
    extrapolation ... *)
Theorem C17_linear_between :
  forall t0 c0 extrapolate t k ta ca tb cb,
  increasing t0 -> length c0 = length t0 -> segment t0 c0 k ta ca tb cb -> (ta <= t <= tb)%R ->
  interp_one t0 c0 INTERP_C1 extrapolate (Some t) = Some (Some (line ta ca tb cb t)).
Proof. exact linear_between. Qed.
Print Assumptions C17_linear_between.

(** ... at a node it is the value of the node ... *)
Theorem C17_linear_node :
  forall t0 c0 extrapolate k tk ck,
  increasing t0 -> length c0 = length t0 -> (2 <= length t0)%nat ->
  nth_error t0 k = Some tk -> nth_error c0 k = Some ck ->
  interp_one t0 c0 INTERP_C1 extrapolate (Some tk) = Some (Some ck).
Proof. exact linear_node. Qed.
Print Assumptions C17_linear_node.

(** ... before the first node it is on the line of the first interval, or NaN ... *)
Theorem C17_linear_before :
  forall t0 c0 extrapolate t ta ca tb cb,
  increasing t0 -> length c0 = length t0 -> segment t0 c0 0 ta ca tb cb -> (t < ta)%R ->
  interp_one t0 c0 INTERP_C1 extrapolate (Some t) =
    Some (if extrapolate then Some (line ta ca tb cb t) else None).
Proof. exact linear_before. Qed.
Print Assumptions C17_linear_before.

(** ... after the last node it is on the line of the last interval, or NaN ... *)
Theorem C17_linear_after :
  forall t0 c0 extrapolate t k ta ca tb cb,
  increasing t0 -> length c0 = length t0 -> S (S k) = length t0 ->
  segment t0 c0 k ta ca tb cb -> (tb < t)%R ->
  interp_one t0 c0 INTERP_C1 extrapolate (Some t) =
    Some (if extrapolate then Some (line ta ca tb cb t) else None).
Proof. exact linear_after. Qed.
Print Assumptions C17_linear_after.

(** ... and NaN at NaN. *)
Theorem C17_linear_nan :
  forall t0 c0 extrapolate, length c0 = length t0 -> (2 <= length t0)%nat ->
  interp_one t0 c0 INTERP_C1 extrapolate None = Some None.
Proof. exact linear_nan. Qed.
Print Assumptions C17_linear_nan.

(** The array function: every element is that of one time and one series; it raises an
    exception iff the number of nodes is too low or does not match. *)
Theorem C17_array_element :
  forall time time0 coeff0 kind extrapolate res i j t c0,
  interp time time0 coeff0 kind extrapolate = Returned res ->
  nth_error time i = Some t -> nth_error coeff0 j = Some c0 ->
  length c0 = length time0 /\ (min_nt kind <= length time0)%nat /\
  exists row, nth_error res i = Some row /\ length row = length coeff0 /\
    nth_error row j = Some (interp_one time0 c0 kind extrapolate t).
Proof. exact interp_element. Qed.
Print Assumptions C17_array_element.

Theorem C17_array_raises :
  forall time time0 coeff0 kind extrapolate,
  interp time time0 coeff0 kind extrapolate = Raised <->
  (length time0 < min_nt kind)%nat \/ exists c0, In c0 coeff0 /\ length c0 <> length time0.
Proof. exact interp_raises. Qed.
Print Assumptions C17_array_raises.

(** No read outside of the arrays, for any nodes, sorted or not. *)
Theorem C17_no_out_of_bounds :
  forall t0 c0 kind extrapolate t,
  length c0 = length t0 -> (min_nt kind <= length t0)%nat ->
  exists v, interp_one t0 c0 kind extrapolate t = Some v.
Proof. exact interp_no_oob. Qed.
Print Assumptions C17_no_out_of_bounds.

Example C17_example : (increasing [0; 1; 3] /\ segment [0; 1; 3] [5; 7; 1] 1 1 7 3 1 /\
  interp_one [0; 1; 3] [5; 7; 1] INTERP_C1 false (Some 2) = Some (Some 4))%R.
Proof. exact (conj (proj1 ex_nodes) (conj (proj2 ex_nodes) ex_interp)). Qed.

(** C18 is false: without extrapolation the result after the last node is not NaN. *)
Theorem C18_nan_outside_refuted : exists t0 c0 t, increasing t0 /\ length c0 = length t0 /\
  (forall k tk, nth_error t0 k = Some tk -> (tk < t)%R) /\
  interp_one t0 c0 INTERP_C0 false (Some t) <> Some None.
Proof. exact const_no_nan. Qed.
Print Assumptions C18_nan_outside_refuted.

(** C18, what holds: the value of the last node not after the time ... *)
Theorem C18_constant_partial :
  forall t0 c0 extrapolate t k ck, sorted_nodes t0 -> length c0 = length t0 ->
  last_index (fun a => le a t) t0 (Z.of_nat k) -> nth_error c0 k = Some ck ->
  interp_one t0 c0 INTERP_C0 extrapolate (Some t) = Some (Some ck).
Proof. exact const_at. Qed.
Print Assumptions C18_constant_partial.

(** ... before the first node its value, or NaN without extrapolation ... *)
Theorem C18_before_partial :
  forall t0 c0 extrapolate t ta ca, sorted_nodes t0 -> length c0 = length t0 ->
  nth_error t0 0 = Some ta -> nth_error c0 0 = Some ca -> (t < ta)%R ->
  interp_one t0 c0 INTERP_C0 extrapolate (Some t) = Some (if extrapolate then Some ca else None).
Proof. exact const_before. Qed.
Print Assumptions C18_before_partial.

(** ... from the last node on its value, with and without extrapolation. *)
Theorem C18_after_partial :
  forall t0 c0 extrapolate t tl cl, sorted_nodes t0 -> length c0 = length t0 ->
  nth_error t0 (length t0 - 1) = Some tl -> nth_error c0 (length t0 - 1) = Some cl -> (tl <= t)%R ->
  interp_one t0 c0 INTERP_C0 extrapolate (Some t) = Some (Some cl).
Proof. exact const_after. Qed.
Print Assumptions C18_after_partial.

Example C18_example : increasing [0%R; 1%R; 3%R].
Proof. exact (proj1 ex_nodes). Qed.

(** C19: the derivative kind is the derivative of the linear interpolation at every time
    which is not a node. *)
Theorem C19_derivative :
  forall t0 c0 t f d,
  increasing t0 -> length c0 = length t0 -> (2 <= length t0)%nat ->
  (forall k tk, nth_error t0 k = Some tk -> t <> tk) ->
  (forall u, interp_one t0 c0 INTERP_C1 true (Some u) = Some (Some (f u))) ->
  interp_one t0 c0 INTERP_C1D1 true (Some t) = Some (Some d) ->
  is_derive f t d.
Proof. exact derivative_kind. Qed.
Print Assumptions C19_derivative.

(** Both always have values with extrapolation. *)
Theorem C19_total :
  forall t0 c0 kind t,
  sorted_nodes t0 -> length c0 = length t0 -> (min_nt kind <= length t0)%nat ->
  exists v, interp_one t0 c0 kind true (Some t) = Some (Some v).
Proof. exact interp_total. Qed.
Print Assumptions C19_total.

Example C19_example : increasing [0%R; 1%R; 3%R].
Proof. exact (proj1 ex_nodes). Qed.
