(** C58: broadcasting of times and coordinates. *)

From Coq Require Import List ZArith.
From Verif Require Import CoefModel ShapeModel ShapeSpec ShapeProofs.
Import ListNotations.

(** Locations of the shape [leading ++ [last]] and times whose dimensions are the first ones of
    the locations: accepted, the locations are kept, and the times are repeated along the other
    dimensions (a 0-dimensional time is kept as it is).  Missing for the full claim: times with
    more dimensions than the locations, see C58_refuted. *)
Theorem C58_broadcast_partial :
  forall (A B : Type) (time : sarr A) (coords : sarr B) leading last extra,
    well_formed time -> s_shape coords = leading ++ [last] -> leading = s_shape time ++ extra ->
    exists time', reshape_times_and_coordinates time coords = Ok (time', coords) /\
      (s_shape time = [] /\ time' = time \/ s_shape time <> [] /\ repeats time time' leading).
Proof. exact @reshape_ok. Qed.
Print Assumptions C58_broadcast_partial.

Example C58_broadcast_example : well_formed ex_time /\ s_shape ex_coords = [2; 2]%nat ++ [3%nat] /\ [2; 2]%nat = s_shape ex_time ++ [2%nat] /\
  exists t, reshape_times_and_coordinates ex_time ex_coords = Ok (t, ex_coords) /\
    map (s_get t) [[0; 0]; [0; 1]; [1; 0]; [1; 1]]%nat = [100; 100; 101; 101]%Z.
Proof. exact ex_reshape. Qed.

(** Leading dimensions which do not match are rejected. *)
Theorem C58_rejected :
  forall (A B : Type) (time : sarr A) (coords : sarr B) leading last,
    s_shape coords = leading ++ [last] -> ~ agree (s_shape time) leading ->
    reshape_times_and_coordinates time coords = Err ValueError.
Proof. exact @reshape_mismatch. Qed.
Print Assumptions C58_rejected.

Example C58_rejected_example : ~ agree [2; 3]%nat [3]%nat.
Proof. exact ex_disagree. Qed.

(** Times with more dimensions than the locations, for instance several times for one location:
    the leading dimensions match but the call always raises TypeError. *)
Theorem C58_refuted :
  forall (A B : Type) (time : sarr A) (coords : sarr B) leading last extra,
    s_shape coords = leading ++ [last] -> s_shape time = leading ++ extra -> extra <> [] ->
    reshape_times_and_coordinates time coords = Err TypeError.
Proof. exact @reshape_type_error. Qed.
Print Assumptions C58_refuted.

(** reshape_array: the array is repeated along the missing trailing dimensions of the given
    shape, and is rejected unless its dimensions are the first ones of the shape. *)
Theorem C58_array :
  forall (A : Type) shape (array : sarr A), well_formed array ->
    (forall extra, shape = s_shape array ++ extra ->
       exists b, reshape_array shape array = Ok b /\ repeats array b shape) /\
    ((forall extra, shape <> s_shape array ++ extra) -> reshape_array shape array = Err ValueError).
Proof. exact @reshape_array_ok. Qed.
Print Assumptions C58_array.

Example C58_array_example : well_formed ex_time /\
  (exists b, reshape_array [2; 3]%nat ex_time = Ok b /\ s_get b [1; 2]%nat = 101%Z) /\
  reshape_array [3; 2]%nat ex_time = Err ValueError /\ reshape_array [] ex_time = Err ValueError.
Proof. exact ex_array. Qed.
