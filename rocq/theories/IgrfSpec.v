(** Specification of the IGRF files and of the coefficients they define. *)

From Coq Require Import List Ascii ZArith Reals.
From Verif Require Import TextModel TextSpec SparseSpec InterpSpec SeriesSpec.
Import ListNotations.
Open Scope R_scope.

(** A row of the file: degree, order (negative for the sine), the values at the times and the predicted rate per year
    behind the last one *)
Record igrf_row := { i_n : Z; i_m : Z; i_values : list R; i_rate : R }.

Section Spec.
Variables (to_int : text -> option Z) (to_float : text -> option R).

Definition igrf_line (line : text) (r : igrf_row) : Prop :=
  exists label a b values rate m, has_fields line (label :: a :: b :: values ++ [rate]) /\
    to_int a = Some (i_n r) /\ to_int b = Some m /\
    (label = ["h"%char] /\ i_m r = (- m)%Z \/ label <> ["h"%char] /\ i_m r = m) /\
    numbers to_float values (i_values r) /\ to_float rate = Some (i_rate r).

(** The file: comments and blank lines, a header, the line of the times, which are between three labels and the label of
    the rates, the rows *)
Definition igrf_file (file : list text) (times : list R) (rows : list igrf_row) : Prop :=
  exists comments header line l1 l2 l3 ts l4 lines,
    file = comments ++ header :: line :: lines /\ Forall comment_line comments /\ ~ comment_line header /\
    has_fields line (l1 :: l2 :: l3 :: ts ++ [l4]) /\ numbers to_float ts times /\ Forall2 igrf_line lines rows.
End Spec.

(** at least one row, one row for each degree and order, a value for each time *)
Definition proper_igrf (times : list R) (rows : list igrf_row) : Prop :=
  rows <> [] /\ (forall r, In r rows -> valid_nm (i_n r) (i_m r) /\ length (i_values r) = length times) /\
  (forall i j a b, nth_error rows i = Some a -> nth_error rows j = Some b -> i_n a = i_n b -> i_m a = i_m b -> i = j).

(** The value of a coefficient at a decimal year: on the line through the values at consecutive times, which continues before the first
    time; from the last time on the last value plus the rate times the elapsed years (with a single time also before) *)
Definition igrf_value (times : list R) (r : igrf_row) (year v : R) : Prop :=
  (exists k ta ca tb cb, segment times (i_values r) k ta ca tb cb /\ (ta <= year \/ k = O) /\ year <= tb /\ v = line ta ca tb cb year) \/
  (exists k t c, S k = length times /\ nth_error times k = Some t /\ nth_error (i_values r) k = Some c /\
     (t <= year \/ k = O) /\ v = c + i_rate r * (year - t)).
