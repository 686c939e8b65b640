(** Property theorems C01-C03: interval utilities. *)

From Coq Require Import List ZArith.
From Verif Require Import Ord IntervalsModel IntervalsSpec IntervalsProofs AggregateProofs
  IntervalsMoreProofs.
Import ListNotations.

(** C01: the overlap removal terminates (the result is never [None]) and yields ordered,
    disjoint and non-degenerate intervals. *)
Theorem C01_overlap_removal_ordered : forall T (O : TOrd T) A (l : list (interval T A)),
  exists r, get_nonoverlapping_intervals l = Some r /\ ordered r /\ proper r.
Proof. exact nonoverlapping_ordered. Qed.
Print Assumptions C01_overlap_removal_ordered.

Example C01_example :
  get_nonoverlapping_intervals
    [((zf 2, zf 5), 1); ((zf 9, zf 7), 2); ((zf 0, zf 8), 3); ((zf 4, zf 10), 4)]
  = Some [((zf 0, zf 2), 3); ((zf 2, zf 5), 1); ((zf 5, zf 8), 3); ((zf 8, zf 10), 4)].
Proof. exact ex_nonoverlapping. Qed.

(** C02: at every instant the result holds the object of the first input interval
    containing the instant. *)
Theorem C02_overlap_removal_first_wins : forall T (O : TOrd T) A (l r : list (interval T A)),
  get_nonoverlapping_intervals l = Some r ->
  forall t, first_at t r = first_at t l /\
            (all_at t r = match first_at t l with Some x => [x] | None => [] end).
Proof. exact nonoverlapping_first_wins. Qed.
Print Assumptions C02_overlap_removal_first_wins.

Example C02_example :
  exists r, get_nonoverlapping_intervals
    [((zf 2, zf 5), 1); ((zf 9, zf 7), 2); ((zf 0, zf 8), 3); ((zf 4, zf 10), 4)] = Some r /\
  first_at (zf 4) r = Some 1 /\ first_at (zf 7) r = Some 3 /\ first_at (zf 10) r = None.
Proof. exact ex_first_wins. Qed.

(** C03: the aggregation is the pointwise intersection of the two time-ordered lists. *)
Theorem C03_aggregation_is_intersection :
  forall T (O : TOrd T) (I : TInf T) A
    (aggs : list (interval T (list A))) (ints : list (interval T A)),
  ordered aggs -> weakly_proper aggs -> ordered ints -> weakly_proper ints ->
  let r := aggregate_intersected_intervals ints (Some aggs) in
  ordered r /\ weakly_proper r /\
  (forall t, all_at t r = match first_at t aggs, first_at t ints with
                          | Some l, Some x => [l ++ [x]]
                          | _, _ => []
                          end) /\
  (forall t, (exists agg int, In agg aggs /\ In int ints /\
                at_time_closed t agg /\ at_time_closed t int) <->
             (exists x, In x r /\ at_time_closed t x)) /\
  (forall x, In x r -> exists agg int, In agg aggs /\ In int ints /\
      iobj x = iobj agg ++ [iobj int]).
Proof. exact aggregation_is_intersection. Qed.
Print Assumptions C03_aggregation_is_intersection.

(** C03, first step: without previous aggregates each interval is returned on its own. *)
Theorem C03_aggregation_of_one :
  forall T (O : TOrd T) (I : TInf T) A (ints : list (interval T A)),
  ordered ints -> weakly_proper ints ->
  let r := aggregate_intersected_intervals ints None in
  ordered r /\ weakly_proper r /\
  (forall t, lt t pinf -> all_at t r = match first_at t ints with
                                       | Some x => [[x]]
                                       | None => []
                                       end) /\
  (forall t, (exists int, In int ints /\ at_time_closed t int) <->
             (exists x, In x r /\ at_time_closed t x)).
Proof. exact aggregation_of_one. Qed.
Print Assumptions C03_aggregation_of_one.

Example C03_example :
  let aggs := [((zf 0, zf 4), [1]); ((zf 4, zf 9), [2])] in
  let ints := [((zf 1, zf 3), 5); ((zf 3, zf 6), 6); ((zf 8, zf 12), 7)] in
  ordered aggs /\ weakly_proper aggs /\ ordered ints /\ weakly_proper ints /\
  aggregate_intersected_intervals ints (Some aggs) =
    [((zf 1, zf 3), [1; 5]); ((zf 3, zf 4), [1; 6]); ((zf 4, zf 6), [2; 6]); ((zf 8, zf 9), [2; 7])].
Proof. exact ex_aggregation. Qed.
