(** Final forms of the interval lemmas and the examples. *)

From Coq Require Import Bool List ZArith Lia Sorting.Sorted.
From Verif Require Import Ord IntervalsModel IntervalsSpec IntervalsProofs AggregateProofs.
Import ListNotations.

Lemma nonoverlapping_ordered : forall T (O : TOrd T) A (l : list (interval T A)),
  exists r, get_nonoverlapping_intervals l = Some r /\ ordered r /\ proper r.
Proof.
  intros T O A l. destruct (get_nonoverlapping_correct l) as (r & E & H1 & H2 & _). eauto.
Qed.

Lemma nonoverlapping_first_wins : forall T (O : TOrd T) A (l r : list (interval T A)),
  get_nonoverlapping_intervals l = Some r ->
  forall t, first_at t r = first_at t l /\
            (all_at t r = match first_at t l with Some x => [x] | None => [] end).
Proof.
  intros T O A l r E t.
  destruct (get_nonoverlapping_correct l) as (r' & E' & H1 & H2 & H3).
  rewrite E in E'. injection E' as <-. split; [apply H3|].
  rewrite <- H3. apply all_at_first_at. apply inv_iff. auto.
Qed.

Lemma tmax_le {T} {O : TOrd T} (a b t : T) : le (tmax a b) t <-> le a t /\ le b t.
Proof. apply le_tmax. Qed.

Lemma aggregation_is_intersection :
  forall T (O : TOrd T) (I : TInf T) A
    (aggs : list (interval T (list A))) (ints : list (interval T A)),
  ordered aggs -> weakly_proper aggs -> ordered ints -> weakly_proper ints ->
  let r := aggregate_intersected_intervals ints (Some aggs) in
  ordered r /\ weakly_proper r /\
  (forall t, all_at t r = match first_at t aggs, first_at t ints with
                          | Some l, Some x => [l ++ [x]]
                          | _, _ => []
                          end) /\
  (forall t, (exists agg int, In agg aggs /\ In int ints /\
                at_time_closed t agg /\ at_time_closed t int) <->
             (exists x, In x r /\ at_time_closed t x)) /\
  (forall x, In x r -> exists agg int, In agg aggs /\ In int ints /\
      iobj x = iobj agg ++ [iobj int]).
Proof.
  intros T O I A aggs ints H1 H2 H3 H4 r.
  assert (W1 : winv aggs) by (apply winv_iff; auto).
  assert (W2 : winv ints) by (apply winv_iff; auto).
  pose proof (aggregate_winv aggs ints W1 W2) as W. apply winv_iff in W as [W3 W4].
  split; [exact W3|]. split; [exact W4|]. split; [apply aggregate_at; auto|]. split.
  - intro t. split.
    + intros (agg & int & Ha & Hi & Ta & Ti).
      destruct (aggregate_complete aggs ints W1 W2 t agg int Ha Hi Ta Ti) as (x & Hx & Tx). eauto.
    + intros (x & Hx & Tx).
      destruct (aggregate_sound aggs ints x Hx) as (agg & int & Ha & Hi & _ & _ & _ & Es & Ee).
      exists agg, int. unfold at_time_closed in *. rewrite Es, Ee in Tx.
      destruct Tx as [T1 T2]. apply le_tmax in T1. apply tmin_le in T2. tauto.
  - intros x Hx.
    destruct (aggregate_sound aggs ints x Hx) as (agg & int & Ha & Hi & Eo & _). eauto.
Qed.

Lemma aggregation_of_one :
  forall T (O : TOrd T) (I : TInf T) A (ints : list (interval T A)),
  ordered ints -> weakly_proper ints ->
  let r := aggregate_intersected_intervals ints None in
  ordered r /\ weakly_proper r /\
  (forall t, lt t pinf -> all_at t r = match first_at t ints with
                                       | Some x => [[x]]
                                       | None => []
                                       end) /\
  (forall t, (exists int, In int ints /\ at_time_closed t int) <->
             (exists x, In x r /\ at_time_closed t x)).
Proof.
  intros T O I A ints H1 H2 r.
  destruct (proj1 (winv_iff _) (@winv_default T O I A)) as [D1 D2].
  destruct (aggregation_is_intersection T O I A _ ints D1 D2 H1 H2) as (R1 & R2 & R3 & R4 & _).
  split; [exact R1|]. split; [exact R2|]. split.
  - intros t Ht. unfold r, aggregate_intersected_intervals in *. rewrite R3.
    rewrite first_at_default by auto. destruct (first_at t ints); reflexivity.
  - intro t. unfold r, aggregate_intersected_intervals in *. rewrite <- R4. split.
    + intros (int & Hi & Ti). exists ((ninf, pinf), []), int.
      split; [simpl; auto|]. split; [auto|]. split; [|auto].
      split; unfold istart, iend; simpl; apply leb_le; [apply ninf_least|apply pinf_greatest].
    + intros (agg & int & _ & Hi & _ & Ti). eauto.
Qed.

Lemma ex_nonoverlapping :
  get_nonoverlapping_intervals
    [((zf 2, zf 5), 1); ((zf 9, zf 7), 2); ((zf 0, zf 8), 3); ((zf 4, zf 10), 4)]
  = Some [((zf 0, zf 2), 3); ((zf 2, zf 5), 1); ((zf 5, zf 8), 3); ((zf 8, zf 10), 4)].
Proof. vm_compute. reflexivity. Qed.

Lemma ex_first_wins :
  exists r, get_nonoverlapping_intervals
    [((zf 2, zf 5), 1); ((zf 9, zf 7), 2); ((zf 0, zf 8), 3); ((zf 4, zf 10), 4)] = Some r /\
  first_at (zf 4) r = Some 1 /\ first_at (zf 7) r = Some 3 /\ first_at (zf 10) r = None.
Proof. eexists. split; [vm_compute; reflexivity|]. vm_compute. auto. Qed.

Lemma ex_aggregation :
  let aggs := [((zf 0, zf 4), [1]); ((zf 4, zf 9), [2])] in
  let ints := [((zf 1, zf 3), 5); ((zf 3, zf 6), 6); ((zf 8, zf 12), 7)] in
  ordered aggs /\ weakly_proper aggs /\ ordered ints /\ weakly_proper ints /\
  aggregate_intersected_intervals ints (Some aggs) =
    [((zf 1, zf 3), [1; 5]); ((zf 3, zf 4), [1; 6]); ((zf 4, zf 6), [2; 6]); ((zf 8, zf 9), [2; 7])].
Proof.
  intros aggs ints.
  assert (W : winv aggs /\ winv ints).
  { unfold winv, aggs, ints.
    split; split; repeat constructor; apply leb_le; reflexivity. }
  destruct W as [W1 W2]. apply winv_iff in W1 as [? ?]. apply winv_iff in W2 as [? ?].
  repeat split; auto.
Qed.
