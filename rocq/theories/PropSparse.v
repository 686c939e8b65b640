(** Property theorems C12-C15, C61, C62: sparse coefficients and time series. *)

From Coq Require Import List ZArith Reals Permutation.
From Verif Require Import Ord ROrd SparseModel SparseSpec SparseProofs SnapshotProofs
  SeriesModel SeriesProofs SizeModel SizeProofs.
Import ListNotations.
Open Scope Z_scope.

(** C12: evaluated with degree bounds, the full coefficient array holds exactly the
    coefficients with the degree within the bounds, the other cells are zero; the
    returned degree is the largest retained one, or 0. *)
Theorem C12_degree_subset :
  forall C V (vzero : V) (entries : list (@entry C)) s (val : C -> V) min_degree max_degree,
  (forall e, In e entries -> valid_nm (e_n e) (e_m e)) -> distinct_entries entries ->
  mk_sparse entries = Some s ->
  exists full degree, sparse_call vzero s val min_degree max_degree = Some (full, degree) /\
    2 * Z.of_nat (length full) = (degree + 1) * (degree + 2) /\
    (forall e row col, In e entries -> within_bounds min_degree max_degree (e_n e) ->
       packed_row (e_n e) (e_m e) row -> packed_col (e_m e) col ->
       cell_value full row col = Some (val (e_c e))) /\
    (forall row col, 0 <= row < Z.of_nat (length full) -> 0 <= col <= 1 ->
       (forall e, In e entries -> within_bounds min_degree max_degree (e_n e) ->
          packed_row (e_n e) (e_m e) row -> ~ packed_col (e_m e) col) ->
       cell_value full row col = Some vzero) /\
    ((exists e, In e entries /\ within_bounds min_degree max_degree (e_n e) /\ e_n e = degree) \/
     (forall e, In e entries -> ~ within_bounds min_degree max_degree (e_n e)) /\ degree = 0) /\
    (forall e, In e entries -> within_bounds min_degree max_degree (e_n e) -> e_n e <= degree).
Proof. exact @sparse_call_packed. Qed.
Print Assumptions C12_degree_subset.

Example C12_example : exists s,
  mk_sparse [{| e_n := 1; e_m := 0; e_c := 3 |}; {| e_n := 1; e_m := -1; e_c := 4 |};
             {| e_n := 2; e_m := 2; e_c := 5 |}; {| e_n := 3; e_m := 0; e_c := 6 |}] = Some s /\
  sparse_call 0 s (fun c => c) 1 2 = Some ([(0, 0); (3, 0); (0, 4); (0, 0); (0, 0); (5, 0)], 2).
Proof. exact ex_entries_valid. Qed.

(** C13: the cell of a coefficient is that of the packed layout ... *)
Theorem C13_index_layout : forall n m,
  packed_row n m (fst (index_of n m)) /\ packed_col m (snd (index_of n m)).
Proof. exact index_spec. Qed.
Print Assumptions C13_index_layout.

(** ... it is within the array of coeff_size(N) rows, of (N + 1) (N + 2) / 2 rows ... *)
Theorem C13_index_in_bounds : forall N n m, valid_nm n m -> n <= N ->
  0 <= fst (index_of n m) < coeff_size_z N /\ 0 <= snd (index_of n m) <= 1.
Proof. exact index_bounds. Qed.
Print Assumptions C13_index_in_bounds.

Theorem C13_coeff_size : forall N, 2 * coeff_size_z N = (N + 1) * (N + 2).
Proof. exact size2. Qed.
Print Assumptions C13_coeff_size.

(** ... different coefficients have different cells ... *)
Theorem C13_index_injective : forall n m n' m', valid_nm n m -> valid_nm n' m' ->
  (index_of n m = index_of n' m' <-> n = n' /\ m = m').
Proof. exact index_inj. Qed.
Print Assumptions C13_index_injective.

(** ... and only the sine cells of the order zero are not used. *)
Theorem C13_index_surjective : forall N row col, 0 <= N -> 0 <= row < coeff_size_z N -> 0 <= col <= 1 ->
  (exists n m, valid_nm n m /\ n <= N /\ index_of n m = (row, col)) <->
  ~ (col = 1 /\ exists n, 2 * row = n * (n + 1) /\ 0 <= n).
Proof. exact index_surj. Qed.
Print Assumptions C13_index_surjective.

Example C13_example : valid_nm 3 (-2) /\ index_of 3 (-2) = (8, 1) /\ coeff_size_z 3 = 10.
Proof. exact ex_index. Qed.

(** C14: in double precision arithmetic the degree of an array of coeff_size(N) rows is N ... *)
Theorem C14_full_size : forall N size, 0 <= N -> 2 * size = (N + 1) * (N + 2) -> size < 2 ^ 50 ->
  size_to_degree size = N.
Proof. exact degree_of_full_size. Qed.
Print Assumptions C14_full_size.

(** ... and for any size it is the largest degree that fits (-1 for no rows). *)
Theorem C14_largest_degree : forall size, 0 <= size < 2 ^ 50 ->
  let d := size_to_degree size in
  -1 <= d /\ (d + 1) * (d + 2) <= 2 * size /\
  forall d', 0 <= d' -> (d' + 1) * (d' + 2) <= 2 * size -> d' <= d.
Proof. exact degree_largest. Qed.
Print Assumptions C14_largest_degree.

(** The degree used by the evaluations of several arrays is the smallest of theirs. *)
Theorem C14_common_degree : forall degrees idx d, degrees <> nil -> get_max_degree degrees = (idx, d) ->
  nth_error degrees (Z.to_nat idx) = Some d /\ 0 <= idx /\ forall x, In x degrees -> d <= x.
Proof. exact get_max_degree_spec. Qed.
Print Assumptions C14_common_degree.

Example C14_example : size_to_degree 3 = 1 /\ size_to_degree 105 = 13.
Proof. exact ex_size. Qed.

(** C15: the time-dependent set built from permuted snapshots is the same set. *)
Theorem C15_order_independent :
  forall T (OT : TOrd T) V indices (coefficients : list (list V)) times order vstart vend
    (to_mjd2000 : T -> T) pi coefficients' times',
  distinct_times times -> Permutation pi (seq 0 (length times)) ->
  gather times pi = Some times' ->
  Forall2 (fun c c' => length c = length times /\ gather c pi = Some c') coefficients coefficients' ->
  mk_time_dependent indices coefficients' times' order vstart vend to_mjd2000 =
  mk_time_dependent indices coefficients times order vstart vend to_mjd2000.
Proof. exact @snapshot_order. Qed.
Print Assumptions C15_order_independent.

(** Its times are the sorted times, its series are sorted with them, and the default
    validity range is that of the times. *)
Theorem C15_sorted_series :
  forall T (OT : TOrd T) V indices (coefficients : list (list V)) times order vstart vend
    (to_mjd2000 : T -> T) td,
  mk_time_dependent indices coefficients times order vstart vend to_mjd2000 = Some td ->
  exists times', Permutation times' times /\ Sorting.Sorted.StronglySorted le times' /\
    td_times td = map to_mjd2000 times' /\
    (vstart = None -> exists t, nth_error times' 0 = Some t /\ fst (td_validity td) = to_mjd2000 t) /\
    (vend = None -> exists t, nth_error times' (length times' - 1) = Some t /\
                              snd (td_validity td) = to_mjd2000 t) /\
    (forall t, vstart = Some t -> fst (td_validity td) = to_mjd2000 t) /\
    (forall t, vend = Some t -> snd (td_validity td) = to_mjd2000 t) /\
    (forall i n m c, nth_error indices i = Some (n, m) -> nth_error coefficients i = Some c ->
       exists c', nth_error (s_entries (td_sparse td)) i = Some {| e_n := n; e_m := m; e_c := c' |} /\
         length c' = length times' /\ Permutation (combine times' c') (combine times c)).
Proof. exact @snapshot_sorted. Qed.
Print Assumptions C15_sorted_series.

Example C15_example : distinct_times [zf 5; zf 1; zf 3] /\
  exists td, mk_time_dependent ex_indices ex_series [zf 5; zf 1; zf 3] 2 None None (fun x => x) = Some td /\
    td_times td = [zf 1; zf 3; zf 5] /\ td_validity td = (zf 1, zf 5) /\
    map e_c (s_entries (td_sparse td)) = [[2; 3; 1]; [5; 6; 4]; [8; 9; 7]].
Proof. exact ex_snapshots. Qed.

(** C61: a time-dependent set evaluated at the time of a snapshot gives the coefficients
    of the snapshot (both spline orders, any snapshot order). *)
Theorem C61_value_at_snapshot :
  forall indices coefficients times order vstart vend td k tk i n m c v min_degree max_degree row col,
  (forall i n m, nth_error indices i = Some (n, m) -> valid_nm n m) ->
  (forall i j p, nth_error indices i = Some p -> nth_error indices j = Some p -> i = j) ->
  distinct_times times -> (order = 2 -> (2 <= length times)%nat) ->
  mk_time_dependent indices coefficients times order vstart vend (fun x : R => x) = Some td ->
  nth_error times k = Some tk -> nth_error indices i = Some (n, m) ->
  nth_error coefficients i = Some c -> nth_error c k = Some v ->
  within_bounds min_degree max_degree n -> packed_row n m row -> packed_col m col ->
  exists full degree, td_call td (fun x => x) (Some tk) min_degree max_degree = Some (full, degree) /\
    cell_value full row col = Some (Some (Some v)).
Proof. exact snapshot_value. Qed.
Print Assumptions C61_value_at_snapshot.

Example C61_example : (forall i n m, nth_error ex_indices i = Some (n, m) -> valid_nm n m) /\
  (forall i j p, nth_error ex_indices i = Some p -> nth_error ex_indices j = Some p -> i = j).
Proof. exact ex_indices_valid. Qed.

(** C62: a constant set gives the same coefficients at every time (NaN included) and is
    by default valid at all times. *)
Theorem C62_constant_value :
  forall T (OT : TOrd T) (OI : TInf T) V indices (coefficients : list V) vstart vend td vzero
    (t : option T) i n m v min_degree max_degree row col,
  (forall i n m, nth_error indices i = Some (n, m) -> valid_nm n m) ->
  (forall i j p, nth_error indices i = Some p -> nth_error indices j = Some p -> i = j) ->
  mk_constant indices coefficients vstart vend (fun x => x) = Some td ->
  nth_error indices i = Some (n, m) -> nth_error coefficients i = Some v ->
  within_bounds min_degree max_degree n -> packed_row n m row -> packed_col m col ->
  exists full degree, constant_call vzero td t min_degree max_degree = Some (full, degree) /\
    cell_value full row col = Some (Some v).
Proof. exact @constant_value. Qed.
Print Assumptions C62_constant_value.

Theorem C62_constant_validity :
  forall T (OT : TOrd T) (OI : TInf T) V indices (coefficients : list V) td,
  mk_constant indices coefficients None None (fun x : T => x) = Some td ->
  td_validity td = (ninf, pinf).
Proof. exact @constant_validity. Qed.
Print Assumptions C62_constant_validity.

Example C62_example : exists td, mk_constant ex_indices [7; 8; 9] None None (fun x : Zx => x) = Some td.
Proof. exact (ex_intro _ _ eq_refl). Qed.
