(** Specification of the sets of time-dependent coefficients. *)

From Coq Require Import List Reals ZArith.
From Verif Require Import Ord ROrd CoefModel SparseModel SparseSpec TempModel.
Import ListNotations.

(** A set of coefficients which shevaltemp can interpolate: one row for each (n, m) and one column
    for each time, at least one time for the piecewise constant and at least two times for the
    piecewise linear interpolation. *)
Definition usable_set (s : set_args) : Prop :=
  let '(times, rows, nms, order) := s in
  (order = 1%Z /\ 1 <= length times \/ order = 2%Z /\ 2 <= length times)%nat /\
  length rows = length nms /\ (forall r, In r rows -> length r = length times) /\
  (forall n m, In (n, m) nms -> valid_nm n m).

Definition set_nms (s : set_args) : list (Z * Z) := let '(_, _, nms, _) := s in nms.
Definition set_order (s : set_args) : Z := let '(_, _, _, order) := s in order.

(** The two sets have a coefficient in common. *)
Definition share (a b : set_args) : Prop := exists nm, In nm (set_nms a) /\ In nm (set_nms b).

(** The sets with a piecewise constant interpolation have no coefficient in common with the sets
    before them in the list. *)
Definition no_stale (sets : list set_args) : Prop :=
  forall i j a b, (i < j)%nat -> nth_error sets i = Some a -> nth_error sets j = Some b ->
    set_order b = 1%Z -> ~ share a b.

(** No two of the sets have a coefficient in common. *)
Definition no_shared (sets : list set_args) : Prop :=
  forall i j a b, (i < j)%nat -> nth_error sets i = Some a -> nth_error sets j = Some b -> ~ share a b.

(** The dimensions agree as far as they are common. *)
Definition leading_match (a b : list nat) : Prop := (exists c, b = a ++ c) \/ (exists c, a = b ++ c).

(** ** Sets of a model *)

(** A set built by SparseSHCoefficientsTimeDependent of one series for each valid (n, m), each of
    them given once, and with at least two times for the linear interpolation; the validity may have been
    changed afterwards. *)
Definition built_set (l : leaf_set) : Prop :=
  exists indices coefficients times order vstart vend conv td,
    mk_time_dependent indices coefficients times order vstart vend conv = Some td /\
    td_sparse (fst l) = td_sparse td /\ td_times (fst l) = td_times td /\ td_order (fst l) = td_order td /\
    (forall i n m, nth_error indices i = Some (n, m) -> valid_nm n m /\ (n < 2 ^ 24)%Z) /\
    (forall i j p, nth_error indices i = Some p -> nth_error indices j = Some p -> i = j) /\
    (order = 2%Z -> (2 <= length times)%nat).

(** The degrees and orders of the coefficients of the set *)
Definition leaf_nms (l : leaf_set) : list (Z * Z) := map (fun e => (e_n e, e_m e)) (s_entries (td_sparse (fst l))).

(** No two sets have a common coefficient. *)
Definition disjoint_sets (items : list leaf_set) : Prop :=
  forall i j a b nm, nth_error items i = Some a -> nth_error items j = Some b ->
    In nm (leaf_nms a) -> In nm (leaf_nms b) -> i = j.

(** All sets convert the time in the same way. *)
Definition same_conversion (items : list leaf_set) (time : R) : Prop :=
  forall a b, In a items -> In b items -> apply_convert (snd a) time = apply_convert (snd b) time.
