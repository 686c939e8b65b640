(** Specification of the sparse coefficients. *)

From Coq Require Import List ZArith.
From Verif Require Import Ord SparseModel.
Import ListNotations.
Open Scope Z_scope.

(** A degree and an order of a spherical harmonic *)
Definition valid_nm (n m : Z) : Prop := 0 <= n /\ - n <= m <= n.

(** The degree is within the bounds, a negative bound means no bound. *)
Definition within_bounds (min_degree max_degree n : Z) : Prop :=
  (min_degree < 0 \/ min_degree <= n) /\ (max_degree < 0 \/ n <= max_degree).

(** The cosine (column 0) or the sine (column 1) value of a row of the full array. *)
Definition cell_value {V} (full : list (V * V)) (row col : Z) : option V :=
  if row <? 0 then None
  else match nth_error full (Z.to_nat row) with
       | None => None
       | Some r => if col =? 0 then Some (fst r) else if col =? 1 then Some (snd r) else None
       end.

(** The documented packed layout: row n(n+1)/2 + |m|, the sine column for m < 0. *)
Definition packed_row (n m row : Z) : Prop := 2 * row = n * (n + 1) + 2 * Z.abs m.
Definition packed_col (m col : Z) : Prop := m < 0 /\ col = 1 \/ 0 <= m /\ col = 0.

(** Entries with different degree or order *)
Definition distinct_entries {C} (l : list (@entry C)) : Prop :=
  forall i j a b, nth_error l i = Some a -> nth_error l j = Some b ->
    e_n a = e_n b -> e_m a = e_m b -> i = j.

(** All times differ *)
Definition distinct_times {T} {OT : TOrd T} (times : list T) : Prop :=
  forall i j a b, i <> j -> nth_error times i = Some a -> nth_error times j = Some b ->
    lt a b \/ lt b a.
