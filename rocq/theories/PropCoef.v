(** Property theorems C04-C08: composed and combined coefficients. *)

From Coq Require Import List ZArith Permutation.
From Verif Require Import Ord IntervalsModel CoefModel CoefSpec CoefProofs ValidityProofs
  CoefMoreProofs.
Import ListNotations.

(** C04: every instant in the validity range of an accepted composition is valid for an
    item. *)
Theorem C04_accepted_is_covered :
  forall T (OT : TOrd T) (OI : TInf T) V P (items : list (coeffs T V P)) c t,
  mk_composed items = Ok c -> valid_at c t -> exists x, In x items /\ valid_at x t.
Proof. exact @composed_covered. Qed.
Print Assumptions C04_accepted_is_covered.

(** C04: the validity range is the hull of the ranges of the items. *)
Theorem C04_validity_is_hull :
  forall T (OT : TOrd T) (OI : TInf T) V P (items : list (coeffs T V P)) c,
  mk_composed items = Ok c ->
  (forall t, le (fst (validity c)) t <-> exists x, In x items /\ le (fst (validity x)) t) /\
  (forall t, le t (snd (validity c)) <-> exists x, In x items /\ le t (snd (validity x))).
Proof. exact @composed_hull_only. Qed.
Print Assumptions C04_validity_is_hull.

(** C04: a set of items with a gap is rejected. *)
Theorem C04_gap_is_rejected :
  forall T (OT : TOrd T) (OI : TInf T) V P (items : list (coeffs T V P)),
  has_gap items -> (forall x, In x items -> le (fst (validity x)) (snd (validity x))) ->
  mk_composed items = Err ValueError.
Proof. exact @gap_rejected. Qed.
Print Assumptions C04_gap_is_rejected.

Example C04_example_accepted :
  exists c, mk_composed [ex_leaf 5 12 true 2 7; ex_leaf 0 5 true 1 3] = Ok c /\
            validity c = (zf 0, zf 12).
Proof. exact ex_composed_ok. Qed.
Example C04_example_gap : has_gap [ex_leaf 7 12 true 2 7; ex_leaf 0 5 true 1 3].
Proof. exact ex_gap. Qed.

(** C05 is false: the gap check compares the start of an item with the end of the
    previous item in the order of starts, hence a nested item leads to a false gap. *)
Theorem C05_gapfree_accepted_refuted :
  exists items : list (coeffs Zx Z unit),
  (forall x, In x items -> built x) /\
  (forall x, In x items -> le (fst (validity x)) (snd (validity x))) /\
  (forall x y, In x items -> In y items -> is_internal x = is_internal y) /\
  ~ has_gap items /\ mk_composed items = Err ValueError.
Proof. exact gapfree_rejected. Qed.
Print Assumptions C05_gapfree_accepted_refuted.

(** C05, what holds: gap-free compositions without an item ending before an item
    which starts earlier are accepted.  Missing: nested items (see the refutation). *)
Theorem C05_gapfree_accepted_partial :
  forall T (OT : TOrd T) (OI : TInf T) V P (items : list (coeffs T V P)) internal,
  items <> [] ->
  (forall x, In x items -> is_internal x = internal) ->
  (forall x, In x items -> le (fst (validity x)) (snd (validity x))) ->
  (forall x y, In x items -> In y items ->
     lt (fst (validity x)) (fst (validity y)) -> le (snd (validity x)) (snd (validity y))) ->
  (forall a i, items <> [Composed a i]) ->
  ~ has_gap items -> exists c, mk_composed items = Ok c.
Proof. exact @nogap_accepted. Qed.
Print Assumptions C05_gapfree_accepted_partial.

Example C05_example :
  let items := [ex_leaf 5 12 true 2 7; ex_leaf 0 7 true 1 3] in
  (forall x, In x items -> le (fst (validity x)) (snd (validity x))) /\
  (forall x y, In x items -> In y items ->
     lt (fst (validity x)) (fst (validity y)) -> le (snd (validity x)) (snd (validity y))) /\
  ~ has_gap items.
Proof. exact ex_no_nesting. Qed.

(** C06: an array call yields for each time the rows of the scalar call. *)
Theorem C06_array_call_is_scalar_call :
  forall T (OT : TOrd T) (OI : TInf T) V (MV : CMon V) P (c : coeffs T V P) p ts,
  built c ->
  length (fst (call_array p ts c)) = length ts /\
  forall i t, nth_error ts i = Some t ->
    exists rows, nth_error (fst (call_array p ts c)) i = Some rows /\
      length rows = coeff_size (snd (call_array p ts c)) /\
      same_cells rows (fst (call_scalar p t c)).
Proof. exact @array_is_scalar. Qed.
Print Assumptions C06_array_call_is_scalar_call.

(** C06: the scalar call of a composed set is the call of the first valid item ... *)
Theorem C06_scalar_call_first_valid :
  forall T (OT : TOrd T) (OI : TInf T) V (MV : CMon V) P (items : list (coeffs T V P)) c p t,
  mk_composed items = Ok c ->
  forall i item, nth_error items i = Some item ->
  is_valid item t = true ->
  (forall j x, j < i -> nth_error items j = Some x -> is_valid x t = false) ->
  call_scalar p t c = call_scalar p t item.
Proof. exact @composed_scalar_first_valid. Qed.
Print Assumptions C06_scalar_call_first_valid.

(** ... or of the very first item if none is valid. *)
Theorem C06_scalar_call_none_valid :
  forall T (OT : TOrd T) (OI : TInf T) V (MV : CMon V) P (first : coeffs T V P) rest c p t,
  mk_composed (first :: rest) = Ok c ->
  (forall x, In x (first :: rest) -> is_valid x t = false) ->
  call_scalar p t c = call_scalar p t first.
Proof. exact @composed_scalar_none_valid. Qed.
Print Assumptions C06_scalar_call_none_valid.

Example C06_example :
  exists c, built c /\
    mk_composed [ex_leaf 5 12 true 1 7; ex_leaf 0 5 true 0 3] = Ok c /\
    call_array tt [Some (zf 6); Some (zf 1); None; Some (zf 5)] c =
      ([[7; 7; 7]; [3; 0; 0]; [7; 7; 7]; [7; 7; 7]]%Z, 1).
Proof. exact ex_array_call. Qed.

(** C07: each cell of the combined coefficients is the sum of the cells of the items. *)
Theorem C07_combined_is_sum :
  forall T (OT : TOrd T) (OI : TInf T) V (MV : CMon V) P (items : list (coeffs T V P)) c p t k,
  (forall x, In x items -> built x) -> mk_combined items = Ok c ->
  cell (fst (call_scalar p t c)) k = vsum (map (fun x => cell (fst (call_scalar p t x)) k) items).
Proof. exact @combined_is_sum. Qed.
Print Assumptions C07_combined_is_sum.

(** C07: the order of the items does not matter. *)
Theorem C07_combined_order_independent :
  forall T (OT : TOrd T) (OI : TInf T) V (MV : CMon V) P (items items' : list (coeffs T V P)) c p t,
  (forall x, In x items -> built x) -> Permutation items items' -> mk_combined items = Ok c ->
  exists c', mk_combined items' = Ok c' /\
    same_cells (fst (call_scalar p t c')) (fst (call_scalar p t c)).
Proof. exact @combined_order_independent. Qed.
Print Assumptions C07_combined_order_independent.

(** C07: nested combinations flatten. *)
Theorem C07_combined_flattens :
  forall T (OT : TOrd T) (OI : TInf T) V (MV : CMon V) P
    (inner outer : list (coeffs T V P)) ci c cf p t,
  (forall x, In x inner -> built x) -> (forall x, In x outer -> built x) ->
  mk_combined inner = Ok ci -> mk_combined (ci :: outer) = Ok c ->
  mk_combined (inner ++ outer) = Ok cf ->
  same_cells (fst (call_scalar p t c)) (fst (call_scalar p t cf)).
Proof. exact @combined_flattens. Qed.
Print Assumptions C07_combined_flattens.

Example C07_example :
  exists ci c cf, mk_combined [ex_leaf 0 9 true 1 7; ex_leaf 0 5 true 0 3] = Ok ci /\
    mk_combined [ci; ex_leaf 3 7 true 1 2] = Ok c /\
    mk_combined [ex_leaf 0 9 true 1 7; ex_leaf 0 5 true 0 3; ex_leaf 3 7 true 1 2] = Ok cf /\
    call_scalar tt (Some (zf 4)) c = ([12; 9; 9]%Z, 1) /\
    call_scalar tt (Some (zf 4)) cf = ([12; 9; 9]%Z, 1).
Proof. exact ex_combined. Qed.

(** C08: validity and degrees of a combined set. *)
Theorem C08_combined_validity :
  forall T (OT : TOrd T) V P (items : list (coeffs T V P)) c,
  mk_combined items = Ok c ->
  (forall t, valid_at c t <-> forall x, In x items -> valid_at x t) /\
  is_max (degree c) (map degree items) /\ is_min (min_degree c) (map min_degree items).
Proof. exact @combined_valid_iff. Qed.
Print Assumptions C08_combined_validity.

(** C08: ... and of a composed set (the range is the hull). *)
Theorem C08_composed_validity :
  forall T (OT : TOrd T) (OI : TInf T) V P (items : list (coeffs T V P)) c,
  mk_composed items = Ok c ->
  (forall t, le (fst (validity c)) t <-> exists x, In x items /\ le (fst (validity x)) t) /\
  (forall t, le t (snd (validity c)) <-> exists x, In x items /\ le t (snd (validity x))) /\
  is_max (degree c) (map degree items) /\ is_min (min_degree c) (map min_degree items).
Proof. exact @composed_hull. Qed.
Print Assumptions C08_composed_validity.

(** C08: mixing of internal and external items is rejected. *)
Theorem C08_mixed_rejected :
  forall T (OT : TOrd T) (OI : TInf T) V P (items : list (coeffs T V P)) x y,
  In x items -> In y items -> is_internal x <> is_internal y ->
  mk_combined items = Err ValueError /\ mk_composed items = Err ValueError.
Proof. exact @mixed_rejected. Qed.
Print Assumptions C08_mixed_rejected.

(** C08: the order of the items matters neither for a combined nor for a composed set. *)
Theorem C08_order_independent :
  forall T (OT : TOrd T) (OI : TInf T) V P (items items' : list (coeffs T V P)) mk c,
  mk = mk_combined \/ mk = mk_composed ->
  Permutation items items' ->
  mk items = Ok c -> exists c', mk items' = Ok c' /\
    degree c' = degree c /\ min_degree c' = min_degree c /\ is_internal c' = is_internal c /\
    (forall t, valid_at c' t <-> valid_at c t).
Proof. exact @order_independent. Qed.
Print Assumptions C08_order_independent.

Example C08_example :
  exists c, mk_combined [ex_leaf 0 9 true 3 7; ex_leaf 2 5 true 1 3] = Ok c /\
    validity c = (zf 2, zf 5) /\ degree c = 3 /\ min_degree c = 1.
Proof. exact ex_combined_validity. Qed.
