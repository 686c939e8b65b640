(** Property theorems C09-C11: time selection of the model evaluation, decomposition of
    coefficient trees. *)

From Coq Require Import List ZArith.
From Verif Require Import Ord IntervalsModel IntervalsSpec CoefModel CoefSpec CoefMoreProofs
  DecomposeSpec DecomposeClosed EvalModel EvalProofs EvalMoreProofs.
Import ListNotations.

(** C09 is false: at an instant shared by two consecutive components the scalar-time
    evaluation takes the first one, the array-time evaluation the last one. *)
Theorem C09_scalar_is_array_refuted : exists (c : coeffs Zx Z unit) d t x,
  flat c /\ proper_tree c /\ decompose c = Ok d /\
  nth_error (eval_array ex_ev d [(t, x)]) 0 <> Some (eval_scalar ex_ev d t x).
Proof. exact scalar_array_differ. Qed.
Print Assumptions C09_scalar_is_array_refuted.

(** C09, what holds: the two evaluations agree for every tree with ordered composed
    sets and every time which is NaN, outside of the validity range, or not an end of
    the validity range of one of the sets of the tree.  Missing: the ends. *)
Theorem C09_scalar_is_array_partial :
  forall T (OT : TOrd T) (OI : TInf T) V (MV : CMon V) P L F
    (ev : coeffs T V P -> option T -> L -> F) (c : coeffs T V P) d txs i t x,
  tidy c -> proper_tree c -> decompose c = Ok d -> nth_error txs i = Some (t, x) ->
  (forall u, t = Some u -> valid_at c u -> inner_instant c u) ->
  nth_error (eval_array ev d txs) i = Some (eval_scalar ev d t x).
Proof. exact @tree_scalar_array. Qed.
Print Assumptions C09_scalar_is_array_partial.

(** C09, for arbitrary component lists: they agree wherever all components valid at the
    time yield the same field. *)
Theorem C09_agree_if_consistent_partial :
  forall T (OT : TOrd T) C L F (ev : C -> option T -> L -> F) comps txs i t x,
  nth_error txs i = Some (t, x) ->
  (forall c1 c2, In c1 comps -> In c2 comps -> comp_valid c1 t = true -> comp_valid c2 t = true ->
     ev (iobj c1) t x = ev (iobj c2) t x) ->
  nth_error (eval_array ev comps txs) i = Some (eval_scalar ev comps t x).
Proof. exact @scalar_array_agree. Qed.
Print Assumptions C09_agree_if_consistent_partial.

Example C09_example : tidy ex_deep /\ proper_tree ex_deep /\ inner_instant ex_deep (zf 7) /\
  valid_at ex_deep (zf 7).
Proof. exact (conj ex_deep_tidy (conj ex_deep_proper ex_deep_inner)). Qed.

(** C10: the scalar-time evaluation is NaN iff the time is NaN or outside of the closed
    validity range of every component ... *)
Theorem C10_scalar_nan :
  forall T (OT : TOrd T) L F C (ev : C -> option T -> L -> F) comps t x,
  eval_scalar ev comps t x = None <->
  forall u c, t = Some u -> In c comps -> ~ at_time_closed u c.
Proof. exact @scalar_nan_closed. Qed.
Print Assumptions C10_scalar_nan.

(** ... otherwise it is the field of a component valid at the time. *)
Theorem C10_scalar_value :
  forall T (OT : TOrd T) L F C (ev : C -> option T -> L -> F) comps t x v,
  eval_scalar ev comps t x = Some v ->
  exists u c, t = Some u /\ In c comps /\ at_time_closed u c /\ v = ev (iobj c) t x.
Proof. exact @scalar_from_component. Qed.
Print Assumptions C10_scalar_value.

Theorem C10_array_nan :
  forall T (OT : TOrd T) L F C (ev : C -> option T -> L -> F) comps txs i t x,
  nth_error txs i = Some (t, x) ->
  (nth_error (eval_array ev comps txs) i = Some None <->
   forall u c, t = Some u -> In c comps -> ~ at_time_closed u c).
Proof. exact @array_nan_closed. Qed.
Print Assumptions C10_array_nan.

Theorem C10_array_value :
  forall T (OT : TOrd T) L F C (ev : C -> option T -> L -> F) comps txs i t x v,
  nth_error txs i = Some (t, x) ->
  nth_error (eval_array ev comps txs) i = Some (Some v) ->
  exists u c, t = Some u /\ In c comps /\ at_time_closed u c /\ v = ev (iobj c) t x.
Proof. exact @array_from_component. Qed.
Print Assumptions C10_array_value.

Theorem C10_array_shape :
  forall T (OT : TOrd T) C L F (ev : C -> option T -> L -> F) comps txs,
  length (eval_array ev comps txs) = length txs.
Proof. exact @eval_array_length. Qed.
Print Assumptions C10_array_shape.

(** C10 in terms of the validity range of the model. *)
Theorem C10_tree_scalar_nan :
  forall T (OT : TOrd T) (OI : TInf T) V (MV : CMon V) P L F
    (ev : coeffs T V P -> option T -> L -> F) (c : coeffs T V P) d t x,
  layered c -> proper_tree c -> decompose c = Ok d ->
  (eval_scalar ev d (Some t) x = None <-> ~ valid_at c t).
Proof. exact @tree_scalar_nan. Qed.
Print Assumptions C10_tree_scalar_nan.

Theorem C10_tree_array_nan :
  forall T (OT : TOrd T) (OI : TInf T) V (MV : CMon V) P L F
    (ev : coeffs T V P -> option T -> L -> F) (c : coeffs T V P) d txs i t x,
  layered c -> proper_tree c -> decompose c = Ok d -> nth_error txs i = Some (Some t, x) ->
  (nth_error (eval_array ev d txs) i = Some None <-> ~ valid_at c t).
Proof. exact @tree_array_nan. Qed.
Print Assumptions C10_tree_array_nan.

Example C10_example : exists d, decompose ex_deep = Ok d /\
  map (fun t => eval_scalar ex_ev d t 1%Z) [Some (zf 4); Some (zf 7); Some (zf 10); Some (zf 13); None]
    = [None; Some 107; Some 1000; None; None]%Z /\
  eval_array ex_ev d [(Some (zf 4), 1); (Some (zf 7), 1); (Some (zf 10), 1); (None, 1)]%Z
    = [None; Some 107; Some 1000; None]%Z.
Proof. exact ex_deep_values. Qed.

(** C11: the components cover exactly the validity range of the tree, for all instants. *)
Theorem C11_decompose_covers :
  forall T (OT : TOrd T) (OI : TInf T) V (MV : CMon V) P (c : coeffs T V P),
  layered c -> proper_tree c ->
  exists d, decompose c = Ok d /\
    forall t, (exists x, In x d /\ at_time_closed t x) <-> valid_at c t.
Proof. exact @decompose_covers. Qed.
Print Assumptions C11_decompose_covers.

(** C11 is false at ends of validity ranges: a component reduced to a single instant is
    lost in an outer composed set. *)
Theorem C11_decompose_preserves_refuted : exists (c : coeffs Zx Z unit) d t o,
  tidy c /\ proper_tree c /\ decompose c = Ok d /\ valid_at c t /\
  first_closed_at t d = Some o /\
  cell (fst (call_scalar tt (Some t) o)) 0 <> cell (fst (call_scalar tt (Some t) c)) 0.
Proof. exact decompose_boundary. Qed.
Print Assumptions C11_decompose_preserves_refuted.

(** C11, what holds: at all instants which are not ends of validity ranges the first
    covering component has the coefficients of the tree (also with overlapping outer
    composed sets); it is the only one if composed sets are ordered. *)
Theorem C11_decompose_preserves_partial :
  forall T (OT : TOrd T) (OI : TInf T) V (MV : CMon V) P (c : coeffs T V P) d t,
  layered c -> proper_tree c -> decompose c = Ok d -> inner_instant c t -> valid_at c t ->
  exists o, first_closed_at t d = Some o /\ forall p,
    same_cells (fst (call_scalar p (Some t) o)) (fst (call_scalar p (Some t) c)).
Proof. exact @decompose_preserves. Qed.
Print Assumptions C11_decompose_preserves_partial.

Theorem C11_decompose_unique_partial :
  forall T (OT : TOrd T) (OI : TInf T) V (MV : CMon V) P (c : coeffs T V P) d t,
  tidy c -> proper_tree c -> decompose c = Ok d -> inner_instant c t ->
  forall x y, In x d -> In y d -> at_time_closed t x -> at_time_closed t y -> x = y.
Proof. exact @decompose_unique. Qed.
Print Assumptions C11_decompose_unique_partial.

(** C11 holds at all instants for trees with composed sets made of plain coefficients. *)
Theorem C11_decompose_flat :
  forall T (OT : TOrd T) (OI : TInf T) V (MV : CMon V) P (c : coeffs T V P),
  flat c -> proper_tree c ->
  exists d, decompose c = Ok d /\
    forall t, (valid_at c t <-> exists o, first_closed_at t d = Some o) /\
      (forall o p, first_closed_at t d = Some o ->
         same_cells (fst (call_scalar p (Some t) o)) (fst (call_scalar p (Some t) c))).
Proof. exact @decompose_flat. Qed.
Print Assumptions C11_decompose_flat.

(** C11 for the model: the value is the one of a component with the coefficients of the
    whole tree. *)
Theorem C11_model_value_partial :
  forall T (OT : TOrd T) (OI : TInf T) V (MV : CMon V) P L F
    (ev : coeffs T V P -> option T -> L -> F) (c : coeffs T V P) d t x,
  layered c -> proper_tree c -> decompose c = Ok d -> valid_at c t -> inner_instant c t ->
  exists o, eval_scalar ev d (Some t) x = Some (ev o (Some t) x) /\ forall p,
    same_cells (fst (call_scalar p (Some t) o)) (fst (call_scalar p (Some t) c)).
Proof. exact @tree_scalar_value. Qed.
Print Assumptions C11_model_value_partial.

Example C11_example_flat :
  exists c, mk_combined [ex_pair; ex_leaf 3 9 true 1 100] = Ok c /\ flat c /\ proper_tree c.
Proof. exact ex_flat_tree. Qed.
Example C11_example_layered : layered ex_deep /\ proper_tree ex_deep.
Proof. exact (conj (layered_tidy _ ex_deep_tidy) ex_deep_proper). Qed.
