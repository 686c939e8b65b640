(** Specifications for the coefficient containers. *)

From Coq Require Import Bool List Arith.
From Verif Require Import Ord IntervalsModel CoefModel.
Import ListNotations.

Section Spec.
Context {T : Type} {OT : TOrd T} {OI : TInf T} {V : Type} {MV : CMon V} {P : Type}.

(** The value of the k-th cell of a coefficient array; cells which are not stored
    are zero. *)
Definition cell (rows : list V) (k : nat) : V := nth k rows vzero.

(** Equality of coefficient arrays up to zero padding. *)
Definition same_cells (r1 r2 : list V) : Prop := forall k, cell r1 k = cell r2 k.

Definition vsum (l : list V) : V := fold_right vadd vzero l.

(** A leaf returns as many rows as its degree requires. *)
Definition leaf_ok (l : leaf T V P) : Prop :=
  forall p t, length (lf_call l p t) = coeff_size (lf_call_degree l p).

(** Coefficients which can be created through the constructors. *)
Inductive built : coeffs T V P -> Prop :=
| built_leaf l : leaf_ok l -> built (Leaf l)
| built_composed items c : (forall x, In x items -> built x) ->
    mk_composed items = Ok c -> built c
| built_combined items c : (forall x, In x items -> built x) ->
    mk_combined items = Ok c -> built c.

(** The instant [t] is within the closed validity range of [c]. *)
Definition valid_at (c : coeffs T V P) (t : T) : Prop :=
  le (fst (validity c)) t /\ le t (snd (validity c)).

(** The validity ranges of the items leave a time gap: the items fall in two non-empty
    groups and all items of the first group end before any of the second one starts. *)
Definition has_gap (items : list (coeffs T V P)) : Prop :=
  exists early : coeffs T V P -> bool,
    (exists x, In x items /\ early x = true) /\
    (exists y, In y items /\ early y = false) /\
    (forall x y, In x items -> In y items -> early x = true -> early y = false ->
       lt (snd (validity x)) (fst (validity y))).

(** [d] is the largest (smallest) element of the list *)
Definition is_max (d : nat) (l : list nat) : Prop := In d l /\ forall x, In x l -> x <= d.
Definition is_min (d : nat) (l : list nat) : Prop := In d l /\ forall x, In x l -> d <= x.

End Spec.
