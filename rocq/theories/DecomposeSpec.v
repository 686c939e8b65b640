(** Specifications for the decomposition of coefficient trees. *)

From Coq Require Import Bool List.
From Verif Require Import Ord IntervalsModel IntervalsSpec CoefModel CoefSpec.
Import ListNotations.

Section Spec.
Context {T : Type} {OT : TOrd T} {OI : TInf T} {V : Type} {MV : CMon V} {P : Type}.
Notation coef := (coeffs T V P).

(** The coefficient set and all sets it is made of. *)
Fixpoint nodes (c : coef) : list coef :=
  c :: match c with
       | Leaf _ => []
       | Composed _ items => flat_map nodes items
       | Combined _ items => flat_map nodes items
       end.

(** All sets have a validity range longer than a single instant. *)
Definition proper_tree (c : coef) : Prop :=
  forall n, In n (nodes c) -> lt (fst (validity n)) (snd (validity n)).

(** The instant [t] is not an end of the validity range of any of the sets. *)
Definition inner_instant (c : coef) (t : T) : Prop :=
  forall n, In n (nodes c) ->
    ~ (le t (fst (validity n)) /\ le (fst (validity n)) t) /\
    ~ (le t (snd (validity n)) /\ le (snd (validity n)) t).

(** Items listed in time order without overlaps. *)
Definition time_ordered (items : list coef) : Prop :=
  forall i j x y, i < j -> nth_error items i = Some x -> nth_error items j = Some y ->
    le (snd (validity x)) (fst (validity y)).

(** Coefficients created by the constructors, in which the items of composed sets are
    listed in time order without overlaps. *)
Inductive tidy : coef -> Prop :=
| tidy_leaf l : leaf_ok l -> tidy (Leaf l)
| tidy_composed items c : (forall x, In x items -> tidy x) -> time_ordered items ->
    mk_composed items = Ok c -> tidy c
| tidy_combined items c : (forall x, In x items -> tidy x) ->
    mk_combined items = Ok c -> tidy c.

(** As above, but the outer composed sets, those which are not an item of a combined
    set, may have items in any order and overlapping in time. *)
Inductive layered : coef -> Prop :=
| layered_tidy c : tidy c -> layered c
| layered_composed items c : (forall x, In x items -> layered x) ->
    mk_composed items = Ok c -> layered c.

(** A restricted shape: composed sets are made of leaves in time order. *)
Inductive flat : coef -> Prop :=
| flat_leaf l : leaf_ok l -> flat (Leaf l)
| flat_composed items c :
    (forall x, In x items -> exists l, x = Leaf l /\ leaf_ok l) -> time_ordered items ->
    mk_composed items = Ok c -> flat c
| flat_combined items c : (forall x, In x items -> flat x) ->
    mk_combined items = Ok c -> flat c.

(** The object of the first interval (in list order) whose closed range contains [t]. *)
Definition closed_at {A} (t : T) (x : interval T A) : bool :=
  leb (istart x) t && leb t (iend x).
Definition first_closed_at {A} (t : T) (l : list (interval T A)) : option A :=
  option_map iobj (find (closed_at t) l).

End Spec.
