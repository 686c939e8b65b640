(** Specification of the interval search. *)

From Coq Require Import List ZArith.
From Verif Require Import Ord.
Open Scope Z_scope.

Section Spec.
Context {T : Type} {OT : TOrd T}.

(** Nodes sorted in ascending order, repeated values are allowed. *)
Definition sorted_nodes (v : list T) : Prop :=
  forall i j a b, (i < j)%nat -> nth_error v i = Some a -> nth_error v j = Some b -> le a b.

(** [i] is the index of the last node [a] with [below a], -1 if there is no such node.
    All nodes before it satisfy [below] and no node after it does. *)
Definition last_index (below : T -> Prop) (v : list T) (i : Z) : Prop :=
  -1 <= i < Z.of_nat (length v) /\
  forall k a, nth_error v k = Some a -> (below a <-> Z.of_nat k <= i).

End Spec.
