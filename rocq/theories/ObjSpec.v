(** Specifications for the coefficient sets as objects. *)
From Coq Require Import Bool List Arith.
From Verif Require Import Ord CoefModel ObjModel.
Import ListNotations.

Section Spec.
Context {T : Type} {OT : TOrd T} {OI : TInf T} {V : Type} {MV : CMon V} {P : Type}.

(** The object [x] is the set [c]: it is a sparse set, or it has references to the objects of the items of [c]. *)
Inductive stands_for (h : heap T V P) : nat -> coeffs T V P -> Prop :=
| stands_sparse x l : nth_error h x = Some (OLeaf l) -> stands_for h x (Leaf l)
| stands_composed x a items sets : nth_error h x = Some (OComposed a items) -> items <> [] ->
    Forall2 (stands_for h) items sets -> stands_for h x (Composed a sets)
| stands_combined x a items sets : nth_error h x = Some (OCombined a items) -> items <> [] ->
    Forall2 (stands_for h) items sets -> stands_for h x (Combined a sets).

(** How deeply the sets are nested *)
Fixpoint nesting (c : coeffs T V P) : nat :=
  match c with
  | Leaf _ => 1
  | Composed _ items | Combined _ items => S (fold_right Nat.max 0 (map nesting items))
  end.

(** The object can be evaluated, at one time and at an array of times, with the values of the set [c], as soon as the recursion
    limit leaves room for its nesting. *)
Definition evaluates_as (h : heap T V P) (x : nat) (c : coeffs T V P) : Prop :=
  forall depth p, nesting c <= depth ->
    (forall t, object_call h p t depth x = Value (call_scalar p t c)) /\
    (forall ts, object_call_array h p ts depth x = Value (call_array p ts c)).

(** Every evaluation of the object fails, whatever the recursion limit. *)
Definition never_evaluates (h : heap T V P) (x : nat) : Prop :=
  forall depth p, (forall t, object_call h p t depth x = RecursionError) /\
    (forall ts, object_call_array h p ts depth x = RecursionError).

(** No set is passed alone to the constructor of its own class. *)
Definition careful_statement (h : heap T V P) (s : statement T V P) : Prop :=
  match s with
  | MakeComposed [x] => forall a items, nth_error h x <> Some (OComposed a items)
  | MakeCombined [x] => forall a items, nth_error h x <> Some (OCombined a items)
  | _ => True
  end.
Fixpoint careful (h : heap T V P) (program : list (statement T V P)) : Prop :=
  match program with
  | [] => True
  | s :: rest => careful_statement h s /\ careful (execute h s) rest
  end.

(** the class called with the objects returns an object [x] for [c], and all the objects there were are as before *)
Definition returns_new (h : heap T V P) (r : result (heap T V P * nat)) (c : coeffs T V P) : Prop :=
  exists h' x, r = Ok (h', x) /\ stands_for h' x c /\ forall i, i < length h -> nth_error h' i = nth_error h i.

(** the class called with one object returns this object, which then never evaluates *)
Definition returns_broken (h : heap T V P) (items : list nat) (r : result (heap T V P * nat)) : Prop :=
  exists h' x, items = [x] /\ r = Ok (h', x) /\ never_evaluates h' x.

(** what a class does, given what the constructor of the trees of CoefModel.v yields for the sets *)
Definition constructs (h : heap T V P) (items : list nat) (r : result (heap T V P * nat)) (tree : result (coeffs T V P)) : Prop :=
  match tree with
  | Ok c => returns_new h r c
  | Err SelfReference => returns_broken h items r
  | Err e => r = Err e
  end.

End Spec.
