(** Model of the coefficient sets as Python objects: ComposedSHCoefficients and CombinedSHCoefficients of
    magnetic_model/coefficients.py keep references to the sets they were made of.  CoefModel.v models the same classes by trees. *)
From Coq Require Import Bool List Arith.
From Verif Require Import Ord IntervalsModel CoefModel.
Import ListNotations.

(** The end of a call: a value, or the exception raised by Python when the calls are nested too deeply.  [NoObject] is not an
    outcome of the code: there are no references to nothing. *)
Inductive outcome (A : Type) := Value (a : A) | RecursionError | NoObject.
Arguments Value {A} a.
Arguments RecursionError {A}.
Arguments NoObject {A}.

Definition obind {A B} (x : outcome A) (f : A -> outcome B) : outcome B :=
  match x with Value a => f a | RecursionError => RecursionError | NoObject => NoObject end.

(** [for x in l: results.append(f(x))] *)
Fixpoint omap {A B} (f : A -> outcome B) (l : list A) : outcome (list B) :=
  match l with
  | [] => Value []
  | x :: l' => obind (f x) (fun y => obind (omap f l') (fun r => Value (y :: r)))
  end.

Section Objects.
Context {T : Type} {OT : TOrd T} {OI : TInf T} {V : Type} {MV : CMon V} {P : Type}.

(** An object: a sparse set (abstract, see CoefModel.v), or the attributes and the references to the items
    (coefficients.py:173-182, 289-298: self._items). *)
Inductive object :=
| OLeaf (l : leaf T V P)
| OComposed (a : attrs T) (items : list nat)
| OCombined (a : attrs T) (items : list nat).

(** The objects made so far; a reference is a position in this list. *)
Definition heap := list object.

(** The attributes of an object: validity, is_internal, degree and min_degree; the constructors read nothing else of their
    arguments. *)
Definition attributes (o : object) : coeffs T V P :=
  match o with
  | OLeaf l => Leaf l
  | OComposed a _ => Composed a []
  | OCombined a _ => Combined a []
  end.

Fixpoint objects (h : heap) (items : list nat) : option (list object) :=
  match items with
  | [] => Some []
  | x :: rest => match nth_error h x, objects h rest with Some o, Some os => Some (o :: os) | _, _ => None end
  end.

Fixpoint store (h : heap) (x : nat) (o : object) : heap :=
  match h, x with
  | [], _ => []
  | _ :: h', 0 => o :: h'
  | y :: h', S x' => y :: store h' x' o
  end.

(** coefficients.py:136-182, ComposedSHCoefficients.__init__: the attributes the object is given *)
Definition composed_init (h : heap) (items : list nat) : result object :=
  match objects h items with
  | None => Err OutOfBounds
  | Some [] => Err ValueError                                                              (* 138-141 *)
  | Some (first :: rest) =>
      match composed_loop (is_internal (attributes first)) (sort_by validity_leb (map attributes (first :: rest)))
              pinf pinf ninf None None with
      | Ok a => Ok (OComposed a items)
      | Err e => Err e
      end
  end.

(** coefficients.py:264-298, CombinedSHCoefficients.__init__ *)
Definition combined_init (h : heap) (items : list nat) : result object :=
  match objects h items with
  | None => Err OutOfBounds
  | Some [] => Err ValueError                                                              (* 266-269 *)
  | Some (first :: rest) =>
      match combined_loop (is_internal (attributes first)) (map attributes rest)
              (fst (validity (attributes first))) (snd (validity (attributes first)))
              (degree (attributes first)) (min_degree (attributes first)) with
      | Ok a => Ok (OCombined a items)
      | Err e => Err e
      end
  end.

Definition is_composed (o : object) : bool := match o with OComposed _ _ => true | _ => false end.
Definition is_combined (o : object) : bool := match o with OCombined _ _ => true | _ => false end.

(** The call of a class: __new__ returns the single argument itself or a new object (coefficients.py:128-131, 256-259), and
    Python calls __init__ of the class for the returned object if it is an instance of the class.  An object whose __init__
    raised an exception is lost. *)
Definition construct (instance : object -> bool) (init : heap -> list nat -> result object) (h : heap) (items : list nat)
  : result (heap * nat) :=
  match items with
  | [x] =>
      match nth_error h x with
      | None => Err OutOfBounds
      | Some o =>
          if instance o
          then match init h items with Ok o' => Ok (store h x o', x) | Err e => Err e end
          else Ok (h, x)
      end
  | _ => match init h items with Ok o => Ok (h ++ [o], length h) | Err e => Err e end
  end.

Definition new_composed := construct is_composed composed_init.
Definition new_combined := construct is_combined combined_init.

(** coefficients.py:192-225 and 324-337 for a scalar time.  [depth] is the number of nested evaluations of coefficient sets
    Python's recursion limit leaves room for. *)
Fixpoint object_call (h : heap) (p : P) (t : option T) (depth : nat) (x : nat) : outcome (list V * nat) :=
  match depth with
  | 0 => RecursionError
  | S depth' =>
      match nth_error h x with
      | None => NoObject
      | Some (OLeaf l) => Value (lf_call l p t, lf_call_degree l p)
      | Some (OComposed _ items) =>                                                        (* 221-225 *)
          (fix go (its : list nat) : outcome (list V * nat) :=
             match its with
             | [] => match items with [] => NoObject | first :: _ => object_call h p t depth' first end
             | item :: rest =>
                 match nth_error h item with
                 | None => NoObject
                 | Some o => if is_valid (attributes o) t then object_call h p t depth' item else go rest
                 end
             end) items
      | Some (OCombined _ items) =>                                                        (* 328-337 *)
          obind (omap (object_call h p t depth') items) (fun results =>
            let deg := max_list (map snd results) in
            Value (fold_left add_prefix (map fst results) (zeros (coeff_size deg)), deg))
      end
  end.

(** coefficients.py:198-219 and 324-337 for an array of times *)
Fixpoint object_call_array (h : heap) (p : P) (ts : list (option T)) (depth : nat) (x : nat) {struct depth}
  : outcome (list (list V) * nat) :=
  match depth with
  | 0 => RecursionError
  | S depth' =>
      match nth_error h x with
      | None => NoObject
      | Some (OLeaf l) => Value (map (lf_call l p) ts, lf_call_degree l p)
      | Some (OComposed _ items) =>
          obind
            ((fix go (its : list nat) (mask : list bool) : outcome (list part * list bool) :=
                match its with
                | [] => Value ([], mask)
                | item :: rest =>
                    match nth_error h item with
                    | None => NoObject
                    | Some o =>
                        let item_mask := mask_and mask (map (is_valid (attributes o)) ts) in         (* 205 *)
                        obind (object_call_array h p (select item_mask ts) depth' item) (fun res =>     (* 206 *)
                          obind (go rest (mask_and mask (map negb item_mask))) (fun r =>                (* 209 *)
                            Value ((item_mask, res) :: fst r, snd r)))
                    end
                end) items (map (fun _ => true) ts))
            (fun parts_mask =>
               match items with
               | [] => NoObject
               | first :: _ =>
                   obind (object_call_array h p (select (snd parts_mask) ts) depth' first) (fun res =>  (* 210-211 *)
                     let parts := fst parts_mask ++ [(snd parts_mask, res)] in
                     let deg := max_list (map (fun x => snd (snd x)) parts) in
                     Value (fold_left (fun acc x => scatter assign_prefix (fst x) acc (fst (snd x)))
                              parts (map (fun _ => zeros (coeff_size deg)) ts), deg))                   (* 215-217 *)
               end)
      | Some (OCombined _ items) =>
          obind (omap (object_call_array h p ts depth') items) (fun results =>
            let deg := max_list (map snd results) in
            Value (fold_left (fun acc r => scatter add_prefix (map (fun _ => true) ts) acc r)
                     (map fst results) (map (fun _ => zeros (coeff_size deg)) ts), deg))
      end
  end.

(** What a program does with the sets: it makes sparse sets, and composes and combines the sets it has. *)
Inductive statement := MakeSparse (l : leaf T V P) | MakeComposed (items : list nat) | MakeCombined (items : list nat).

(** One statement; an exception leaves the objects as they were. *)
Definition execute (h : heap) (s : statement) : heap :=
  match s with
  | MakeSparse l => h ++ [OLeaf l]
  | MakeComposed items => match new_composed h items with Ok (h', _) => h' | Err _ => h end
  | MakeCombined items => match new_combined h items with Ok (h', _) => h' | Err _ => h end
  end.

Definition run (h : heap) (program : list statement) : heap := fold_left execute program h.

End Objects.

Arguments object T V P : clear implicits.
Arguments heap T V P : clear implicits.
Arguments statement T V P : clear implicits.
