(** Model of the coefficient containers of magnetic_model/coefficients.py:
    SHCoefficients, ComposedSHCoefficients, CombinedSHCoefficients.

    Leaves (sparse sets) are abstract here: a leaf is described by its validity,
    degrees and by the value returned when called.  They are modelled in
    SparseModel.v. *)

From Coq Require Import Bool List Arith.
From Verif Require Import Ord IntervalsModel.
Import ListNotations.

(** Values of the coefficient cells: a commutative monoid.  In the code these are
    pairs of doubles; idealised as pairs of reals addition is commutative and
    associative. *)
Class CMon (V : Type) := {
  vzero : V;
  vadd : V -> V -> V;
  vadd_comm : forall a b, vadd a b = vadd b a;
  vadd_assoc : forall a b c, vadd a (vadd b c) = vadd (vadd a b) c;
  vadd_0_l : forall a, vadd vzero a = a
}.

(** Exceptions raised by the modelled functions.  [SelfReference] is not an exception of
    the code: the constructor succeeds, but the created object contains itself and
    any later use of it recurses without end.  [OutOfBounds] is not one either: the C code reads or
    writes outside of the memory it has allocated. *)
Inductive error := ValueError | TypeError | IndexError | SystemError | SelfReference | OutOfFuel | OutOfBounds.
Inductive result (A : Type) := Ok (a : A) | Err (e : error).
Arguments Ok {A} a.
Arguments Err {A} e.

(** magnetic_model/util.py:45-47 *)
Definition coeff_size (degree : nat) : nat := ((degree + 2) * (degree + 1)) / 2.

(** Python times: [None] is NaN, for which all comparisons are false. *)
Definition nleb {T} `{TOrd T} (a : T) (t : option T) : bool :=
  match t with Some x => leb a x | None => false end.
Definition nleb' {T} `{TOrd T} (t : option T) (b : T) : bool :=
  match t with Some x => leb x b | None => false end.

(** A stable sort of the items by a key (Python's sorted).  Timsort is replaced by
    an insertion sort, both are stable so the results are the same. *)
Fixpoint insert_by {A} (cmp : A -> A -> bool) (x : A) (l : list A) : list A :=
  match l with
  | [] => [x]
  | y :: l' => if cmp x y then x :: l else y :: insert_by cmp x l'
  end.
Fixpoint sort_by {A} (cmp : A -> A -> bool) (l : list A) : list A :=
  match l with
  | [] => []
  | x :: l' => insert_by cmp x (sort_by cmp l')
  end.

Section Coefficients.
Context {T : Type} {OT : TOrd T} {OI : TInf T} {V : Type} {MV : CMon V} {P : Type}.

(** A leaf coefficient set; [P] are the options (min_degree, max_degree, ...) *)
Record leaf := {
  lf_validity : T * T;
  lf_internal : bool;
  lf_degree : nat;
  lf_min_degree : nat;
  lf_call_degree : P -> nat;            (* the degree returned by __call__ *)
  lf_call : P -> option T -> list V     (* the coefficient rows returned by __call__ *)
}.

(** Attributes set by the constructors: coefficients.py:173-182, 289-298. *)
Record attrs := {
  a_internal : bool;
  a_validity : T * T;
  a_degree : nat;
  a_min_degree : nat
}.

Inductive coeffs :=
| Leaf (l : leaf)
| Composed (a : attrs) (items : list coeffs)
| Combined (a : attrs) (items : list coeffs).

Definition validity (c : coeffs) : T * T :=
  match c with
  | Leaf l => lf_validity l
  | Composed a _ => a_validity a
  | Combined a _ => a_validity a
  end.
Definition is_internal (c : coeffs) : bool :=
  match c with
  | Leaf l => lf_internal l
  | Composed a _ => a_internal a
  | Combined a _ => a_internal a
  end.
Definition degree (c : coeffs) : nat :=
  match c with
  | Leaf l => lf_degree l
  | Composed a _ => a_degree a
  | Combined a _ => a_degree a
  end.
Definition min_degree (c : coeffs) : nat :=
  match c with
  | Leaf l => lf_min_degree l
  | Composed a _ => a_min_degree a
  | Combined a _ => a_min_degree a
  end.

(** coefficients.py:83-86, SHCoefficients.is_valid *)
Definition is_valid (c : coeffs) (t : option T) : bool :=
  nleb (fst (validity c)) t && nleb' t (snd (validity c)).

(** Comparison of the validity tuples used by sorted(), coefficients.py:149:
    lexicographic order of (start, end). *)
Definition validity_leb (c1 c2 : coeffs) : bool :=
  let '(s1, e1) := validity c1 in
  let '(s2, e2) := validity c2 in
  if ltb s1 s2 then true else if ltb s2 s1 then false else leb e1 e2.

(** max/min with the -inf/+inf initial values of coefficients.py:145-146
    ([None]: the initial infinity) *)
Definition omax (a : option nat) (b : nat) : nat :=
  match a with None => b | Some x => Nat.max x b end.
Definition omin (a : option nat) (b : nat) : nat :=
  match a with None => b | Some x => Nat.min x b end.

(** coefficients.py:149-170, the checks of ComposedSHCoefficients.__init__ iterating
    over the sorted items. *)
Fixpoint composed_loop (internal : bool) (items : list coeffs)
  (last_end vstart vend : T) (deg mdeg : option nat) : result attrs :=
  match items with
  | [] =>
      match deg, mdeg with
      | Some d, Some m =>
          Ok {| a_internal := internal; a_validity := (vstart, vend);
                a_degree := d; a_min_degree := m |}
      | _, _ => Err ValueError
      end
  | item :: rest =>
      let '(istart_, iend_) := validity item in
      if ltb last_end istart_ then Err ValueError                    (* 152-157 *)
      else if negb (Bool.eqb internal (is_internal item))
      then Err ValueError                                            (* 167-171 *)
      else composed_loop internal rest iend_                         (* 159 *)
             (tmin vstart istart_) (tmax vend iend_)                 (* 161-162 *)
             (Some (omax deg (degree item))) (Some (omin mdeg (min_degree item)))
  end.

(** coefficients.py:128-182, ComposedSHCoefficients(...items) with __new__ and __init__.
    A single item is returned by __new__; if that item is itself an instance of the
    class then Python runs __init__ on it again and the item becomes its own and only
    item (findings in DESIGN.md). *)
Definition mk_composed (items : list coeffs) : result coeffs :=
  match items with
  | [] => Err ValueError                                             (* 138-141 *)
  | [Composed _ _] => Err SelfReference
  | [item] => Ok item                                                (* 129-130 *)
  | first :: _ =>
      match composed_loop (is_internal first) (sort_by validity_leb items)
              pinf pinf ninf None None with
      | Ok a => Ok (Composed a items)
      | Err e => Err e
      end
  end.

(** coefficients.py:277-287 *)
Fixpoint combined_loop (internal : bool) (items : list coeffs)
  (vstart vend : T) (deg mdeg : nat) : result attrs :=
  match items with
  | [] => Ok {| a_internal := internal; a_validity := (vstart, vend);
                a_degree := deg; a_min_degree := mdeg |}
  | item :: rest =>
      if negb (Bool.eqb internal (is_internal item)) then Err ValueError
      else combined_loop internal rest
             (tmax vstart (fst (validity item))) (tmin vend (snd (validity item)))
             (Nat.max deg (degree item)) (Nat.min mdeg (min_degree item))
  end.

(** coefficients.py:256-297, CombinedSHCoefficients(...items) *)
Definition mk_combined (items : list coeffs) : result coeffs :=
  match items with
  | [] => Err ValueError
  | [Combined _ _] => Err SelfReference
  | [item] => Ok item
  | first :: rest =>
      match combined_loop (is_internal first) rest
              (fst (validity first)) (snd (validity first))
              (degree first) (min_degree first) with
      | Ok a => Ok (Combined a items)
      | Err e => Err e
      end
  end.

(** ** Evaluation of the coefficients *)

Definition zeros (n : nat) : list V := repeat vzero n.

(** coeff[..., :k, :] = new, with k the number of rows of [new] *)
Definition assign_prefix (base new : list V) : list V :=
  new ++ skipn (length new) base.

(** coeff[..., :k, :] += new *)
Fixpoint add_prefix (base new : list V) : list V :=
  match base, new with
  | b :: base', n :: new' => vadd b n :: add_prefix base' new'
  | _, [] => base
  | [], _ => []
  end.

(** time[mask] *)
Fixpoint select {A} (mask : list bool) (l : list A) : list A :=
  match mask, l with
  | b :: mask', x :: l' => if b then x :: select mask' l' else select mask' l'
  | _, _ => []
  end.

(** coeff[mask, :k, :] = new (one element of [new] for each selected element) *)
Fixpoint scatter {A B} (f : A -> B -> A) (mask : list bool) (base : list A) (new : list B)
  : list A :=
  match mask, base with
  | true :: mask', x :: base' =>
      match new with
      | y :: new' => f x y :: scatter f mask' base' new'
      | [] => base
      end
  | false :: mask', x :: base' => x :: scatter f mask' base' new
  | _, _ => base
  end.

Fixpoint mask_and (a b : list bool) : list bool :=
  match a, b with
  | x :: a', y :: b' => (x && y) :: mask_and a' b'
  | _, _ => []
  end.

Definition max_list (l : list nat) : nat := fold_left Nat.max l 0.

(** coefficients.py:192-225 and 324-337 for a scalar time: returns the coefficient rows
    and the degree.  An empty list of items (rejected by the constructors) yields no
    rows. *)
Fixpoint call_scalar (p : P) (t : option T) (c : coeffs) {struct c} : list V * nat :=
  match c with
  | Leaf l => (lf_call l p t, lf_call_degree l p)
  | Composed _ items =>                                              (* 221-225 *)
      let fallback := match items with
                      | [] => ([], 0)
                      | first :: _ => call_scalar p t first
                      end in
      (fix go (its : list coeffs) : list V * nat :=
         match its with
         | [] => fallback
         | item :: rest => if is_valid item t then call_scalar p t item else go rest
         end) items
  | Combined _ items =>                                              (* 328-337 *)
      let results := map (call_scalar p t) items in
      let deg := max_list (map snd results) in
      (fold_left add_prefix (map fst results) (zeros (coeff_size deg)), deg)
  end.

(** Results of the items of a composed set: (mask, rows of the selected times, degree),
    coefficients.py:203-208. *)
Definition part := (list bool * (list (list V) * nat))%type.

(** coefficients.py:198-219 and 324-337 for an array of times: the coefficient rows for
    each time, and the degree. *)
Fixpoint call_array (p : P) (ts : list (option T)) (c : coeffs) {struct c}
  : list (list V) * nat :=
  match c with
  | Leaf l => (map (lf_call l p) ts, lf_call_degree l p)
  | Composed _ items =>
      let parts_mask :=
        (fix go (its : list coeffs) (mask : list bool) : list part * list bool :=
           match its with
           | [] => ([], mask)
           | item :: rest =>
               let item_mask := mask_and mask (map (is_valid item) ts) in    (* 205 *)
               let res := call_array p (select item_mask ts) item in         (* 206 *)
               let '(parts, last) := go rest (mask_and mask (map negb item_mask)) in
               ((item_mask, res) :: parts, last)
           end) items (map (fun _ => true) ts) in
      let leftover :=
        match items with
        | [] => []
        | first :: _ =>
            [(snd parts_mask, call_array p (select (snd parts_mask) ts) first)] (* 210-211 *)
        end in
      let parts := fst parts_mask ++ leftover in
      let deg := max_list (map (fun x => snd (snd x)) parts) in
      (fold_left (fun acc x => scatter assign_prefix (fst x) acc (fst (snd x)))
         parts (map (fun _ => zeros (coeff_size deg)) ts), deg)      (* 215-217 *)
  | Combined _ items =>
      let results := map (call_array p ts) items in
      let deg := max_list (map snd results) in
      (fold_left
         (fun acc r => scatter add_prefix (map (fun _ => true) ts) acc r)
         (map fst results) (map (fun _ => zeros (coeff_size deg)) ts), deg)
  end.

(** ** Decomposition *)

Definition bind {A B} (x : result A) (f : A -> result B) : result B :=
  match x with Ok a => f a | Err e => Err e end.

Definition map_result {A B} (f : A -> result B) : list A -> result (list B) :=
  fix go (l : list A) : result (list B) :=
    match l with
    | [] => Ok []
    | x :: l' => bind (f x) (fun y => bind (go l') (fun r => Ok (y :: r)))
    end.

Definition of_option {A} (x : option A) : result A :=
  match x with Some a => Ok a | None => Err OutOfFuel end.

(** The aggregation loop of coefficients.py:239-243 *)
Fixpoint aggregate_all (ds : list (list (interval T coeffs)))
  (aggs : option (list (interval T (list coeffs)))) : option (list (interval T (list coeffs))) :=
  match ds with
  | [] => aggs
  | d :: ds' => aggregate_all ds' (Some (aggregate_intersected_intervals d aggs))
  end.

(** coefficients.py:244-247 *)
Definition combine_aggregate (x : interval T (list coeffs)) : result (interval T coeffs) :=
  bind (mk_combined (iobj x)) (fun c => Ok ((istart x, iend x), c)).

(** decompose(): coefficients.py:114-118, 238-247, 346-347 *)
Fixpoint decompose (c : coeffs) : result (list (interval T coeffs)) :=
  match c with
  | Leaf l => Ok [(lf_validity l, Leaf l)]
  | Composed _ items =>
      bind (map_result (fun item => bind (decompose item)
                          (fun d => of_option (get_nonoverlapping_intervals d))) items)
           (fun ds => Ok (concat ds))
  | Combined _ items =>
      bind (map_result decompose items)
           (fun ds => match aggregate_all ds None with
                      | None => Err ValueError   (* no items: not constructible *)
                      | Some aggs => map_result combine_aggregate aggs
                      end)
  end.

End Coefficients.

Arguments leaf T V P : clear implicits.
Arguments coeffs T V P : clear implicits.
Arguments attrs T : clear implicits.
