(** Specification of the potential and of the evaluation of arrays. *)

From Coq Require Import List Reals Arith ZArith.
From Verif Require Import LegendreSpec ShEvalModel.
Import ListNotations.
Open Scope R_scope.

(** The factor of degree n of the potential of internal (r^-(n+1)) and external (r^n)
    sources *)
Definition radial (internal : bool) (ref : R) (n : nat) (r : R) : R :=
  if internal then (ref / r) ^ (n + 1) else (r / ref) ^ n.

(** The spherical harmonic expansion up to the given degree,
    V = ref sum_n radial_n(r) sum_m (g_nm cos(m ph) + h_nm sin(m ph)) S_n^m(th)
    where the coefficients (g_nm, h_nm) are [gh n m], [r] is the radius, [th] the latitude
    and [ph] the longitude in radians. *)
Definition potential (internal : bool) (ref : R) (gh : nat -> nat -> R * R) (degree : nat)
  (r th ph : R) : R :=
  ref * sum_f_R0 (fun n => radial internal ref n r *
          sum_f_R0 (fun m => (fst (gh n m) * cos (INR m * ph) + snd (gh n m) * sin (INR m * ph))
                             * schmidt n m th) n) degree.

(** The multi-indices of an array of the given dimensions in the order of the array
    (the last index changes first) *)
Fixpoint indices (dims : list nat) : list (list nat) :=
  match dims with
  | [] => [[]]
  | d :: ds => flat_map (fun i => map (cons i) (indices ds)) (seq 0 d)
  end.

(** The degree of the expansion for [size] rows of coefficients, when the argument [degree]
    is not given (negative) or given *)
Definition expansion_degree (size degree : Z) (d : nat) : Prop :=
  exists m : nat, ((Z.of_nat m + 1) * (Z.of_nat m + 2) <= 2 * size < (Z.of_nat m + 2) * (Z.of_nat m + 3))%Z /\
    d = (if (degree <? 0)%Z then m else Nat.min (Z.to_nat degree) m).

(** a x + b y for the results of two evaluations of the same mode *)
Definition lin_result (a : R) (x : option R * option (R * R * R)) (b : R) (y : option R * option (R * R * R))
  : option R * option (R * R * R) :=
  (match fst x, fst y with Some v, Some w => Some (a * v + b * w) | _, _ => None end,
   match snd x, snd y with
   | Some (x0, x1, x2), Some (y0, y1, y2) => Some (a * x0 + b * y0, a * x1 + b * y1, a * x2 + b * y2)
   | _, _ => None
   end).

(** a c + b d for coefficients *)
Definition lin_coef (a : R) (c : nat -> R * R) (b : R) (d : nat -> R * R) (k : nat) : R * R :=
  (a * fst (c k) + b * fst (d k), a * snd (c k) + b * snd (d k)).

(** The item which an array contributes at a multi-index of the output: the trailing indices
    are left out when the array has fewer dimensions *)
Definition at_index {A} (a : nd A) (ix : list nat) : A := get a (firstn (length (dims a)) ix).

(** an array without dimensions *)
Definition nd0 {A} (a : A) : nd A := {| dims := []; get := fun _ => a |}.

(** the dimensions [a] are the leading ones of [b] *)
Definition prefix (a b : list nat) : Prop := exists c, b = a ++ c.

(** arrays: the combination of two arrays of coefficients of the same shape *)
Definition lin_coefs (a : R) (c1 : nd coefs) (b : R) (c2 : nd coefs) : nd coefs :=
  {| dims := dims c1; get := fun ix => lin_coef a (get c1 ix) b (get c2 ix) |}.

(** the coefficients of the degrees above [d] replaced by zero *)
Definition zero_above (d : nat) (c : nd coefs) : nd coefs :=
  {| dims := dims c; get := fun ix k => if Nat.ltb k ((d + 1) * (d + 2) / 2) then get c ix k else (0, 0) |}.

(** coefficients of n rows followed by zeros *)
Definition padded (n : nat) (c : nd coefs) : nd coefs :=
  {| dims := dims c; get := fun ix k => if Nat.ltb k n then get c ix k else (0, 0) |}.

(** a result multiplied by the scaling factors *)
Definition scaled (sp : R) (sg : R * R * R) (o : option R * option (R * R * R)) : option R * option (R * R * R) :=
  let '(s0, s1, s2) := sg in
  (match fst o with Some v => Some (sp * v) | None => None end,
   match snd o with Some (a, b, c) => Some (s0 * a, s1 * b, s2 * c) | None => None end).
