(** Model of include/bisect.h and pymm_bisect.h. *)

From Coq Require Import Bool List ZArith.
From Verif Require Import Ord.
Import ListNotations.
Open Scope Z_scope.

(** Reading an element of a C array; [None] is a read outside of the array. *)
Definition aread {A} (v : list A) (i : Z) : option A :=
  if i <? 0 then None else nth_error v (Z.to_nat i).

Section Bisect.
Context {T : Type} {OT : TOrd T}.

(** Comparisons of a double which may be NaN ([None]) with a node. *)
Definition x_ge (x : option T) (a : T) : bool :=
  match x with Some y => leb a y | None => false end.
Definition x_gt (x : option T) (a : T) : bool :=
  match x with Some y => ltb a y | None => false end.
Definition x_le (x : option T) (a : T) : bool :=
  match x with Some y => leb y a | None => false end.

(** include/bisect.h:74-83, the halving loop; [None]: a read outside of the array or
    out of fuel, both excluded by the theorems. *)
Fixpoint right_loop (fuel : nat) (x : option T) (v : list T) (i_low i_high : Z) : option Z :=
  if i_low <? i_high then
    match fuel with
    | O => None
    | S fuel' =>
        let i := i_low + 1 + Z.quot (i_high - i_low) 2 in
        match aread v i with
        | None => None
        | Some a =>
            if x_ge x a then right_loop fuel' x v i i_high
            else right_loop fuel' x v i_low (i - 1)
        end
    end
  else Some i_low.

(** include/bisect.h:55-86, bisect_right.  size_t [n] is the length of [v]. *)
Definition bisect_right (x : option T) (v : list T) : option Z :=
  let n := Z.of_nat (length v) in
  if n <? 1 then Some (-1)
  else match aread v 0 with
       | None => None
       | Some a0 =>
           if negb (x_ge x a0) then Some (-1)
           else match aread v (n - 1) with
                | None => None
                | Some a1 =>
                    if x_ge x a1 then Some (n - 1)
                    else right_loop (length v) x v 0 (n - 2)
                end
       end.

(** include/bisect.h:115-124 *)
Fixpoint left_loop (fuel : nat) (x : option T) (v : list T) (i_low i_high : Z) : option Z :=
  if i_low <? i_high then
    match fuel with
    | O => None
    | S fuel' =>
        let i := i_low + 1 + Z.quot (i_high - i_low) 2 in
        match aread v i with
        | None => None
        | Some a =>
            if x_le x a then left_loop fuel' x v i_low (i - 1)
            else left_loop fuel' x v i i_high
        end
    end
  else Some i_high.

(** include/bisect.h:98-127, bisect_left *)
Definition bisect_left (x : option T) (v : list T) : option Z :=
  let n := Z.of_nat (length v) in
  if n <? 1 then Some (-1)
  else match aread v 0 with
       | None => None
       | Some a0 =>
           if negb (x_gt x a0) then Some (-1)
           else match aread v (n - 1) with
                | None => None
                | Some a1 =>
                    if x_gt x a1 then Some (n - 1)
                    else left_loop (length v) x v 0 (n - 2)
                end
       end.

(** pymm_bisect.h:59-179, bisect(v, x, side) for a 1D array [x]; [false] is
    BISECT_SIDE_LEFT, the default.  Simplification: arrays of more dimensions are
    processed in the same way element by element. *)
Definition bisect (v : list T) (x : list (option T)) (side_right : bool) : list (option Z) :=
  map (fun y => if side_right then bisect_right y v else bisect_left y v) x.

End Bisect.
