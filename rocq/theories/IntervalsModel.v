(** Model of the interval utilities of magnetic_model/util.py. *)

From Coq Require Import Bool List Arith.
From Verif Require Import Ord.
Import ListNotations.

(** An interval with its associated object: ((start, end), obj). *)
Notation interval T A := ((T * T) * A)%type.

Section Intervals.
Context {T : Type} `{TOrd T} {A : Type}.

Definition istart (x : interval T A) : T := fst (fst x).
Definition iend (x : interval T A) : T := snd (fst x).
Definition iobj (x : interval T A) : A := snd x.

(** CPython's [bisect.bisect_right(a, x)] (Lib/bisect.py) called at
    magnetic_model/util.py:148:
      while lo < hi: mid = (lo + hi)//2
        if x < a[mid]: hi = mid else: lo = mid + 1
    [None]: out of fuel or out of range, excluded by [bisect_right_total]. *)
Fixpoint bisect_loop (fuel : nat) (a : list T) (x : T) (lo hi : nat) : option nat :=
  if lo <? hi then
    match fuel with
    | 0 => None
    | S fuel' =>
        let mid := (lo + hi) / 2 in
        match nth_error a mid with
        | None => None
        | Some v =>
            if ltb x v then bisect_loop fuel' a x lo mid
            else bisect_loop fuel' a x (mid + 1) hi
        end
    end
  else Some lo.

Definition py_bisect_right (a : list T) (x : T) : option nat :=
  bisect_loop (length a) a x 0 (length a).

(** Python's [list.insert(idx, x)] with 0 <= idx (magnetic_model/util.py:138-141).
    Simplification: the three parallel lists starts, ends, items always edited
    together are one list of triples. *)
Definition list_insert {B} (idx : nat) (x : B) (l : list B) : list B :=
  firstn idx l ++ x :: skipn idx l.

(** magnetic_model/util.py:147-159, the while-loop inserting one interval.
    [None] stands for running out of fuel or an IndexError; both are excluded by
    the theorems. *)
Fixpoint insert_loop (fuel : nat) (start end_ : T) (item : A) (st : list (interval T A))
  : option (list (interval T A)) :=
  if ltb start end_ then                                             (* 147 *)
    match fuel with
    | 0 => None
    | S fuel' =>
        match py_bisect_right (map iend st) start with               (* 148 *)
        | None => None
        | Some idx =>
            if idx =? length st then                                 (* 149 *)
              if idx =? 0 then Some (list_insert idx ((start, end_), item) st)
              else match nth_error st (idx - 1) with                 (* 150 *)
                   | None => None
                   | Some last =>
                       if ltb (iend last) end_
                       then Some (list_insert idx ((start, end_), item) st)  (* 151 *)
                       else Some st                                  (* 152 *)
                   end
            else
              match nth_error st idx with
              | None => None
              | Some cur =>
                  if ltb start (istart cur) then                     (* 153 *)
                    if leb end_ (istart cur)                         (* 154 *)
                    then Some (list_insert idx ((start, end_), item) st)   (* 155-156 *)
                    else
                      let st' := list_insert idx ((start, istart cur), item) st in (* 157 *)
                      match nth_error st' (idx + 1) with             (* 158 *)
                      | None => None
                      | Some nxt => insert_loop fuel' (iend nxt) end_ item st'  (* 159 *)
                      end
                  else insert_loop fuel' (iend cur) end_ item st     (* 159 *)
              end
        end
    end
  else Some st.

(** magnetic_model/util.py:143-159, the for-loop over the intervals. *)
Fixpoint nonoverlapping_loop (intervals : list (interval T A)) (st : list (interval T A))
  : option (list (interval T A)) :=
  match intervals with
  | [] => Some st
  | ((start, end_), item) :: rest =>
      if ltb end_ start then nonoverlapping_loop rest st             (* 144-145 *)
      else match insert_loop (S (length st)) start end_ item st with
           | None => None
           | Some st' => nonoverlapping_loop rest st'
           end
  end.

(** magnetic_model/util.py:126-161 *)
Definition get_nonoverlapping_intervals (intervals : list (interval T A))
  : option (list (interval T A)) := nonoverlapping_loop intervals [].

End Intervals.


Section Aggregate.
Context {T : Type} `{TInf T} {A : Type}.

(** magnetic_model/util.py:186-189 *)
Definition intersect (start1 end1 start0 end0 : T) : option (T * T) :=
  if leb start1 end0 && leb start0 end1
  then Some (tmax start1 start0, tmin end1 end0)
  else None.

(** magnetic_model/util.py:191-207, the two-pointer loop.  The head of each list is
    the current element of the corresponding iterator, StopIteration of either one
    ends the loop.  The recursion descends in one of the two lists. *)
Fixpoint aggregate_loop (aggs : list (interval T (list A)))
  : list (interval T A) -> list (interval T (list A)) :=
  match aggs with
  | [] => fun _ => []
  | agg :: aggs' =>
      fix inner (ints : list (interval T A)) : list (interval T (list A)) :=
        match ints with
        | [] => []
        | int :: ints' =>
            let emitted :=
              match intersect (istart agg) (iend agg) (istart int) (iend int) with
              | Some se => [(se, iobj agg ++ [iobj int])]            (* 196-199 *)
              | None => []
              end in
            if ltb (iend int) (iend agg)                             (* 201 *)
            then emitted ++ inner ints'                              (* 202 *)
            else emitted ++ aggregate_loop aggs' (int :: ints')      (* 204 *)
        end
  end.

(** magnetic_model/util.py:164-209 *)
Definition aggregate_intersected_intervals
  (intervals0 : list (interval T A)) (aggregates : option (list (interval T (list A))))
  : list (interval T (list A)) :=
  let aggs := match aggregates with
              | None => [((ninf, pinf), [])]                         (* 175-176 *)
              | Some a => a
              end in
  aggregate_loop aggs intervals0.

End Aggregate.
