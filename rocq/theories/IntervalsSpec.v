(** What the interval utilities of magnetic_model/util.py are expected to do,
    stated without reference to how they do it. *)

From Coq Require Import Bool List.
From Verif Require Import Ord IntervalsModel.
Import ListNotations.

Section Spec.
Context {T : Type} `{TOrd T} {A : Type}.

(** The instant [t] is in the half-open interval: start <= t < end. *)
Definition at_time (t : T) (x : interval T A) : bool :=
  leb (istart x) t && ltb t (iend x).

(** The instant [t] is in the closed interval: start <= t <= end. *)
Definition at_time_closed (t : T) (x : interval T A) : Prop :=
  le (istart x) t /\ le t (iend x).

(** The object of the first interval (in list order) which contains [t]. *)
Definition first_at (t : T) (l : list (interval T A)) : option A :=
  option_map iobj (find (at_time t) l).

(** The objects of all intervals which contain [t]. *)
Definition all_at (t : T) (l : list (interval T A)) : list A :=
  map iobj (filter (at_time t) l).

(** Time-ordered and non-overlapping intervals: each ends no later than any later
    one starts. *)
Definition ordered (l : list (interval T A)) : Prop :=
  forall i j x y, i < j -> nth_error l i = Some x -> nth_error l j = Some y ->
    le (iend x) (istart y).

(** No degenerate (empty or inverted) intervals. *)
Definition proper (l : list (interval T A)) : Prop :=
  forall x, In x l -> lt (istart x) (iend x).

(** No inverted intervals. *)
Definition weakly_proper (l : list (interval T A)) : Prop :=
  forall x, In x l -> le (istart x) (iend x).

End Spec.
