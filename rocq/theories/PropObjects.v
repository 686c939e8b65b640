(** C105: sets made of sets *)
From Coq Require Import List Arith ZArith.
From Verif Require Import Ord CoefModel CoefMoreProofs ObjModel ObjSpec ObjExamples.
Import ListNotations.

(** For every program which makes sparse, composed and combined sets, with any nesting and sharing, in which no set is passed
    alone to the constructor of its own class: every object is a finite tree of sets, it can be evaluated at one time and at
    arrays of times with the values of this tree (C06 to C09), and it is the same tree with the same values after whatever the
    program does next.
    Missing: programs which pass a set alone to the constructor of its own class (C105_refuted). *)
Theorem C105_history_partial : forall T (OT : TOrd T) (OI : TInf T) V (MV : CMon V) P (program more : list (statement T V P)),
  careful [] (program ++ more) ->
  let h := run [] program in
  forall x, x < length h ->
  exists c, stands_for h x c /\ evaluates_as h x c /\ stands_for (run h more) x c /\ evaluates_as (run h more) x c.
Proof. exact @history. Qed.
Print Assumptions C105_history_partial.

(** The classes do to the objects what the constructors of CoefModel.v do to the trees: they return an object for the composed
    or combined set and leave the others unchanged, or raise the same exception, or, for one set of the same class, return this
    object such that no evaluation of it ends. *)
Theorem C105_composed : forall T (OT : TOrd T) (OI : TInf T) V (MV : CMon V) P (h : heap T V P) items sets,
  Forall2 (stands_for h) items sets -> constructs h items (new_composed h items) (mk_composed sets).
Proof. exact @composed_constructs. Qed.
Print Assumptions C105_composed.

Theorem C105_combined : forall T (OT : TOrd T) V (MV : CMon V) P (h : heap T V P) items sets,
  Forall2 (stands_for h) items sets -> constructs h items (new_combined h items) (mk_combined sets).
Proof. exact @combined_constructs. Qed.
Print Assumptions C105_combined.

(** ComposedSHCoefficients(c) of a composed set c, and CombinedSHCoefficients(c) of a combined set c, succeed and return c, and
    every later evaluation of c raises RecursionError. *)
Theorem C105_alone_composed : forall T (OT : TOrd T) (OI : TInf T) V (MV : CMon V) P (h : heap T V P) x a items,
  nth_error h x = Some (OComposed a items) -> returns_broken h [x] (new_composed h [x]).
Proof. exact @composed_broken. Qed.
Print Assumptions C105_alone_composed.

Theorem C105_alone_combined : forall T (OT : TOrd T) V (MV : CMon V) P (h : heap T V P) x a items,
  nth_error h x = Some (OCombined a items) -> returns_broken h [x] (new_combined h [x]).
Proof. exact @combined_broken. Qed.
Print Assumptions C105_alone_combined.

(** Hence it is false that all the objects of all the programs can be evaluated. *)
Theorem C105_refuted : ~ (forall (program : list (statement Zx Z unit)) x, x < length (run [] program) ->
  exists c, evaluates_as (run [] program) x c).
Proof. exact composed_of_itself. Qed.
Print Assumptions C105_refuted.

Example C105_example : careful [] ex_program.
Proof. exact ex_careful. Qed.
Example C105_example_values : length (run [] ex_program) = 6 /\
  object_call (run [] ex_program) tt (Some (ZFin 4)) 4 5 = Value ([13; 13; 13]%Z, 1) /\
  object_call (run [] ex_program) tt (Some (ZFin 11)) 4 5 = Value ([7; 7; 7; 7; 7; 7]%Z, 2) /\
  object_call (run [] ex_program) tt (Some (ZFin 4)) 2 5 = RecursionError.
Proof. exact ex_values. Qed.
