(** Specification of the text of the coefficient files. *)

From Coq Require Import List Ascii NArith ZArith.
From Verif Require Import TextModel.
Import ListNotations.

(** white space: tab, line feed, vertical tab, form feed, carriage return, the four ASCII separators and space *)
Definition white (c : ascii) : Prop := let n := N_of_ascii c in (9 <= n <= 13 \/ 28 <= n <= 32)%N.

(** The line consists of the given fields, which are not empty and contain no white space, separated by white space. *)
Inductive has_fields : text -> list text -> Prop :=
| no_field : forall blank, Forall white blank -> has_fields blank []
| next_field : forall blank f rest fs,
    Forall white blank -> f <> [] -> Forall (fun c => ~ white c) f ->
    rest = [] \/ (exists c r, rest = c :: r /\ white c) -> has_fields rest fs ->
    has_fields (blank ++ f ++ rest) (f :: fs).

(** nothing but white space up to the end of the line or up to a # *)
Definition comment_line (l : text) : Prop :=
  exists blank rest, l = blank ++ rest /\ Forall white blank /\ (rest = [] \/ exists r, rest = HASH :: r).
(** the line up to its end or up to the first # *)
Definition without_comment (l h : text) : Prop :=
  exists rest, l = h ++ rest /\ ~ In HASH h /\ (rest = [] \/ exists r, rest = HASH :: r).

(** each field is the text of the number *)
Definition numbers {A} (convert : text -> option A) (fs : list text) (xs : list A) : Prop :=
  Forall2 (fun f x => convert f = Some x) fs xs.

(** all of the rows have the same length *)
Definition rectangular {A} (rows : list (list A)) : Prop :=
  forall r r', In r rows -> In r' rows -> length r = length r'.

(** the text of the lines, each followed by the terminator *)
Definition terminated (eol : text) (lines : list text) : text := concat (map (fun l => l ++ eol) lines).
Definition single_line (l : text) : Prop := ~ In LF l /\ ~ In CR l.
(** the line terminators: line feed, carriage return and line feed, carriage return *)
Definition terminator (eol : text) : Prop := eol = [LF] \/ eol = [CR; LF] \/ eol = [CR].
