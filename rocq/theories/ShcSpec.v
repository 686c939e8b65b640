(** Specification of the SHC files. *)

From Coq Require Import List Ascii ZArith.
From Verif Require Import Ord TextModel TextSpec ShcModel.
Import ListNotations.

Section Spec.
Context {F : Type} {OF : TOrd F}.
Variables (to_int : text -> option Z) (to_float : text -> option F).

(** The header: five integers and optionally the start and the end of the validity *)
Definition header_fields (fs : list text) (h : @shc_header F) : Prop :=
  exists a b c d e rest, fs = a :: b :: c :: d :: e :: rest /\
    to_int a = Some (h_degree_min h) /\ to_int b = Some (h_degree_max h) /\ to_int c = Some (h_ntime h) /\
    to_int d = Some (h_spline_order h) /\ to_int e = Some (h_nstep h) /\
    (rest = [] /\ h_validity h = None \/
     exists s u more x y, rest = s :: u :: more /\ to_float s = Some x /\ to_float u = Some y /\ h_validity h = Some (x, y)).

(** A row: the degree, the order and the values.  (A row without values may lack the order or both.) *)
Definition row_of (row : text) (nm : list Z) (values : list F) : Prop :=
  exists ns vs, has_fields row (ns ++ vs) /\ numbers to_int ns nm /\ numbers to_float vs values /\
    (length ns = 2%nat \/ length ns < 2 /\ vs = [])%nat.

(** the smallest and the largest of the times *)
Definition least (x : F) (l : list F) : Prop := In x l /\ forall y, In y l -> le x y.
Definition greatest (x : F) (l : list F) : Prop := In x l /\ forall y, In y l -> le y x.
(** The validity: that of the header, that of the times, or infinite for a single time *)
Definition validity_of (d : @shc_data F) : Prop :=
  match h_validity (shc_head d) with
  | Some (x, y) => shc_validity_start d = Some x /\ shc_validity_end d = Some y
  | None =>
      (length (shc_t d) <= 1 /\ shc_validity_start d = None /\ shc_validity_end d = None)%nat \/
      (2 <= length (shc_t d))%nat /\
      exists x y, shc_validity_start d = Some x /\ shc_validity_end d = Some y /\
        least x (shc_t d) /\ greatest y (shc_t d)
  end.

Inductive rows_of : list text -> list (list Z) -> list (list F) -> Prop :=
| no_rows : rows_of [] [] []
| next_row : forall row rows nm nms values gh,
    row_of row nm values -> rows_of rows nms gh -> rows_of (row :: rows) (nm :: nms) (values :: gh).

(** The file: comments and blank lines, the header, the times, the rows *)
Definition shc_file (file : list text) (d : @shc_data F) : Prop :=
  exists comments header hd times rows,
    file = comments ++ header :: times :: rows /\ Forall comment_line comments /\ without_comment header hd /\
    (exists fs, has_fields hd fs /\ header_fields fs (shc_head d)) /\
    (exists fs, has_fields times fs /\ numbers to_float fs (shc_t d)) /\
    validity_of d /\ rows_of rows (shc_nm d) (shc_gh d) /\
    rectangular (shc_nm d) /\ rectangular (shc_gh d).
End Spec.
