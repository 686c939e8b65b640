(** Model of magnetic_model/parser_shc.py. *)

From Coq Require Import Bool List Ascii ZArith.
From Verif Require Import Ord TextModel.
Import ListNotations.

(** parser_shc.py:93-103, _strip_shc_comments of the lines of a file: the generator as the list of its items *)
Fixpoint strip_shc_comments (file : list text) : list text :=
  match file with
  | [] => []
  | line :: file' =>
      match strip (before_hash line) with
      | [] => strip_shc_comments file'
      | first => first :: map strip file'
      end
  end.

Section Shc.
Context {F : Type} {OF : TOrd F}.
(** the built-in int and float; [None] is a ValueError *)
Variables (to_int : text -> option Z) (to_float : text -> option F).

(** The dictionary returned by the parser.  The validity is [None] if it is infinite. *)
Record shc_header := {
  h_degree_min : Z; h_degree_max : Z; h_ntime : Z; h_spline_order : Z; h_nstep : Z;
  h_validity : option (F * F) }.
Record shc_data := {
  shc_head : shc_header; shc_t : list F; shc_validity_start : option F; shc_validity_end : option F;
  shc_nm : list (list Z); shc_gh : list (list F) }.

(** parser_shc.py:77-90; the optional items are there iff the dictionary has both of the keys *)
Definition parse_shc_header_line (line : text) : parsed shc_header :=
  let fields := split line in
  pbind (pbind (field fields 0) (number to_int)) (fun degree_min =>
  pbind (pbind (field fields 1) (number to_int)) (fun degree_max =>
  pbind (pbind (field fields 2) (number to_int)) (fun ntime =>
  pbind (pbind (field fields 3) (number to_int)) (fun spline_order =>
  pbind (pbind (field fields 4) (number to_int)) (fun nstep =>
  pbind (if Nat.ltb 5 (length fields) then
           pbind (pbind (field fields 5) (number to_float)) (fun validity_start =>
           pbind (pbind (field fields 6) (number to_float)) (fun validity_end =>
           Parsed (Some (validity_start, validity_end))))
         else Parsed None) (fun validity =>
  Parsed {| h_degree_min := degree_min; h_degree_max := degree_max; h_ntime := ntime; h_spline_order := spline_order;
            h_nstep := nstep; h_validity := validity |})))))).

(** parser_shc.py:72-74 *)
Definition parse_shc_times (line : text) : parsed (list F) := pmap (number to_float) (split line).

(** parser_shc.py:51-58; times.min() and times.max() of more than one time *)
Definition minimum (times : list F) : option F :=
  match times with
  | t :: ((_ :: _) as rest) => Some (fold_left tmin rest t)
  | _ => None
  end.
Definition maximum (times : list F) : option F :=
  match times with
  | t :: ((_ :: _) as rest) => Some (fold_left tmax rest t)
  | _ => None
  end.
Definition parse_shc_header (lines : list text) : parsed ((shc_header * list F * option F * option F) * list text) :=
  match lines with
  | [] => Failed E_StopIteration
  | line :: lines =>
      pbind (parse_shc_header_line line) (fun header =>
      match lines with
      | [] => Failed E_StopIteration
      | line :: lines =>
          pbind (parse_shc_times line) (fun times =>
          Parsed ((header, times,
                   match h_validity header with Some (x, _) => Some x | None => minimum times end,
                   match h_validity header with Some (_, x) => Some x | None => maximum times end), lines))
      end)
  end.

(** parser_shc.py:61-69 *)
Definition parse_shc_row (line : text) : parsed (list Z * list F) :=
  let fields := split line in
  pbind (pmap (number to_int) (firstn 2 fields)) (fun nm =>
  pbind (pmap (number to_float) (skipn 2 fields)) (fun coefficients =>
  Parsed (nm, coefficients))).
Definition parse_shc_coefficients (lines : list text) : parsed (list (list Z) * list (list F)) :=
  pbind (pmap parse_shc_row lines) (fun rows =>
  pbind (as_array (map fst rows)) (fun nm =>
  pbind (as_array (map snd rows)) (fun gh =>
  Parsed (nm, gh)))).

(** parser_shc.py:34-40, for the lines of a file *)
Definition parse_shc_file (file : list text) : parsed shc_data :=
  pbind (parse_shc_header (strip_shc_comments file)) (fun h =>
  let '((header, times, validity_start, validity_end), lines) := h in
  pbind (parse_shc_coefficients lines) (fun c =>
  let '(nm, gh) := c in
  Parsed {| shc_head := header; shc_t := times; shc_validity_start := validity_start; shc_validity_end := validity_end;
            shc_nm := nm; shc_gh := gh |})).
End Shc.
