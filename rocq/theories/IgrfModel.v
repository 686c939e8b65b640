(** Model of magnetic_model/parser_igrf.py and magnetic_model/loader_igrf.py. *)

From Coq Require Import Bool List Ascii ZArith Reals.
From Verif Require Import Ord ROrd TextModel ShcModel SparseModel TimeModel YearSetModel.
Import ListNotations.

(** parser_igrf.py:34 *)
Definition IGRF_EXTRAPOLATION_PERIOD : R := 5.

Definition text_eqb (a b : text) : bool := if list_eq_dec ascii_dec a b then true else false.

Section Igrf.
(** the built-in int and float as in [WmmModel] *)
Variables (to_int : text -> option Z) (to_float : text -> option R).

(** parser_igrf.py:55-61, one row: degree, order, values *)
Definition parse_igrf_row (line : text) : parsed ((Z * Z) * list R) :=
  let fields := split line in
  pbind (field fields 0) (fun label =>
  pbind (pbind (field fields 1) (number to_int)) (fun n_idx =>
  pbind (pbind (field fields 2) (number to_int)) (fun m_idx =>
  let m_idx := if text_eqb label ["h"%char] then (- m_idx)%Z else m_idx in
  pbind (pmap (number to_float) (skipn 3 fields)) (fun values =>
  Parsed ((n_idx, m_idx), values))))).
(** parser_igrf.py:63, one row of coeff[:, -1] = coeff[:, -2] + coeff[:, -1] * period *)
Definition extrapolate_row (r : list R) : parsed (list R) :=
  match rev r with
  | y :: x :: rest => Parsed (rev ((x + y * IGRF_EXTRAPOLATION_PERIOD)%R :: x :: rest))
  | _ => Failed E_Index
  end.
(** parser_igrf.py:51-64; subscripts of the array of no rows raise an IndexError. *)
Definition parse_igrf_coefficients (lines : list text) : parsed (list (Z * Z) * list (list R)) :=
  pbind (pmap parse_igrf_row lines) (fun rows =>
  pbind (as_array (map snd rows)) (fun coeff =>
  match coeff with
  | [] => Failed E_Index
  | _ => pbind (pmap extrapolate_row coeff) (fun coeff => Parsed (map fst rows, coeff))
  end)).

(** parser_igrf.py:67-71; line.split()[3:-1] *)
Definition parse_igrf_times (line : text) : parsed (list R) :=
  pbind (pmap (number to_float) (skipn 3 (removelast (split line)))) (fun times =>
  match rev times with
  | [] => Failed E_Index
  | t :: _ => Parsed (times ++ [(t + IGRF_EXTRAPOLATION_PERIOD)%R])
  end).

(** parser_igrf.py:37-48 for the lines of a file; strip_igrf_comments (79-88) is the same as _strip_shc_comments. *)
Record igrf_data := {
  igrf_labels : list text; igrf_t : list R; igrf_nm : list (Z * Z); igrf_gh : list (list R);
  igrf_degree_min : Z; igrf_degree_max : Z }.
Definition parse_igrf_file (file : list text) : parsed igrf_data :=
  match strip_shc_comments file with
  | [] | [_] => Failed E_StopIteration
  | header :: times :: lines =>
      pbind (parse_igrf_times times) (fun t =>
      pbind (parse_igrf_coefficients lines) (fun c =>
      let '(nm, gh) := c in
      match map fst nm with
      | [] => Failed E_Value
      | n :: rest =>
          Parsed {| igrf_labels := split header; igrf_t := t; igrf_nm := nm; igrf_gh := gh;
                    igrf_degree_min := fold_left Z.min rest n; igrf_degree_max := fold_left Z.max rest n |}
      end))
  end.

(** loader_igrf.py:48-55 *)
Definition load_coeff_igrf (file : list text) : parsed (@time_dependent R R) :=
  pbind (parse_igrf_file file) (fun data =>
  match mk_year_set (igrf_nm data) (igrf_gh data) (igrf_t data) 2 None None decimal_year_to_mjd2k with
  | Some td => Parsed td
  | None => Failed E_Value
  end).
End Igrf.
