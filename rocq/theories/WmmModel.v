(** Model of magnetic_model/parser_wmm.py and magnetic_model/loader_wmm.py. *)

From Coq Require Import Bool List Ascii ZArith Reals.
From Verif Require Import Ord ROrd TextModel SparseModel TimeModel YearSetModel.
Import ListNotations.

(** parser_wmm.py:34: the regular expression ^9+$ of a field, which is not empty *)
Definition terminating (f : text) : bool := forallb (fun c => Ascii.eqb c "9"%char) f.
(** parser_wmm.py:35 *)
Definition WMM_VALIDITY_PERIOD : R := 5.

(** v != 0 *)
Definition nonzero (v : R) : bool := if Req_EM_T v 0 then false else true.

Section Wmm.
(** the built-in int and float; [None] is a ValueError.  The values are real numbers: files with NaN or
    infinite values are not modelled. *)
Variables (to_int : text -> option Z) (to_float : text -> option R).

(** parser_wmm.py:79-86; of the dictionary the epoch, the name and the version *)
Definition parse_wmm_header (line : text) : parsed (R * text * text) :=
  let fields := split line in
  pbind (pbind (field fields 0) (number to_float)) (fun epoch =>
  pbind (field fields 1) (fun name =>
  pbind (field fields 2) (fun version =>
  Parsed (epoch, name, version)))).

(** parser_wmm.py:56-67, the loop over the lines: the degrees and orders with the value and the rate *)
Fixpoint parse_wmm_rows (lines : list text) : parsed (list ((Z * Z) * (R * R))) :=
  match lines with
  | [] => Parsed []
  | line :: lines' =>
      let fields := split line in
      if match fields with [f] => terminating f | _ => false end then Parsed []
      else
        pbind (pbind (field fields 0) (number to_int)) (fun n_idx =>
        pbind (pbind (field fields 1) (number to_int)) (fun m_idx =>
        pbind (pmap (number to_float) (firstn 4 (skipn 2 fields))) (fun values =>
        match values with
        | [coef_g; coef_h; coef_dg; coef_dh] =>
            let g := if nonzero coef_g || nonzero coef_dg then [((n_idx, m_idx), (coef_g, coef_dg))] else [] in
            let h := if (0 <? m_idx)%Z && (nonzero coef_h || nonzero coef_dh) then [((n_idx, (- m_idx)%Z), (coef_h, coef_dh))] else [] in
            pbind (parse_wmm_rows lines') (fun rest => Parsed (g ++ h ++ rest))
        | _ => Failed E_Value
        end)))
  end.

(** parser_wmm.py:50-76.  The subscripts of the array of no coefficients (74) raise an IndexError. *)
Definition parse_wmm_coefficients (epoch : R) (lines : list text) : parsed (list (Z * Z) * list (list R) * list R) :=
  pbind (parse_wmm_rows lines) (fun rows =>
  match rows with
  | [] => Failed E_Index
  | _ => Parsed (map fst rows,
                 map (fun x => [fst (snd x); fst (snd x) + snd (snd x) * WMM_VALIDITY_PERIOD]%R) rows,
                 [epoch; epoch + WMM_VALIDITY_PERIOD]%R)
  end).

(** parser_wmm.py:38-47 for the lines of a file *)
Record wmm_data := {
  wmm_epoch : R; wmm_name : text; wmm_version : text; wmm_nm : list (Z * Z); wmm_gh : list (list R); wmm_t : list R;
  wmm_degree_min : Z; wmm_degree_max : Z }.
Definition parse_wmm_file (lines : list text) : parsed wmm_data :=
  match lines with
  | [] => Failed E_StopIteration
  | line :: lines =>
      pbind (parse_wmm_header line) (fun h =>
      let '(epoch, name, version) := h in
      pbind (parse_wmm_coefficients epoch lines) (fun c =>
      let '(nm, gh, t) := c in
      match map fst nm with
      | [] => Failed E_Value
      | n :: rest =>
          Parsed {| wmm_epoch := epoch; wmm_name := name; wmm_version := version; wmm_nm := nm; wmm_gh := gh; wmm_t := t;
                    wmm_degree_min := fold_left Z.min rest n; wmm_degree_max := fold_left Z.max rest n |}
      end))
  end.

(** loader_wmm.py:41-48 *)
Definition load_coeff_wmm (lines : list text) : parsed (@time_dependent R R) :=
  pbind (parse_wmm_file lines) (fun data =>
  match mk_year_set (wmm_nm data) (wmm_gh data) (wmm_t data) 2 None None decimal_year_to_mjd2k with
  | Some td => Parsed td
  | None => Failed E_Value
  end).
End Wmm.
