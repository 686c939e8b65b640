(** Model of magnetic_model/parser_emm.py and magnetic_model/loader_emm.py. *)

From Coq Require Import Bool List Ascii String ZArith Reals.
From Coquelicot Require Import Rbar.
From Verif Require Import Ord ROrd RbarOrd TextModel WmmModel IgrfModel SparseModel SeriesModel TimeModel YearSetModel CombineModel.
Import ListNotations.
Open Scope list_scope.

(** parser_emm.py:37: the regular expression ^-+$ of a field, which is not empty *)
Definition dashes (f : text) : bool := forallb (fun c => Ascii.eqb c "-"%char) f.
(** parser_emm.py:38 *)
Definition EMM_VALIDITY_PERIOD : R := 5.

Section Emm.
(** the built-in int and float as in [WmmModel] *)
Variables (to_int : text -> option Z) (to_float : text -> option R).

(** parser_emm.py:103-114; the epoch and the lines behind the header *)
Fixpoint parse_emm_header (epoch : option R) (lines : list text) : parsed (option R * list text) :=
  match lines with
  | [] => Parsed (epoch, [])
  | line :: lines' =>
      match split line with
      | [f] => if dashes f then Parsed (epoch, lines') else parse_emm_header epoch lines'
      | [f; v] =>
          if text_eqb f (list_ascii_of_string "Epoch:")
          then pbind (number to_float v) (fun x => parse_emm_header (Some x) lines')
          else parse_emm_header epoch lines'
      | _ => parse_emm_header epoch lines'
      end
  end.

(** parser_emm.py:121-129, the loop over the lines: the degrees and orders with the values *)
Fixpoint parse_emm_rows (lines : list text) : parsed (list ((Z * Z) * R)) :=
  match lines with
  | [] => Parsed []
  | line :: lines' =>
      let fields := split line in
      pbind (pbind (field fields 0) (number to_int)) (fun n_idx =>
      pbind (pbind (field fields 1) (number to_int)) (fun m_idx =>
      pbind (pbind (field fields 2) (number to_float)) (fun coef_g =>
      pbind (pbind (field fields 3) (number to_float)) (fun coef_h =>
      pbind (parse_emm_rows lines') (fun rest =>
      Parsed (((n_idx, m_idx), coef_g) :: (if (0 <? m_idx)%Z then [((n_idx, (- m_idx)%Z), coef_h)] else []) ++ rest))))))
  end.

(** parser_emm.py:91-100 and 117-131: the epoch and the coefficients.  A missing epoch is a KeyError (131), no
    coefficients an IndexError (98). *)
Definition parse_emm_file (lines : list text) : parsed (R * list ((Z * Z) * R)) :=
  pbind (parse_emm_header None lines) (fun h =>
  let '(epoch, lines) := h in
  pbind (parse_emm_rows lines) (fun rows =>
  match epoch with
  | None => Failed E_Key
  | Some epoch => match rows with [] => Failed E_Index | _ => Parsed (epoch, rows) end
  end)).

(** parser_emm.py:49-70: the exception of 58 is not raised, the comparison has no effect.  If there are less static coefficients
    the arrays cannot be stacked (66-69). *)
Definition combine_emm_variable (static secvar : R * list ((Z * Z) * R))
  : parsed (list (Z * Z) * list (list R) * list R) :=
  let (epoch_secvar, rows_secvar) := secvar in
  let rows_static := firstn (List.length rows_secvar) (snd static) in
  if (List.length rows_static =? List.length rows_secvar)%nat
  then Parsed (map fst rows_secvar,
               map (fun x => [snd (fst x); snd (fst x) + snd (snd x) * EMM_VALIDITY_PERIOD]%R) (combine rows_static rows_secvar),
               [epoch_secvar; epoch_secvar + EMM_VALIDITY_PERIOD]%R)
  else Failed E_Value.

(** parser_emm.py:73-88; the minimum of no degrees is a ValueError (83). *)
Definition extract_emm_constant (static secvar : R * list ((Z * Z) * R)) : parsed (list (Z * Z) * list R) :=
  let rows := filter (fun x => nonzero (snd x)) (skipn (List.length (snd secvar)) (snd static)) in
  match rows with
  | [] => Failed E_Value
  | _ => Parsed (map fst rows, map snd rows)
  end.

(** loader_emm.py:47-64: the two sets.  The coefficients of the constant set are numbers or NaN. *)
Definition load_coeff_emm (file_static file_secvar : list text)
  : parsed (@time_dependent R R * @time_dependent Rbar (option R)) :=
  pbind (parse_emm_file file_static) (fun static =>
  pbind (parse_emm_file file_secvar) (fun secvar =>
  pbind (combine_emm_variable static secvar) (fun v =>
  let '(nm, gh, t) := v in
  pbind (extract_emm_constant static secvar) (fun c =>
  let '(nm_c, gh_c) := c in
  match mk_year_set nm gh t 2 None None decimal_year_to_mjd2k,
        mk_constant nm_c (map Some gh_c) None None (fun x => x) with
  | Some variable, Some constant => Parsed (variable, constant)
  | _, _ => Failed E_Value
  end)))).
End Emm.

(** coefficients.py:324-337, the combination of the two sets evaluated at one time.  [None]: an exception. *)
Definition emm_call (emm : @time_dependent R R * @time_dependent Rbar (option R)) (t : R) (min_degree max_degree : Z) : option cells :=
  match year_set_call (fst emm) t min_degree max_degree, constant_call (Some 0%R) (snd emm) (Some (Finite t)) min_degree max_degree with
  | Some r1, Some r2 => Some (combine_cells [r1; r2])
  | _, _ => None
  end.

(** coefficients.py:264-297, the validity of the combination of the two sets *)
Definition emm_validity (emm : @time_dependent R R * @time_dependent Rbar (option R)) : Rbar * Rbar :=
  let '(a, b) := td_validity (fst emm) in
  let '(c, d) := td_validity (snd emm) in
  (tmax (Finite a) c, tmin (Finite b) d).
