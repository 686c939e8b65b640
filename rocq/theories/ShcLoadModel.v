(** Model of magnetic_model/loader_shc.py. *)

From Coq Require Import Bool List ZArith Reals.
From Coquelicot Require Import Rbar.
From Verif Require Import Ord ROrd RbarOrd TextModel ShcModel SparseModel SeriesModel TimeModel YearSetModel CombineModel.
Import ListNotations.

(** time_conversion.h:157-169: infinite times are not changed *)
Definition decimal_year_to_mjd2k_bar (t : Rbar) : Rbar :=
  match t with Finite x => Finite (decimal_year_to_mjd2k x) | _ => t end.

(** The three types of coefficients which the loader makes *)
Inductive shc_set :=
| Shc_constant (td : @time_dependent Rbar (option R))
| Shc_series (td : @time_dependent R R)
| Shc_year_series (td : @time_dependent R R).

(** The array of degrees and orders.  Arrays without these two columns are an IndexError (coefficients.py:425 or 363). *)
Fixpoint index_pairs (nm : list (list Z)) : parsed (list (Z * Z)) :=
  match nm with
  | [] => Parsed []
  | [n; m] :: nm' => pbind (index_pairs nm') (fun rest => Parsed ((n, m) :: rest))
  | _ => Failed E_Index
  end.

(** data["gh"][:, 0] (loader_shc.py:119) *)
Definition first_column (gh : list (list R)) : parsed (list R) :=
  pmap (fun c => match c with v :: _ => Parsed v | [] => Failed E_Index end) gh.

Section Load.
(** the built-in int and float *)
Variables (to_int : text -> option Z) (to_float : text -> option R).

(** loader_shc.py:91-131 with the optional arguments validity_start and validity_end ([None] if not given), other options as by default.
    The name of the keyword at 114 is wrong and the dictionary set there is not the one passed to the constructors: the
    order of the splines is that of the constructor (2).  The exceptions of the constructors are ValueErrors. *)
Definition load_coeff_shc (interpolate_in_decimal_years : bool) (validity_start validity_end : option R) (file : list text) : parsed shc_set :=
  pbind (parse_shc_file to_int to_float file) (fun data =>
  let vstart := match validity_start with Some x => Some x | None => shc_validity_start data end in
  let vend := match validity_end with Some x => Some x | None => shc_validity_end data end in
  pbind (index_pairs (shc_nm data)) (fun nm =>
  if (length (shc_t data) =? 1)%nat then
    pbind (first_column (shc_gh data)) (fun gh =>
    match mk_constant nm (map Some gh) (option_map Finite vstart) (option_map Finite vend) decimal_year_to_mjd2k_bar with
    | Some td => Parsed (Shc_constant td)
    | None => Failed E_Value
    end)
  else if interpolate_in_decimal_years then
    match mk_year_set nm (shc_gh data) (shc_t data) 2 vstart vend decimal_year_to_mjd2k with
    | Some td => Parsed (Shc_year_series td)
    | None => Failed E_Value
    end
  else
    match mk_time_dependent nm (shc_gh data) (shc_t data) 2 vstart vend decimal_year_to_mjd2k with
    | Some td => Parsed (Shc_series td)
    | None => Failed E_Value
    end)).
End Load.

(** The evaluation of the coefficients at one time, coefficients.py:469-479 *)
Definition shc_call (s : shc_set) (t : R) (min_degree max_degree : Z) : option cells :=
  match s with
  | Shc_constant td => constant_call (Some 0%R) td (Some (Finite t)) min_degree max_degree
  | Shc_series td => td_call td (fun x => x) (Some t) min_degree max_degree
  | Shc_year_series td => year_set_call td t min_degree max_degree
  end.

Definition shc_validity (s : shc_set) : Rbar * Rbar :=
  match s with
  | Shc_constant td => td_validity td
  | Shc_series td | Shc_year_series td => (Finite (fst (td_validity td)), Finite (snd (td_validity td)))
  end.

(** loader_shc.py:69-75 and coefficients.py:324-337, the files combined, evaluated at one time *)
Definition combined_shc_call (sets : list shc_set) (t : R) (min_degree max_degree : Z) : option cells :=
  match all_some (map (fun s => shc_call s t min_degree max_degree) sets) with
  | Some results => Some (combine_cells results)
  | None => None
  end.
(** coefficients.py:264-297 *)
Definition combined_shc_validity (sets : list shc_set) : Rbar * Rbar :=
  fold_left (fun v s => (tmax (fst v) (fst (shc_validity s)), tmin (snd v) (snd (shc_validity s)))) sets (m_infty, p_infty).
