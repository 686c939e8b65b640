(** The model of one SHC file from the file to the field: load_model_shc(path) and eval of the model.
    The parts are those of ShcLoadModel (the loading) and of TempModel (the evaluation). *)
From Coq Require Import Bool List ZArith Reals.
From Coquelicot Require Import Rbar.
From Verif Require Import Ord ROrd RbarOrd IntervalsModel ArrModel CoefModel LegendreModel GeoModel ShEvalModel ShEvalSpec SparseModel SeriesModel TimeModel TempModel
  ShcLoadModel.
Import ListNotations.

(** loader_shc.py:58-66 and coefficients.py:128-131, load_model_shc of a single file: the composition of
    one item is the item; model.py:80-85 and coefficients.py:346-347: its only component is the set itself, with its
    validity; 87-90: it is evaluated by _eval_interpolated.  The set as it is passed to the evaluation: the
    sets in decimal years have convert_time (coefficients.py:527).
    Simplified: the single time -inf of a constant set (coefficients.py:509) is replaced by 0; there is but one node
    and the interpolation is piecewise constant, so that the node is not compared with anything which matters
    (see [constant_leaf_call] in FieldProofs). *)
Definition constant_leaf (td : @time_dependent Rbar (option R)) : @time_dependent R R :=
  {| td_sparse := {| s_entries := map (fun e => {| e_n := e_n e; e_m := e_m e;
                                                   e_c := map (fun v => match v with Some x => x | None => 0%R end) (e_c e) |})
                                      (s_entries (td_sparse td));
                     s_degree := s_degree (td_sparse td); s_min_degree := s_min_degree (td_sparse td) |};
     td_validity := (0, 0)%R;       (* not used, see [shc_validity] *)
     td_times := map (fun _ => 0%R) (td_times td);
     td_order := td_order td |}.

Definition shc_leaf (s : shc_set) : leaf_set :=
  match s with
  | Shc_constant td => (constant_leaf td, None)
  | Shc_series td => (td, None)
  | Shc_year_series td => (td, Some mjd2k_to_decimal_year)
  end.

(** model.py:131-132; the comparisons of NaN are false *)
Definition time_valid (validity : Rbar * Rbar) (t : option R) : bool :=
  match t with
  | None => false
  | Some u => leb (fst validity) (Finite u) && leb (Finite u) (snd validity)
  end.

(** A 1D array *)
Definition vector {A} (default : A) (l : list A) : nd A :=
  {| dims := [length l]; get := fun ix => nth (hd 0%nat ix) l default |}.

Definition vec3 := (R * R * R)%type.

(** The evaluation of a model with one component: one set of coefficients or a combination of sets
    (model.py:83-85, 92-101), with the validity of the component *)
Section ModelEval.
Variables (validity : Rbar * Rbar) (items : list leaf_set) (internal : bool) (min_degree max_degree : Z)
  (ci co : coord_type) (scale : vec3) (mem : arr * arr * coefs * arr * arr * arr).

(** model.py:143-148, a scalar time and any array of locations.  [None] is the vector of NaNs. *)
Definition model_eval_scalar (time : option R) (location : nd vec3) : result (list nat * list (option vec3)) :=
  if time_valid validity time then
    match eval_interpolated items internal min_degree max_degree
            (nd0 (match time with Some u => u | None => 0%R end)) location ci co scale mem with
    | Err e => Err e
    | Ok (odims, out) => Ok (odims, map snd out)
    end
  else Ok (dims location, map (fun _ => None) (indices (dims location))).

(** model.py:152-156, one pass of the loop over the components for arrays of times and locations of the same shape (after
    reshape_times_and_coordinates, see C58), given by their elements in the order of the array: the boolean masks
    select the elements as 1D arrays.  [base] is the result before the pass. *)
Definition component_array (base : list (option vec3)) (txs : list (option R * vec3)) : result (list (option vec3)) :=
  let mask := map (fun tx => time_valid validity (fst tx)) txs in
  let selected := select mask txs in
  match eval_interpolated items internal min_degree max_degree
          (vector 0%R (map (fun tx => match fst tx with Some u => u | None => 0%R end) selected))
          (vector (0, 0, 0)%R (map snd selected)) ci co scale mem with
  | Err e => Err e
  | Ok (_, out) => Ok (scatter (fun _ v => v) mask base (map snd out))
  end.

(** model.py:150-157 *)
Definition model_eval_array (txs : list (option R * vec3)) : result (list (option vec3)) :=
  component_array (map (fun _ => None) txs) txs.

End ModelEval.

(** loader_wmm.py:36-38 and loader_igrf.py:37-45, load_model_wmm and load_model_igrf: a single set in decimal years *)
Definition year_leaf (td : @time_dependent R R) : leaf_set := (td, Some mjd2k_to_decimal_year).
Definition year_validity (td : @time_dependent R R) : Rbar * Rbar := (Finite (fst (td_validity td)), Finite (snd (td_validity td))).

(** loader_emm.py:40-44, load_model_emm: the combination of a set in decimal years and of a constant one
    (coefficients.py:237-246 and 308-313) *)
Definition emm_items (emm : @time_dependent R R * @time_dependent Rbar (option R)) : list leaf_set :=
  [year_leaf (fst emm); (constant_leaf (snd emm), None)].

(** The evaluation of a model with any number of components (model.py:78-85), each with its validity *)
Section Components.
Variables (internal : bool) (min_degree max_degree : Z) (ci co : coord_type) (scale : vec3) (mem : arr * arr * coefs * arr * arr * arr).

(** model.py:143-148 *)
Fixpoint components_scalar (components : list ((Rbar * Rbar) * list leaf_set)) (time : option R) (location : nd vec3)
  : result (list nat * list (option vec3)) :=
  match components with
  | [] => Ok (dims location, map (fun _ => None) (indices (dims location)))
  | (validity, items) :: rest =>
      if time_valid validity time
      then model_eval_scalar validity items internal min_degree max_degree ci co scale mem time location
      else components_scalar rest time location
  end.

(** model.py:151-157 *)
Fixpoint components_array (components : list ((Rbar * Rbar) * list leaf_set)) (base : list (option vec3)) (txs : list (option R * vec3))
  : result (list (option vec3)) :=
  match components with
  | [] => Ok base
  | (validity, items) :: rest =>
      match component_array validity items internal min_degree max_degree ci co scale mem base txs with
      | Err e => Err e
      | Ok out => components_array rest out txs
      end
  end.
End Components.

(** loader_shc.py:58-66 and coefficients.py:114-131, the components of load_model_shc of several files.  The composition of a single
    item is the item.
    Simplified: the refusal of gaps between the validities is C05. *)
Definition composed_components (sets : list shc_set) : option (list ((Rbar * Rbar) * list leaf_set)) :=
  match sets with
  | [s] => Some [(shc_validity s, [shc_leaf s])]
  | _ => match all_some (map (fun s => get_nonoverlapping_intervals [(shc_validity s, [shc_leaf s])]) sets) with
         | Some components => Some (concat components)
         | None => None
         end
  end.

(** loader_shc.py:49-56 and coefficients.py:238-247, the components of load_model_shc_combined: the sets of all files with their
    common validity; none if there is no common time.  ([None]: no files, refused by coefficients.py:266-269.)
    Simplified: the single set of one file is not wrapped, which does not change its evaluation. *)
Definition combined_components (sets : list shc_set) : option (list ((Rbar * Rbar) * list leaf_set)) :=
  fold_left (fun aggregates s => Some (aggregate_intersected_intervals [(shc_validity s, shc_leaf s)] aggregates)) sets None.
