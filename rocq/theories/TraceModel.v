(** Model of the tracing of field lines: magnetic_model/field_lines.py.

    The model is any function from Cartesian points to Cartesian field vectors; [None] is a
    point or a vector with NaNs. *)

From Coq Require Import Bool List ZArith Reals.
From Verif Require Import CoefModel GeoModel ShEvalModel CoordModel.
Import ListNotations.
Open Scope R_scope.

Notation nanvec := (option vec).

(** products and sums with NaN *)
Definition nan_scale (s : option R) (v : nanvec) : nanvec :=
  match s, v with Some k, Some (a, b, c) => Some (k * a, k * b, k * c) | _, _ => None end.
Definition nan_add (u v : nanvec) : nanvec :=
  match u, v with Some (a, b, c), Some (a', b', c') => Some (a + a', b + b', c + c') | _, _ => None end.

(** field_lines.py:96-113; [radius] is not zero *)
Definition model_function (model : nanvec -> nanvec) (backward : bool) (radius : R) (point : nanvec)
  : nanvec * nanvec :=
  let direction := if backward then -1 else 1 in
  let field_vector := model point in
  let scale :=
    match field_vector with
    | Some b =>
        if Rlt_dec 0 (vnorm b)
        then match point with
             | Some p => Some (direction * vnorm p / (radius * vnorm b))
             | None => None
             end
        else Some 0
    | None => Some 0             (* NaN > 0 is false *)
    end in
  (nan_scale scale field_vector, field_vector).

(** field_lines.py:116-123; comparisons with NaN are false *)
Definition did_converge (min_radius max_radius : R) (point : nanvec) : bool :=
  match point with
  | Some p => (if Rle_dec (vnorm p) min_radius then true else false)
              || (if Rle_dec max_radius (vnorm p) then true else false)
  | None => false
  end.

(** field_lines.py:126-148; the loop, [n] is the number of the remaining iterations *)
Fixpoint trace_loop (eval_model : nanvec -> nanvec * nanvec) (converged : nanvec -> bool) (step : R)
  (n : nat) (points vectors : list nanvec) (point : nanvec) : list nanvec * list nanvec * nanvec :=
  match n with
  | 0%nat => (points, vectors, point)
  | S n' =>
      let '(direction, vector) := eval_model point in
      let vectors := vectors ++ [vector] in
      let point := nan_add point (nan_scale (Some step) direction) in
      let points := points ++ [point] in
      if converged point then (points, vectors, point)
      else trace_loop eval_model converged step n' points vectors point
  end.
Definition trace_segment (eval_model : nanvec -> nanvec * nanvec) (converged : nanvec -> bool)
  (start_point : nanvec) (step : R) (max_steps : Z) : list nanvec * list nanvec :=
  let '(points, vectors, point) := trace_loop eval_model converged step (Z.to_nat max_steps) [start_point] [] start_point in
  (points, vectors ++ [snd (eval_model point)]).

(** vrotate(field, None, coords, GEOCENTRIC_CARTESIAN, output_coordinate_system), one element *)
Definition rotate_output (co : coord_type) (field coords : nanvec) : result nanvec :=
  if ct_eqb CT_GEOCENTRIC_CARTESIAN co then Ok field
  else match field, coords with
       | Some v, Some c =>
           bind (vrotate v None (Some c) (ct_number CT_GEOCENTRIC_CARTESIAN) (ct_number co)) (fun w => Ok (Some w))
       | _, _ => Ok None
       end.
Fixpoint rotate_outputs (co : coord_type) (field coords : list nanvec) : result (list nanvec) :=
  match field, coords with
  | f :: field', c :: coords' =>
      bind (rotate_output co f c) (fun w => bind (rotate_outputs co field' coords') (fun ws => Ok (w :: ws)))
  | [], [] => Ok []
  | _, _ => Err ValueError
  end.

(** field_lines.py:42-93 *)
Definition trace_field_line (model : nanvec -> nanvec) (point : vec) (ci co : coord_type)
  (radius min_radius max_radius step : R) (max_steps : Z) : result (list nanvec * list nanvec) :=
  let point := convert point ci CT_GEOCENTRIC_CARTESIAN in
  let '(coords_down, field_down) :=
    trace_segment (model_function model false radius) (did_converge min_radius max_radius) (Some point) step max_steps in
  let '(coords_up, field_up) :=
    trace_segment (model_function model true radius) (did_converge min_radius max_radius) (Some point) step max_steps in
  let coords := removelast (rev coords_up) ++ coords_down in
  let field := removelast (rev field_up) ++ field_down in
  let coords := map (option_map (fun p => convert p CT_GEOCENTRIC_CARTESIAN co)) coords in
  bind (rotate_outputs co field coords) (fun field => Ok (coords, field)).
