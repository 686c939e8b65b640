(** The MMA models from the files to the field: the loaders of loader_mma.py (MmaModel) and eval of the models, in the geographic
    frame (SphericalHarmomicGeomagneticModel, FieldModel) and in the dipole one (DipoleSphericalHarmomicGeomagneticModel). *)
From Coq Require Import Bool List ZArith Reals.
From Coquelicot Require Import Rbar.
From Verif Require Import Ord ROrd RbarOrd IntervalsModel ArrModel CoefModel LegendreModel GeoModel ShEvalModel ShEvalSpec SparseModel SeriesModel
  CoordModel TempModel FieldModel MmaModel.
Import ListNotations.
Open Scope R_scope.

(** model.py:227-273, DipoleSphericalHarmomicGeomagneticModel; the components are those of model.py:71-101 *)
Section Dipole.
Variables (internal : bool) (min_degree max_degree : Z) (lat_ngp lon_ngp : R) (ci co : coord_type) (scale : option vec3)
  (mem : arr * arr * coefs * arr * arr * arr).

(** model.py:242-273, _eval with the method _eval_interpolated.  The option scale is removed before: the inner evaluation has the
    scale 1.  The converted positions and the rotated vectors are given element by element, as in C43 and C44. *)
Definition dipole_eval (items : list leaf_set) (time : nd R) (location : nd vec3) : result (list nat * list (option vec3)) :=
  let location_dipole := {| dims := dims location; get := fun ix => convert_to_dipole (get location ix) lat_ngp lon_ngp ci |} in
  match eval_interpolated items internal min_degree max_degree time location_dipole
          CT_GEOCENTRIC_SPHERICAL CT_GEOCENTRIC_SPHERICAL (1, 1, 1) mem with
  | Err e => Err e
  | Ok (odims, out) =>
      Ok (odims, map (fun '(ix, o) =>
            match snd o with
            | Some v =>
                let v := rotate_vectors_from_dipole v lat_ngp lon_ngp (at_index location_dipole ix) (at_index location ix) ci co in
                Some (match scale with Some s => vmul v s | None => v end)
            | None => None                               (* not reached: the gradient is requested *)
            end) (combine (indices odims) out))
  end.

(** model.py:143-148, a scalar time *)
Fixpoint dipole_scalar (components : list ((Rbar * Rbar) * list leaf_set)) (time : option R) (location : nd vec3)
  : result (list nat * list (option vec3)) :=
  match components with
  | [] => Ok (dims location, map (fun _ => None) (indices (dims location)))
  | (validity, items) :: rest =>
      if time_valid validity time
      then dipole_eval items (nd0 (match time with Some u => u | None => 0 end)) location
      else dipole_scalar rest time location
  end.

(** model.py:150-157, arrays of times and positions given by their elements, as in FieldModel *)
Fixpoint dipole_array (components : list ((Rbar * Rbar) * list leaf_set)) (base : list (option vec3)) (txs : list (option R * vec3))
  : result (list (option vec3)) :=
  match components with
  | [] => Ok base
  | (validity, items) :: rest =>
      let mask := map (fun tx => time_valid validity (fst tx)) txs in
      let selected := select mask txs in
      match dipole_eval items (vector 0 (map (fun tx => match fst tx with Some u => u | None => 0 end) selected))
              (vector (0, 0, 0) (map snd selected)) with
      | Err e => Err e
      | Ok (_, out) => dipole_array rest (scatter (fun _ v => v) mask base out) txs
      end
  end.
End Dipole.

(** The sets as they are evaluated: the times are in days, there is no conversion (coefficients.py:433-451) *)
Definition mma_leaf (td : @time_dependent R R) : leaf_set := (td, None).
Definition mma_validity (td : @time_dependent R R) : Rbar * Rbar := (Finite (fst (td_validity td)), Finite (snd (td_validity td))).

(** loader_mma.py:91-125: the components of the 2F models *)
Definition mma_components (td : @time_dependent R R) : list ((Rbar * Rbar) * list leaf_set) := [(mma_validity td, [mma_leaf td])].

(** loader_mma.py:70-88 and coefficients.py:237-246: the components of the 2C models, the two sets with their common validity, none if there
    is no common time *)
Definition mma_2c_components (s : @time_dependent R R * @time_dependent R R) : option (list ((Rbar * Rbar) * list leaf_set)) :=
  fold_left (fun aggregates td => Some (aggregate_intersected_intervals [(mma_validity td, mma_leaf td)] aggregates)) [fst s; snd s] None.

(** loader_mma.py:62-64 *)
Definition MMA2C_NGP_LATITUDE : R := 90 - 9.92.
Definition MMA2C_NGP_LONGITUDE : R := 287.78 - 360.
