(** Specification of the tracing of field lines. *)

From Coq Require Import List ZArith Reals.
From Verif Require Import CoefModel GeoModel ShEvalModel CoordModel CoordSpec TraceModel.
Import ListNotations.
Open Scope R_scope.

(** The point [q] is one step from [p] along the field of [model] (against it for a negative
    step): [q - p] is the field times [step * |p| / (radius * |field|)].  There is no move where the field is
    zero, and the line is lost (NaN) where the field or the point is NaN. *)
Definition one_step (model : option vec -> option vec) (radius step : R) (p q : option vec) : Prop :=
  match model p, p with
  | Some (a, b, c), Some (x, y, z) =>
      (magnitude (a, b, c) = 0 /\ q = p) \/
      (0 < magnitude (a, b, c) /\
       let k := step * magnitude (x, y, z) / (radius * magnitude (a, b, c)) in
       q = Some (x + k * a, y + k * b, z + k * c))
  | _, _ => q = None
  end.

(** strictly between the two radii, or NaN *)
Definition within (min_radius max_radius : R) (p : option vec) : Prop :=
  match p with Some v => min_radius < magnitude v < max_radius | None => True end.
(** at or beyond one of the radii *)
Definition outside (min_radius max_radius : R) (p : option vec) : Prop :=
  match p with Some v => magnitude v <= min_radius \/ max_radius <= magnitude v | None => False end.

(** the vector [w] is the Cartesian vector [v] at the Cartesian point [p] in the frame [co] *)
Definition in_frame (co : coord_type) (p v w : option vec) : Prop :=
  match p, v with
  | Some c, Some u =>
      exists u', w = Some u' /\
        vrotate u (Some c) (Some (convert c CT_GEOCENTRIC_CARTESIAN co)) (ct_number CT_GEOCENTRIC_CARTESIAN) (ct_number co) = Ok u'
  | None, Some u => co <> CT_GEOCENTRIC_CARTESIAN -> w = None
  | _, None => w = None
  end.
