(** Specification of the composed model. *)

From Coq Require Import List ZArith Reals String.
From Verif Require Import Ord CoefModel GeoModel ShEvalModel ShEvalSpec CoordModel ComposedModel.
Import ListNotations.
Open Scope R_scope.

Section Spec.
Context {T : Type} {OT : TOrd T} {IT : TInf T} {V : Type}.

(** The field of a model at one time and one position in spherical coordinates for the given
    options and the given scale, in the spherical frame; None is NaN. *)
Definition field := (string -> option V) -> option vec -> option T -> vec -> option vec.

(** The model evaluates the field element by element for times whose dimensions are the first
    ones of the locations. *)
Definition evaluates (m : @gmodel T V) (f : field) : Prop :=
  forall time loc scale opts, prefix (dims time) (dims loc) ->
    exists r, g_eval m time loc CT_GEOCENTRIC_SPHERICAL CT_GEOCENTRIC_SPHERICAL scale opts = Ok r /\
      dims r = dims loc /\
      forall ix, List.length ix = List.length (dims loc) -> get r ix = f opts scale (at_index time ix) (get loc ix).

(** One push: the model with its field, its scale and its parameters *)
Record pushed := { p_model : @gmodel T V; p_field : field; p_scale : vec; p_parameters : string -> option V }.
(** The composed model after a sequence of pushes *)
Definition after (ps : list pushed) : composed :=
  fold_left (fun c p => push c (p_model p) (p_scale p) (p_parameters p)) ps composed_empty.

(** own options override the common ones *)
Definition overriding (own common : string -> option V) : string -> option V :=
  fun name => match own name with Some v => Some v | None => common name end.

(** The sum of vectors, NaN if one of them is NaN *)
Fixpoint total (l : list (option vec)) : option vec :=
  match l with
  | [] => Some (0, 0, 0)
  | None :: _ => None
  | Some (a, b, c) :: l' =>
      match total l' with Some (a', b', c') => Some (a + a', b + b', c + c') | None => None end
  end.

(** The sum of the fields of the components at a time and a position [x] (in the system [ci]),
    in the spherical frame *)
Definition sum_of_fields (ps : list pushed) (common : string -> option V) (ci : coord_type) (t : option T) (x : vec)
  : option vec :=
  total (map (fun p => p_field p (overriding (p_parameters p) common) (Some (p_scale p)) t
                         (convert x ci CT_GEOCENTRIC_SPHERICAL)) ps).

(** a vector times the scale (component by component), if there is one *)
Definition rescaled (s : option vec) (v : vec) : vec :=
  match s with
  | None => v
  | Some (s0, s1, s2) => let '(a, b, c) := v in (a * s0, b * s1, c * s2)
  end.

(** [out] is the vector [v] of the spherical frame at the position [x] (in the system [ci]),
    rotated to the frame [co] and rescaled *)
Definition delivered (ci co : coord_type) (x : vec) (s : option vec) (v out : option vec) : Prop :=
  match v with
  | None => out = None
  | Some u => exists w,
      vrotate u (Some (convert x ci CT_GEOCENTRIC_SPHERICAL)) (Some (convert x ci co))
        (ct_number CT_GEOCENTRIC_SPHERICAL) (ct_number co) = Ok w /\
      out = Some (rescaled s w)
  end.

(** an instant in a validity range *)
Definition in_range (t : T) (validity : T * T) : Prop := le (fst validity) t /\ le t (snd validity).

End Spec.
