(** Model of the composed model: magnetic_model/model_composed.py.

    Any object with the interface of GeomagneticModel can be pushed, so the models are records of
    what the composed model uses of them: the validity, the names of the parameters and the
    method eval.  The arrays are the [nd] of ShEvalModel: the dimensions do not include the last
    one (of size 3) of the locations and vectors; [None] is the NaN time or the NaN vector.
    The keyword options are dictionaries of values of any type, except for the option scale,
    which is a number or three numbers (here always three).  A push with the parameters
    input_coordinate_system or output_coordinate_system is not modelled. *)

From Coq Require Import Bool List ZArith Reals String.
From Verif Require Import Ord CoefModel ArrModel GeoModel ShEvalModel CoordModel.
Import ListNotations.
Open Scope R_scope.

Section Composed.
Context {T : Type} {OT : TOrd T} {IT : TInf T} {V : Type}.

(** a Python dictionary of options *)
Definition dict := string -> option V.
(** d.update(e) *)
Definition dict_update (d e : dict) : dict :=
  fun k => match e k with Some v => Some v | None => d k end.

(** model.py:56-87, the interface; the absent option scale is None *)
Record gmodel := {
  g_validity : T * T;
  g_parameters : list string;
  g_eval : nd (option T) -> nd vec -> coord_type -> coord_type -> option vec -> dict -> result (nd (option vec))
}.

(** model_composed.py:39 *)
Record component := { cp_model : gmodel; cp_scale : vec; cp_parameters : dict }.
(** model_composed.py:58-60, the attributes *)
Record composed := { c_parameters : list string; c_components : list component; c_validity : T * T }.

(** model_composed.py:42-49 *)
Definition validity_overlap (validity1 validity2 : T * T) : T * T :=
  let start := tmax (fst validity1) (fst validity2) in
  let end_ := tmin (snd validity1) (snd validity2) in
  if ltb end_ start then (ninf, ninf) else (start, end_).

(** model_composed.py:57-60 *)
Definition composed_empty : composed :=
  {| c_parameters := ["time"; "location"]%string; c_components := []; c_validity := (ninf, pinf) |}.
(** model_composed.py:64-68; the set of the parameters is a list here *)
Definition push (self : composed) (model : gmodel) (scale : vec) (parameters : dict) : composed :=
  {| c_parameters := c_parameters self ++ g_parameters model;
     c_validity := validity_overlap (c_validity self) (g_validity model);
     c_components := c_components self ++ [{| cp_model := model; cp_scale := scale; cp_parameters := parameters |}] |}.
(** model_composed.py:57-62 *)
Definition composed_init (models : list gmodel) : composed :=
  fold_left (fun self model => push self model (1, 1, 1) (fun _ => None)) models composed_empty.

(** ** Arrays *)
(** a function applied to all elements *)
Definition nd_apply {A B} (f : A -> B) (a : nd A) : nd B := {| dims := dims a; get := fun ix => f (get a ix) |}.
Definition vplus (a b : vec) : vec :=
  let '(a0, a1, a2) := a in let '(b0, b1, b2) := b in (a0 + b0, a1 + b1, a2 + b2).
Definition nan_plus (a b : option vec) : option vec :=
  match a, b with Some x, Some y => Some (vplus x y) | _, _ => None end.
Fixpoint dims_eqb (a b : list nat) : bool :=
  match a, b with
  | [], [] => true
  | x :: a', y :: b' => Nat.eqb x y && dims_eqb a' b'
  | _, _ => false
  end.
Fixpoint prefixb (a b : list nat) : bool :=
  match a, b with
  | [], _ => true
  | x :: a', y :: b' => Nat.eqb x y && prefixb a' b'
  | _, _ => false
  end.
(** result += other, for arrays of the same shape; the broadcasting of NumPy for other shapes,
    which the models do not return, is not modelled *)
Definition nd_iadd (a b : nd (option vec)) : result (nd (option vec)) :=
  if dims_eqb (dims a) (dims b)
  then Ok {| dims := dims a; get := fun ix => nan_plus (get a ix) (get b ix) |}
  else Err ValueError.
(** the element of an array of angles used by the vrot_* functions for a vector: an array without
    dimensions is used for all vectors (_get_arrd_item, pymm_aux.h:305-321) *)
Definition angle_at {A} (a : nd A) (ix : list nat) : A := get a (firstn (List.length (dims a)) ix).
(** vrot_* of arrays with the check of the shapes, pymm_vrot_common.h:37-63 *)
Definition vrot_arrays {A} (rot : vec -> A -> vec) (vectors : nd (option vec)) (angles : nd A)
  : result (nd (option vec)) :=
  if negb (Nat.eqb (List.length (dims angles)) 0) && negb (dims_eqb (dims vectors) (dims angles))
  then Err ValueError
  else Ok {| dims := dims vectors; get := fun ix => option_map (fun v => rot v (angle_at angles ix)) (get vectors ix) |}.

Definition latitude (v : vec) : R := let '(lat, _, _) := v in lat.
Definition longitude (v : vec) : R := let '(_, lon, _) := v in lon.

(** model_composed.py:107-111; result[isnan(time), :] = nan raises IndexError unless the
    dimensions of the times are the first ones of the result *)
Definition zeros_nan (time : nd (option T)) (location : nd vec) : result (nd (option vec)) :=
  let shape := if Nat.ltb (List.length (dims location)) (List.length (dims time)) then dims time else dims location in
  if prefixb (dims time) shape
  then Ok {| dims := shape;
             get := fun ix => match get time (firstn (List.length (dims time)) ix) with
                              | None => None
                              | Some _ => Some (0, 0, 0)
                              end |}
  else Err IndexError.

(** model_composed.py:79-129 *)
Definition composed_eval (self : composed) (time : nd (option T)) (location : nd vec)
  (input_coordinate_system output_coordinate_system : coord_type) (final_scale : option vec) (options : dict)
  : result (nd (option vec)) :=
  let coord_sph := nd_apply (fun v => convert v input_coordinate_system CT_GEOCENTRIC_SPHERICAL) location in
  let call (c : component) :=
    g_eval (cp_model c) time coord_sph CT_GEOCENTRIC_SPHERICAL CT_GEOCENTRIC_SPHERICAL
      (Some (cp_scale c)) (dict_update options (cp_parameters c)) in
  bind (match c_components self with
        | c :: cs =>
            fold_left (fun acc c => bind acc (fun result => bind (call c) (fun other => nd_iadd result other)))
              cs (call c)
        | [] => zeros_nan time location
        end)
    (fun result =>
  bind (if ct_eqb output_coordinate_system CT_GEODETIC_ABOVE_WGS84 then
          let coord_out :=
            if ct_eqb input_coordinate_system CT_GEODETIC_ABOVE_WGS84 then location
            else nd_apply (fun v => convert v CT_GEOCENTRIC_SPHERICAL CT_GEODETIC_ABOVE_WGS84) coord_sph in
          vrot_arrays vrot_sph2geod result
            {| dims := dims location; get := fun ix => latitude (get coord_out ix) - latitude (get coord_sph ix) |}
        else if ct_eqb output_coordinate_system CT_GEOCENTRIC_CARTESIAN then
          vrot_arrays (fun v a => vrot_sph2cart v (latitude a) (longitude a)) result coord_sph
        else Ok result)
    (fun result =>
  Ok (match final_scale with
      | None => result
      | Some s => nd_apply (option_map (fun v => vmul v s)) result
      end))).

(** a composed model is a model *)
Definition composed_model (self : composed) : gmodel :=
  {| g_validity := c_validity self; g_parameters := c_parameters self; g_eval := composed_eval self |}.

(** SphericalHarmomicGeomagneticModel with constant coefficients of unlimited validity
    (model.py:121-157, 222-232), element by element: the evaluation of arrays by sheval is the
    subject of C20, the selection by time of C09-C11, the shapes (util.py:66-94) of C58. *)
Definition constant_eval (csize : Z) (coef : coefs) (internal : bool) (degree : Z)
  (mem : arr * arr * coefs * arr * arr * arr) (ci co : coord_type) (scale : option vec) (t : option T) (x : vec)
  : option vec :=
  match t with
  | None => None
  | Some _ =>
      let '(s0, s1, s2) := match scale with Some s => s | None => (1, 1, 1) end in
      match sheval {| dims := []; get := fun _ => x |} csize {| dims := []; get := fun _ => coef |}
              ci co SM_GRADIENT internal degree 1 (- s0, - s1, - s2) mem with
      | Ok ([], [(None, g)]) => g
      | _ => None                      (* not reached *)
      end
  end.
Definition constant_model (csize : Z) (coef : coefs) (internal : bool) (degree : Z)
  (mem : arr * arr * coefs * arr * arr * arr) : gmodel :=
  {| g_validity := (ninf, pinf); g_parameters := ["time"; "location"]%string;
     g_eval := fun time location ci co scale _ =>
       if prefixb (dims time) (dims location) then
         Ok {| dims := dims location;
               get := fun ix => constant_eval csize coef internal degree mem ci co scale
                                  (get time (firstn (List.length (dims time)) ix)) (get location ix) |}
       else if prefixb (dims location) (dims time) then Err TypeError
       else Err ValueError |}.

End Composed.
