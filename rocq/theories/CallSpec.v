(** The documented calls of the functions of the extension modules, and the rules of Python for
    passing arguments by position and by name. *)
From Coq Require Import Bool List String Arith ZArith Reals.
From Verif Require Import CallModel.
Import ListNotations.
Local Open Scope string_scope.

(** What is expected of an argument: any object (converted to an array later), an integer fitting in
    the C type int, a floating point number, a text, or an object taken as a truth value *)
Inductive kind := AnObject | AnInteger | ANumber | AText | ATruth.

Inductive default := NoValue | DInteger (z : Z) | DNumber (x : R) | DTruth (b : bool).

Record parameter := { p_name : string; p_kind : kind; p_default : option default }.

Definition required (n : string) (k : kind) : parameter := {| p_name := n; p_kind := k; p_default := None |}.
Definition object (n : string) : parameter := required n AnObject.
Definition optional (n : string) (k : kind) (d : default) : parameter :=
  {| p_name := n; p_kind := k; p_default := Some d |}.

(** The documentation strings of the functions.  The defaults: GEODETIC_ABOVE_WGS84 = 0,
    GRADIENT = 2, BISECT_SIDE_LEFT = 0, INTERP1 (meaning INTERP_C1) = 1, True = 1 for an integer.
    The default of scale_gradient (1.0) is what the functions evaluate with if it is not given. *)
Definition coord_types : list parameter :=
  [optional "coord_type_in" AnInteger (DInteger 0); optional "coord_type_out" AnInteger (DInteger 0)].
Definition scales : list parameter :=
  [optional "scale_potential" ANumber (DNumber 1); optional "scale_gradient" AnObject NoValue].
Definition mode : parameter := optional "mode" AnInteger (DInteger 2).
Definition is_internal : parameter := optional "is_internal" ATruth (DTruth true).
Definition degree : parameter := optional "degree" AnInteger (DInteger (-1)).

(** The functions without flags *)
Definition documented_plain : list (string * list parameter) := [
  ("vrot_sph2cart", [object "arr_in"; object "arr_lat"; object "arr_lon"]);
  ("vrot_cart2sph", [object "arr_in"; object "arr_lat"; object "arr_lon"]);
  ("vrot_sph2geod", [object "arr_in"; object "arr_dlat"]);
  ("loncossin", [object "longitude"; required "degree" AnInteger; optional "fast_alg" AnInteger (DInteger 1)]);
  ("legendre", [object "latitude"; required "degree" AnInteger]);
  ("convert", object "arr_in" :: coord_types);
  ("bisect", [object "v"; object "x"; optional "side" AnInteger (DInteger 0)]);
  ("eval_subsol", [object "time"]);
  ("sunpos", [object "time_mjd2k"; object "lat"; object "lon"; object "rad"; object "dtt"]);
  ("sunpos_original", [object "time_mjd2k"; object "lat"; object "lon"; object "rad"; object "dtt";
                       object "pres"; object "temp"]);
  ("mjd2000_to_decimal_year", [object "time_mjd2k"]);
  ("mjd2000_to_year_fraction", [object "time_mjd2k"])].

(** The functions with a flag *)
Definition documented_flags : list (string * list parameter) := [
  ("sphargrd", [object "latitude"; object "coef"; object "leg_p"; object "leg_dp"; object "rrp"; object "lcs";
                is_internal; degree]);
  ("relradpow", [object "radius"; required "degree" AnInteger;
                 optional "reference_radius" ANumber (DNumber 6371.2); is_internal]);
  ("sheval", [object "arr_x"; object "coef"] ++ coord_types ++ [mode; is_internal; degree] ++ scales);
  ("shevaltemp", [object "arr_t"; object "arr_x"; object "coef_set_list"] ++ coord_types ++ [mode; is_internal] ++ scales);
  ("sheval2dfs", [object "arr_t1"; object "arr_t2"; object "arr_x"; object "coef_set"] ++ coord_types
                 ++ [mode; is_internal] ++ scales);
  ("interp", [object "time"; object "time0"; object "coeff0"; optional "kind" AnInteger (DInteger 1);
              optional "extrapolate" ATruth (DTruth false)]);
  ("eval_qdlatlon", [object "gclat"; object "gclon"; object "gcrad"; object "time"; required "fname" AText;
                     optional "eval_base" ATruth (DTruth false)])]%list.

(** The functions whose documentation does not match the code *)
Definition fourier2d_parameters (coeff : string) : list parameter :=
  [object "time1"; object "time2"; object coeff;
   optional "min_degree1" AnInteger (DInteger 0); optional "min_degree2" AnInteger (DInteger 0);
   optional "scale1" ANumber (DNumber 1); optional "scale2" ANumber (DNumber 1)].
Definition spharpot_parameters (rrp : string) : list parameter :=
  [object "radius"; object "coef"; object "leg_p"; object rrp; object "lcs"; degree].

Definition documented_wrongly : list (string * list parameter) := [
  ("fourier2d", fourier2d_parameters "coeff0");
  ("spharpot", spharpot_parameters "rrp");
  ("decimal_year_to_mjd2000", [object "decimal_year"]);
  ("eval_mlt", [object "qdlon"; object "time"; object "fname"])].

(** ... and what they accept *)
Definition undocumented : list (string * list parameter) := [
  ("fourier2d", fourier2d_parameters "coeff");
  ("spharpot", spharpot_parameters "rpp");
  ("decimal_year_to_mjd2000", [object "time_mjd2k"]);
  ("eval_mlt", [object "qdlon"; object "time"])].

Section Rules.
Context {obj exn : Type} (py : python obj exn).

(** The object [o] is passed for the [i]-th parameter (counted from 0), whose name is [k]: the [i]-th
    positional argument, or the keyword argument [k] if there are less of them. *)
Definition passed (args : list obj) (kwargs : list (string * obj)) (i : nat) (k : string) (o : obj) : Prop :=
  nth_error args i = Some o \/ (List.length args <= i)%nat /\ In (k, o) kwargs.

(** The rules of a call *)
Record well_called (ps : list parameter) (args : list obj) (kwargs : list (string * obj)) : Prop := {
  not_too_many : (List.length args <= List.length ps)%nat;
  known_names : forall k o, In (k, o) kwargs -> exists i p,
    nth_error ps i = Some p /\ p_name p = k /\ (List.length args <= i)%nat;  (* and not passed by position *)
  all_required : forall i p, nth_error ps i = Some p -> p_default p = None ->
    exists o, passed args kwargs i (p_name p) o
}.

(** The value of the object passed for a parameter of the given kind *)
Definition has_value (k : kind) (o : obj) (v : value obj) : Prop :=
  match k with
  | AnObject => v = Object o
  | AnInteger => exists z, long_of py o = inl z /\ (- 2 ^ 31 <= z < 2 ^ 31)%Z /\ v = Integer z
  | ANumber => exists x, double_of py o = inl x /\ v = Double x
  | AText => exists s, text_of py o = inl s /\ v = Text s
  | ATruth => exists b, truth_of py o = inl b /\ v = Flag b
  end.

(** The exception of the conversion of the object *)
Definition has_error (k : kind) (o : obj) (e : exn) : Prop :=
  match k with
  | AnObject => False
  | AnInteger => long_of py o = inr e \/
      (exists z, long_of py o = inl z /\ ~ (- 2 ^ 31 <= z < 2 ^ 31)%Z /\ e = overflow_error py)
  | ANumber => double_of py o = inr e
  | AText => text_of py o = inr e
  | ATruth => truth_of py o = inr e
  end.

Definition default_value (d : default) : value obj :=
  match d with NoValue => Missing | DInteger z => Integer z | DNumber x => Double x | DTruth b => Flag b end.

(** The values of all the parameters: those of the passed objects, and the defaults *)
Definition receives (ps : list parameter) (args : list obj) (kwargs : list (string * obj))
  (vs : list (value obj)) : Prop :=
  List.length vs = List.length ps /\
  forall i p v, nth_error ps i = Some p -> nth_error vs i = Some v ->
    (exists o, passed args kwargs i (p_name p) o /\ has_value (p_kind p) o v) \/
    ((forall o, ~ passed args kwargs i (p_name p) o) /\
     exists d, p_default p = Some d /\ v = default_value d).

(** The outcome of a call of a function with the parameters [ps].  The keywords of a call are different. *)
Definition conforms (name : string) (ps : list parameter) : Prop :=
  forall args kwargs, NoDup (map fst kwargs) ->
  exists r, call_function py name args kwargs = Some r /\
  (well_called ps args kwargs ->
    (forall i p o e, nth_error ps i = Some p -> passed args kwargs i (p_name p) o -> ~ has_error (p_kind p) o e) ->
    exists vs, r = Continues vs None /\ receives ps args kwargs vs) /\
  (well_called ps args kwargs -> forall i p o e,
    nth_error ps i = Some p -> passed args kwargs i (p_name p) o -> has_error (p_kind p) o e ->
    (forall j p' o' e', (j < i)%nat -> nth_error ps j = Some p' -> passed args kwargs j (p_name p') o' ->
                        ~ has_error (p_kind p') o' e') ->
    r = Raises e) /\
  (~ well_called ps args kwargs ->
    exists e, r = Raises e /\
      (e = type_error py \/
       exists i p o, nth_error ps i = Some p /\ passed args kwargs i (p_name p) o /\ has_error (p_kind p) o e)).

(** Every object has a truth value *)
Definition truthful : Prop := forall o, exists b, truth_of py o = inl b.

End Rules.
