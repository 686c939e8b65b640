(** The calls of the functions of the extension modules: the tables of the methods and the parsing of
    the positional and keyword arguments.

    Modelled: the keywords, the formats and the declarations of the variables of all the functions,
    CPython's PyArg_ParseTupleAndKeywords on these formats (Python/getargs.c, vgetargskeywords, of
    CPython 3.8-3.11; not a part of /repo), and the evaluation of the boolean flags by
    PyObject_IsTrue.
    Simplified: the objects, the exceptions and the conversions of the objects to the C types are
    parameters (the record [python]).  A conversion gives a value or raises an exception and has no
    other effect.  The doubles are reals.  The keywords are strings (a call cannot pass other
    ones but by **dict, which CPython refuses by the same TypeError).  The features of the formats not
    used by the functions (positional-only and keyword-only parameters, the units other than O, i, d
    and s) are left out: an unknown unit raises SystemError as a malformed format does. *)
From Coq Require Import Bool List String Ascii Arith ZArith Reals.
Import ListNotations.
Local Open Scope string_scope.

(** The types of the arguments: objects, exceptions, and the conversions of the objects *)
Record python (obj exn : Type) := {
  type_error : exn;
  overflow_error : exn;
  system_error : exn;
  long_of : obj -> Z + exn;         (* PyLong_AsLong *)
  double_of : obj -> R + exn;       (* PyFloat_AsDouble *)
  text_of : obj -> string + exn;    (* the unit s *)
  truth_of : obj -> bool + exn      (* PyObject_IsTrue *)
}.
Arguments type_error {obj exn}.
Arguments overflow_error {obj exn}.
Arguments system_error {obj exn}.
Arguments long_of {obj exn}.
Arguments double_of {obj exn}.
Arguments text_of {obj exn}.
Arguments truth_of {obj exn}.

(** The uses of a flag: (obj == NULL) || PyObject_IsTrue(obj), e.g., pymm_sheval.h:178;
    if (obj != NULL) flag = PyObject_IsTrue(obj), with the flag initialised to 0, pymm_interp.h:77,101-103;
    obj ? (1 == PyObject_IsTrue(obj)) : 0, pyqd_eval_qdlatlon.h:104. *)
Inductive flag_use := OrTrue | IfGiven | EqualsOne.

(** The declarations of the variables the arguments are stored to *)
Inductive declaration :=
| Pointer                           (* PyObject *obj = NULL *)
| CharPointer                       (* const char *s = NULL *)
| IntVariable (init : option Z)     (* int i; or int i = ... *)
| DoubleVariable (init : R)         (* double x = ... *)
| FlagObject (use : flag_use).      (* PyObject *obj = NULL, used as a flag *)

(** The values of the variables *)
Inductive value (obj : Type) :=
| Garbage                           (* not initialised *)
| Missing                           (* NULL *)
| Object (o : obj)
| Integer (z : Z)
| Double (x : R)
| Text (s : string)
| Flag (b : bool).
Arguments Garbage {obj}.
Arguments Missing {obj}.
Arguments Object {obj}.
Arguments Integer {obj}.
Arguments Double {obj}.
Arguments Text {obj}.
Arguments Flag {obj}.

Record signature := {
  keywords : list string;
  format : string;
  variables : list declaration
}.

(** The outcome of a call: the function continues with the values of the arguments, possibly with
    an exception set (and not noticed), or it returns NULL with an exception set. *)
Inductive outcome (obj exn : Type) :=
| Continues (values : list (value obj)) (pending : option exn)
| Raises (e : exn).
Arguments Continues {obj exn}.
Arguments Raises {obj exn}.

Definition INT_MIN : Z := - 2 ^ 31.
Definition INT_MAX : Z := 2 ^ 31 - 1.

Section Call.
Context {obj exn : Type} (py : python obj exn).

Definition initial (d : declaration) : value obj :=
  match d with
  | Pointer | CharPointer | FlagObject _ => Missing
  | IntVariable None => Garbage
  | IntVariable (Some z) => Integer z
  | DoubleVariable x => Double x
  end.

(** PyDict_GetItemString *)
Fixpoint item (kwargs : list (string * obj)) (k : string) : option obj :=
  match kwargs with
  | [] => None
  | (k', o) :: kwargs' => if String.eqb k' k then Some o else item kwargs' k
  end.

(** getargs.c, convertsimple: the units O, i, d, s *)
Definition convert (c : ascii) (o : obj) : value obj + exn :=
  if Ascii.eqb c "O" then inl (Object o)
  else if Ascii.eqb c "i" then
    match long_of py o with
    | inr e => inr e
    | inl z => if (INT_MAX <? z)%Z then inr (overflow_error py)
               else if (z <? INT_MIN)%Z then inr (overflow_error py)
               else inl (Integer z)
    end
  else if Ascii.eqb c "d" then
    match double_of py o with inr e => inr e | inl x => inl (Double x) end
  else if Ascii.eqb c "s" then
    match text_of py o with inr e => inr e | inl s => inl (Text s) end
  else inr (system_error py).

(** getargs.c, vgetargskeywords, behind the loop: the leftover keywords; the values of
    the variables are [vs]. *)
Definition leftovers (fmt : string) (kwlist : list string) (args : list obj)
  (kwargs : list (string * obj)) (nkwargs : nat) (vs : list (value obj)) : list (value obj) + exn :=
  if negb (String.eqb fmt "" || String.prefix "|" fmt) then inr (system_error py)
  else if Nat.ltb 0 nkwargs then
    if existsb (fun k => match item kwargs k with Some _ => true | None => false end)
               (firstn (List.length args) kwlist)
    then inr (type_error py)    (* given by name and position *)
    else if existsb (fun kv => negb (existsb (String.eqb (fst kv)) kwlist)) kwargs
    then inr (type_error py)    (* an invalid keyword argument *)
    else inl vs
  else inl vs.

(** getargs.c, vgetargskeywords, the bar: *)
Definition bar (i : nat) (min : option nat) (fmt : string) : option (option nat * string) :=
  match fmt with
  | String c fmt' =>
      if Ascii.eqb c "|" then match min with None => Some (Some i, fmt') | Some _ => None end
      else Some (min, fmt)
  | EmptyString => Some (min, fmt)
  end.

(** getargs.c, vgetargskeywords, the loop over the keywords: [i] is the index of the first of [ks],
    [ds] the variables of [ks], [vs] the values of the previous ones, [min] the number of the
    required arguments, None before the bar is met (INT_MAX). *)
Fixpoint scan (kwlist : list string) (args : list obj) (kwargs : list (string * obj))
  (ks : list string) (ds : list declaration) (fmt : string) (i nkwargs : nat) (min : option nat)
  (vs : list (value obj)) : list (value obj) + exn :=
  match ks, ds with
  | k :: ks', d :: ds' =>
      match bar i min fmt with
      | None => inr (system_error py)
      | Some (min', fmt1) =>
          match fmt1 with
          | EmptyString => inr (system_error py)
          | String c fmt' =>
              let '(current, nkwargs') :=
                match nth_error args i with
                | Some o => (Some o, nkwargs)
                | None => if Nat.ltb 0 nkwargs then
                            match item kwargs k with
                            | Some o => (Some o, pred nkwargs)
                            | None => (None, nkwargs)
                            end
                          else (None, nkwargs)
                end in
              match current with
              | Some o =>
                  match convert c o with
                  | inr e => inr e
                  | inl v => scan kwlist args kwargs ks' ds' fmt' (S i) nkwargs' min' (vs ++ [v])
                  end
              | None =>
                  if (match min' with None => true | Some m => Nat.ltb i m end)
                  then inr (type_error py)           (* missing required argument *)
                  else if Nat.eqb nkwargs' 0
                  then inl (vs ++ map initial ds)%list    (* nothing else is given *)
                  else scan kwlist args kwargs ks' ds' fmt' (S i) nkwargs' min' (vs ++ [initial d])
              end
          end
      end
  | _, _ => leftovers fmt kwlist args kwargs nkwargs vs
  end.

(** PyArg_ParseTupleAndKeywords: getargs.c, vgetargskeywords *)
Definition parse (s : signature) (args : list obj) (kwargs : list (string * obj)) : list (value obj) + exn :=
  if Nat.ltb (List.length (keywords s)) (List.length args + List.length kwargs)
  then inr (type_error py)                           (* takes at most ... arguments *)
  else scan (keywords s) args kwargs (keywords s) (variables s) (format s) 0 (List.length kwargs) None [].

(** The evaluation of the flags; PyObject_IsTrue returns -1 and sets the exception if it fails,
    none of the functions checks that. *)
Definition is_true (o : obj) : Z * option exn :=
  match truth_of py o with inl true => (1%Z, None) | inl false => (0%Z, None) | inr e => ((-1)%Z, Some e) end.

Definition use_flag (u : flag_use) (v : value obj) : value obj * option exn :=
  match v with
  | Object o =>
      let '(z, e) := is_true o in
      (Flag (match u with
             | OrTrue => negb (Z.eqb z 0)
             | IfGiven => negb (Z.eqb z 0)           (* used as a condition *)
             | EqualsOne => Z.eqb 1 z
             end), e)
  | _ => (Flag (match u with OrTrue => true | IfGiven | EqualsOne => false end), None)
  end.

Fixpoint use_flags (ds : list declaration) (vs : list (value obj)) (pending : option exn)
  : list (value obj) * option exn :=
  match ds, vs with
  | d :: ds', v :: vs' =>
      let '(v', e) := match d with FlagObject u => use_flag u v | _ => (v, None) end in
      let '(vs1, e1) := use_flags ds' vs' (match e with Some _ => e | None => pending end) in
      (v' :: vs1, e1)
  | _, _ => (vs, pending)
  end.

(** The beginning of each of the functions: the parsing of the arguments and the flags *)
Definition call (s : signature) (args : list obj) (kwargs : list (string * obj)) : outcome obj exn :=
  match parse s args kwargs with
  | inr e => Raises e
  | inl vs => let '(vs', e) := use_flags (variables s) vs None in Continues vs' e
  end.

End Call.

Definition int_ (z : Z) : declaration := IntVariable (Some z).
Definition is_internal_flag : declaration := FlagObject OrTrue.

(** pymm_bisect.h:36,61-75 *)
Definition bisect_signature : signature := {|
  keywords := ["v"; "x"; "side"];
  format := "OO|i";
  variables := [Pointer; Pointer; int_ 0] |}.

(** pymm_cconv.h:150-162, pymm_coord.h:35 *)
Definition convert_signature : signature := {|
  keywords := ["arr_in"; "coord_type_in"; "coord_type_out"];
  format := "O|ii";
  variables := [Pointer; int_ 0; int_ 0] |}.

(** pymm_fourier2d.h:106-133 *)
Definition fourier2d_signature : signature := {|
  keywords := ["time1"; "time2"; "coeff"; "min_degree1"; "min_degree2"; "scale1"; "scale2"];
  format := "OOO|iidd";
  variables := [Pointer; Pointer; Pointer; int_ 0; int_ 0; DoubleVariable 1; DoubleVariable 1] |}.

(** pymm_interp.h:38,73-103 *)
Definition interp_signature : signature := {|
  keywords := ["time"; "time0"; "coeff0"; "kind"; "extrapolate"];
  format := "OOO|iO";
  variables := [Pointer; Pointer; Pointer; int_ 1; FlagObject IfGiven] |}.

(** pymm_legendre.h:67-82 *)
Definition legendre_signature : signature := {|
  keywords := ["latitude"; "degree"];
  format := "Oi";
  variables := [Pointer; IntVariable None] |}.

(** pymm_loncossin.h:57-70 *)
Definition loncossin_signature : signature := {|
  keywords := ["longitude"; "degree"; "fast_alg"];
  format := "Oi|i";
  variables := [Pointer; IntVariable None; int_ 1] |}.

(** pymm_relradpow.h:38,71-91 *)
Definition relradpow_signature : signature := {|
  keywords := ["radius"; "degree"; "reference_radius"; "is_internal"];
  format := "Oi|dO";
  variables := [Pointer; IntVariable None; DoubleVariable (63712 / 10); is_internal_flag] |}.

(** pymm_sheval.h:63,146-178 *)
Definition sheval_signature : signature := {|
  keywords := ["arr_x"; "coef"; "coord_type_in"; "coord_type_out"; "mode"; "is_internal"; "degree";
               "scale_potential"; "scale_gradient"];
  format := "OO|iiiOidO";
  variables := [Pointer; Pointer; int_ 0; int_ 0; int_ 2; is_internal_flag; int_ (-1); DoubleVariable 1;
                Pointer] |}.

(** pymm_shevaltemp.h:169-202 *)
Definition shevaltemp_signature : signature := {|
  keywords := ["arr_t"; "arr_x"; "coef_set_list"; "coord_type_in"; "coord_type_out"; "mode";
               "is_internal"; "scale_potential"; "scale_gradient"];
  format := "OOO|iiiOdO";
  variables := [Pointer; Pointer; Pointer; int_ 0; int_ 0; int_ 2; is_internal_flag; DoubleVariable 1;
                Pointer] |}.

(** pymm_sheval2dfs.h:152-187 *)
Definition sheval2dfs_signature : signature := {|
  keywords := ["arr_t1"; "arr_t2"; "arr_x"; "coef_set"; "coord_type_in"; "coord_type_out"; "mode";
               "is_internal"; "scale_potential"; "scale_gradient"];
  format := "OOOO|iiiOdO";
  variables := [Pointer; Pointer; Pointer; Pointer; int_ 0; int_ 0; int_ 2; is_internal_flag;
                DoubleVariable 1; Pointer] |}.

(** pymm_sphargrd.h:71-103 *)
Definition sphargrd_signature : signature := {|
  keywords := ["latitude"; "coef"; "leg_p"; "leg_dp"; "rrp"; "lcs"; "is_internal"; "degree"];
  format := "OOOOOO|Oi";
  variables := [Pointer; Pointer; Pointer; Pointer; Pointer; Pointer; is_internal_flag; int_ (-1)] |}.

(** pymm_spharpot.h:67-92 *)
Definition spharpot_signature : signature := {|
  keywords := ["radius"; "coef"; "leg_p"; "rpp"; "lcs"; "degree"];
  format := "OOOOO|i";
  variables := [Pointer; Pointer; Pointer; Pointer; Pointer; int_ (-1)] |}.

(** pymm_vrot_sph2cart.h:94-110, pymm_vrot_cart2sph.h:94-110 *)
Definition vrot_cart_signature : signature := {|
  keywords := ["arr_in"; "arr_lat"; "arr_lon"];
  format := "OOO|";
  variables := [Pointer; Pointer; Pointer] |}.

(** pymm_vrot_sph2geod.h:90-103 *)
Definition vrot_sph2geod_signature : signature := {|
  keywords := ["arr_in"; "arr_dlat"];
  format := "OO|";
  variables := [Pointer; Pointer] |}.

(** pyqd_eval_mlt.h:51-64 *)
Definition eval_mlt_signature : signature := {|
  keywords := ["qdlon"; "time"];
  format := "OO";
  variables := [Pointer; Pointer] |}.

(** pyqd_eval_qdlatlon.h:61-104 *)
Definition eval_qdlatlon_signature : signature := {|
  keywords := ["gclat"; "gclon"; "gcrad"; "time"; "fname"; "eval_base"];
  format := "OOOOs|O";
  variables := [Pointer; Pointer; Pointer; Pointer; CharPointer; FlagObject EqualsOne] |}.

(** pyqd_eval_subsol.h:51-63 *)
Definition eval_subsol_signature : signature := {|
  keywords := ["time"];
  format := "O";
  variables := [Pointer] |}.

(** pysunpos.h:126-148 *)
Definition sunpos_signature : signature := {|
  keywords := ["time_mjd2k"; "lat"; "lon"; "rad"; "dtt"];
  format := "OOOOO|";
  variables := [Pointer; Pointer; Pointer; Pointer; Pointer] |}.

(** pysunpos_original.h:139-166 *)
Definition sunpos_original_signature : signature := {|
  keywords := ["time_mjd2k"; "lat"; "lon"; "rad"; "dtt"; "pres"; "temp"];
  format := "OOOOOOO";
  variables := [Pointer; Pointer; Pointer; Pointer; Pointer; Pointer; Pointer] |}.

(** pytimeconv_mjd2000_to_decimal_year.h:78-88, pytimeconv_mjd2000_to_year_fraction.h:78-88,
    pytimeconv_decimal_year_to_mjd2000.h:78-88 *)
Definition time_signature : signature := {|
  keywords := ["time_mjd2k"];
  format := "O|";
  variables := [Pointer] |}.

(** The methods of the modules: pymm.c:86-103, pyqd.c:61-66, pysunpos.c:53-57, pytimeconv.c:54-59; all
    of them METH_VARARGS|METH_KEYWORDS *)
Definition methods : list (string * signature) := [
  ("vrot_sph2cart", vrot_cart_signature);
  ("vrot_cart2sph", vrot_cart_signature);
  ("vrot_sph2geod", vrot_sph2geod_signature);
  ("spharpot", spharpot_signature);
  ("sphargrd", sphargrd_signature);
  ("loncossin", loncossin_signature);
  ("relradpow", relradpow_signature);
  ("legendre", legendre_signature);
  ("sheval", sheval_signature);
  ("shevaltemp", shevaltemp_signature);
  ("sheval2dfs", sheval2dfs_signature);
  ("convert", convert_signature);
  ("bisect", bisect_signature);
  ("interp", interp_signature);
  ("fourier2d", fourier2d_signature);
  ("eval_qdlatlon", eval_qdlatlon_signature);
  ("eval_mlt", eval_mlt_signature);
  ("eval_subsol", eval_subsol_signature);
  ("sunpos", sunpos_signature);
  ("sunpos_original", sunpos_original_signature);
  ("mjd2000_to_decimal_year", time_signature);
  ("mjd2000_to_year_fraction", time_signature);
  ("decimal_year_to_mjd2000", time_signature)].

(** The call of the function of the given name; None: there is none of that name *)
Definition call_function {obj exn} (py : python obj exn) (name : string) (args : list obj)
  (kwargs : list (string * obj)) : option (outcome obj exn) :=
  match find (fun m => String.eqb (fst m) name) methods with
  | Some (_, s) => Some (call py s args kwargs)
  | None => None
  end.
