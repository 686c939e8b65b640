(** The coefficient sets passed to shevaltemp and sheval2dfs as Python tuples: the checks of the list
    and of the tuples and the parsing of their scalar items.

    Simplified: the objects are a parameter; the record [objects] holds what the checks of the types
    (PyList_Check, PyTuple_Check, PyLong_Check, PyFloat_Check) and the conversions find out.  The
    integers of Python are of any size.  The arrays of a set (their conversion, the checks of
    the shapes and the initialisation of the set: pymm_shevaltemp.h:423-449,
    pymm_sheval2dfs.h:716-744, modelled in StridedEvalModel and ResModel) are the functions
    [load_set] and [load_set_2dfs], which give a loaded set or an exception.  The doubles are reals. *)
From Coq Require Import Bool List Arith ZArith Reals.
Import ListNotations.

Record objects (obj exn A : Type) := {
  value_error : exn;
  overflow_error : exn;
  list_items : obj -> option (list obj);     (* PyList_Check, PyList_GetItem *)
  tuple_items : obj -> option (list obj);    (* PyTuple_Check, PyTuple_GetItem *)
  int_of : obj -> option Z;                  (* PyLong_Check and the integer *)
  float_of : obj -> option R;                (* PyFloat_Check and the number *)
  equal_int : obj -> option Z;               (* the integer the object is equal to, as a key of a dict *)
  load_set : obj -> obj -> obj -> Z -> A + exn;
  load_set_2dfs : obj -> obj -> Z -> Z -> R -> R -> A + exn
}.
Arguments value_error {obj exn A}.
Arguments overflow_error {obj exn A}.
Arguments list_items {obj exn A}.
Arguments tuple_items {obj exn A}.
Arguments int_of {obj exn A}.
Arguments float_of {obj exn A}.
Arguments equal_int {obj exn A}.
Arguments load_set {obj exn A}.
Arguments load_set_2dfs {obj exn A}.

Definition LONG_MIN : Z := - 2 ^ 63.
Definition LONG_MAX : Z := 2 ^ 63 - 1.

Section Tuples.
Context {obj exn A : Type} (py : objects obj exn A).

(** pymm_aux.h:36-52, _parse_long_value; [pending] is the exception set before, if any (by
    PyObject_IsTrue, pymm_shevaltemp.h:202) *)
Definition parse_long_value (pending : option exn) (o : obj) : Z + exn :=
  match int_of py o with
  | None => inr (value_error py)
  | Some z =>
      if (z <? LONG_MIN)%Z || (LONG_MAX <? z)%Z then inr (overflow_error py)
      else match pending with Some e => inr e | None => inl z end
  end.

(** The cast of a long to an int: (int)value *)
Definition int_cast (z : Z) : Z := ((z + 2 ^ 31) mod 2 ^ 32 - 2 ^ 31)%Z.

(** pymm_aux.h:58-74, _parse_int_value *)
Definition parse_int_value (pending : option exn) (o : obj) : Z + exn :=
  match parse_long_value pending o with
  | inr e => inr e
  | inl value => if negb (Z.eqb (int_cast value) value) then inr (value_error py) else inl (int_cast value)
  end.

(** pymm_aux.h:80-96, _parse_double_value *)
Definition parse_double_value (pending : option exn) (o : obj) : R + exn :=
  match float_of py o with
  | None => inr (value_error py)
  | Some x => match pending with Some e => inr e | None => inl x end
  end.

(** pymm_shevaltemp.h:371-459, parse_coefset *)
Definition parse_coefset (pending : option exn) (item : obj) : A + exn :=
  match tuple_items py item with
  | None => inr (value_error py)                                         (* 390-394 *)
  | Some items =>
      if negb (Nat.eqb (length items) 4) then inr (value_error py)       (* 396-400 *)
      else match items with
      | [ct; cv; cm; so] =>                                              (* 403-410 *)
          match parse_int_value pending so with                          (* 412-415 *)
          | inr e => inr e
          | inl spline_order =>
              if (spline_order <? 1)%Z || (2 <? spline_order)%Z then inr (value_error py)   (* 417-421 *)
              else load_set py ct cv cm spline_order                     (* 423-449 *)
          end
      | _ => inr (value_error py)                                        (* not reached *)
      end
  end.

(** pymm_shevaltemp.h:235-246, the loop *)
Fixpoint parse_coefsets (pending : option exn) (items : list obj) : list A + exn :=
  match items with
  | [] => inl []
  | item :: items' =>
      match parse_coefset pending item with
      | inr e => inr e
      | inl s => match parse_coefsets pending items' with inr e => inr e | inl l => inl (s :: l) end
      end
  end.

(** pymm_shevaltemp.h:215-246 *)
Definition parse_coef_set_list (pending : option exn) (o : obj) : list A + exn :=
  match list_items py o with
  | None => inr (value_error py)                                         (* 216-220 *)
  | Some items =>
      if Nat.ltb (length items) 1 then inr (value_error py)              (* 222-226 *)
      else if Nat.ltb 16 (length items) then inr (value_error py)        (* 228-232 *)
      else parse_coefsets pending items
  end.

(** pymm_sheval2dfs.h:659-757, _f2d_coefset_parse *)
Definition f2d_coefset_parse (pending : option exn) (o : obj) : A + exn :=
  match tuple_items py o with
  | None => inr (value_error py)                                         (* 683-687 *)
  | Some items =>
      if negb (Nat.eqb (length items) 6) then inr (value_error py)       (* 689-693 *)
      else match items with
      | [ab; cm; o1; o2; s1; s2] =>
          match parse_long_value pending o1 with                         (* 703-705 *)
          | inr e => inr e
          | inl min_degree1 =>
          match parse_long_value pending o2 with                         (* 707-709 *)
          | inr e => inr e
          | inl min_degree2 =>
          match parse_double_value pending s1 with                       (* 711-713 *)
          | inr e => inr e
          | inl scale1 =>
          match parse_double_value pending s2 with                       (* 715-717 *)
          | inr e => inr e
          | inl scale2 => load_set_2dfs py ab cm min_degree1 min_degree2 scale1 scale2
          end end end end
      | _ => inr (value_error py)                                        (* not reached *)
      end
  end.

(** magnetic_model/coefficients.py:453-459, the constructor of SparseSHCoefficientsTimeDependent: the
    lookup of the spline order in the dictionary; the kind of the interpolation *)
Definition constructor_order (spline_order : obj) : Z + exn :=
  match equal_int py spline_order with
  | Some 1%Z => inl 0x00%Z                                               (* INTERP_C0 *)
  | Some 2%Z => inl 0x01%Z                                               (* INTERP_C1 *)
  | _ => inr (value_error py)                                            (* KeyError *)
  end.

End Tuples.
