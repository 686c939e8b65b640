(** Which lists and tuples of coefficients are accepted. *)
From Coq Require Import List ZArith Reals.
From Verif Require Import TupleModel.
Import ListNotations.

Section Accepted.
Context {obj exn A : Type} (py : objects obj exn A).

(** A set of shevaltemp: a tuple (coef_t, coef_gh, coef_nm, spline_order) with the spline order being
    an integer (of the type int), 1 or 2, and arrays which can be loaded *)
Definition loads (item : obj) (s : A) : Prop :=
  exists t gh nm so order, tuple_items py item = Some [t; gh; nm; so] /\
    int_of py so = Some order /\ (order = 1 \/ order = 2)%Z /\ load_set py t gh nm order = inl s.

(** The exception of an item which is not such a set *)
Definition item_error (item : obj) (e : exn) : Prop :=
  (~ (exists t gh nm so, tuple_items py item = Some [t; gh; nm; so]) /\ e = value_error py) \/
  exists t gh nm so, tuple_items py item = Some [t; gh; nm; so] /\
    ((int_of py so = None /\ e = value_error py) \/
     exists order, int_of py so = Some order /\
       ((~ (- 2 ^ 63 <= order < 2 ^ 63)%Z /\ e = overflow_error py) \/
        ((- 2 ^ 63 <= order < 2 ^ 63)%Z /\ order <> 1%Z /\ order <> 2%Z /\ e = value_error py) \/
        ((order = 1 \/ order = 2)%Z /\ load_set py t gh nm order = inr e))).

(** A set of sheval2dfs: a tuple (coef_ab, coef_nm, min_degree1, min_degree2, scale1, scale2) of two
    arrays which can be loaded, two integers of 64 bits, and two floats *)
Definition loads_2dfs (o : obj) (s : A) : Prop :=
  exists ab nm o1 o2 o3 o4 m1 m2 x1 x2, tuple_items py o = Some [ab; nm; o1; o2; o3; o4] /\
    int_of py o1 = Some m1 /\ (- 2 ^ 63 <= m1 < 2 ^ 63)%Z /\
    int_of py o2 = Some m2 /\ (- 2 ^ 63 <= m2 < 2 ^ 63)%Z /\
    float_of py o3 = Some x1 /\ float_of py o4 = Some x2 /\
    load_set_2dfs py ab nm m1 m2 x1 x2 = inl s.

(** The exception of an integer, respectively of a float, of such a tuple *)
Definition int_error (o : obj) (e : exn) : Prop :=
  (int_of py o = None /\ e = value_error py) \/
  exists z, int_of py o = Some z /\ ~ (- 2 ^ 63 <= z < 2 ^ 63)%Z /\ e = overflow_error py.
Definition float_error (o : obj) (e : exn) : Prop := float_of py o = None /\ e = value_error py.
Definition is_long (o : obj) : Prop := exists z, int_of py o = Some z /\ (- 2 ^ 63 <= z < 2 ^ 63)%Z.
Definition is_float (o : obj) : Prop := exists x, float_of py o = Some x.

(** The exception of another object: the first of the items which is wrong *)
Definition error_2dfs (o : obj) (e : exn) : Prop :=
  (~ (exists ab nm o1 o2 o3 o4, tuple_items py o = Some [ab; nm; o1; o2; o3; o4]) /\ e = value_error py) \/
  exists ab nm o1 o2 o3 o4, tuple_items py o = Some [ab; nm; o1; o2; o3; o4] /\
    (int_error o1 e \/
     is_long o1 /\ int_error o2 e \/
     is_long o1 /\ is_long o2 /\ float_error o3 e \/
     is_long o1 /\ is_long o2 /\ is_float o3 /\ float_error o4 e \/
     exists m1 m2 x1 x2, int_of py o1 = Some m1 /\ (- 2 ^ 63 <= m1 < 2 ^ 63)%Z /\
       int_of py o2 = Some m2 /\ (- 2 ^ 63 <= m2 < 2 ^ 63)%Z /\
       float_of py o3 = Some x1 /\ float_of py o4 = Some x2 /\
       load_set_2dfs py ab nm m1 m2 x1 x2 = inr e).

End Accepted.
