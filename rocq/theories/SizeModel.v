(** Model of the size to degree conversion of the spherical harmonics functions, with
    IEEE 754 double precision arithmetic (round to nearest even, from Flocq). *)

From Coq Require Import ZArith Reals.
From Flocq Require Import Core.
Open Scope Z_scope.

(** Rounding of a real number to double precision; the exponent range is not bounded
    from above (no overflow occurs here). *)
Definition rnd (x : R) : R := round radix2 (FLT_exp (-1074) 53) ZnearestE x.

(** pymm_sphar_common.h:123-129; the integers are not bounded (npy_intp has 64 bits and
    the sizes of the theorems are less than 2^50).  The C conversion to npy_intp truncates.
    [rnd (IZR _)] is the conversion of the integer argument to double. *)
Definition size_to_degree (size : Z) : Z :=
  let degree := Ztrunc (rnd (/2 * rnd (rnd (sqrt (rnd (IZR (8 * size + 1)))) - 3))) in
  if Z.quot ((degree + 3) * (degree + 2)) 2 =? size then degree + 1 else degree.

(** pymm_sphar_common.h:95-119: the smallest of the degrees and its index *)
Fixpoint get_max_degree_loop (ds : list Z) (i : Z) (arg_idx max_degree : Z) : Z * Z :=
  match ds with
  | nil => (arg_idx, max_degree)
  | cons d ds' =>
      if d <? max_degree then get_max_degree_loop ds' (i + 1) i d
      else get_max_degree_loop ds' (i + 1) arg_idx max_degree
  end.
Definition get_max_degree (degrees : list Z) : Z * Z :=
  match degrees with
  | nil => (-1, -1)
  | cons d ds => get_max_degree_loop ds 1 0 d
  end.
