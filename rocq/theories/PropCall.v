(** C96: the calls of the functions of the extension modules. *)
From Coq Require Import Bool List String Arith ZArith Reals Permutation.
From Verif Require Import CallModel CallSpec CallProofs CallExamples.
Import ListNotations.
Local Open Scope string_scope.

(** The tables of CallSpec cover all the functions of the modules. *)
Theorem C96_functions : forall name s, In (name, s) methods ->
  exists ps, In (name, ps) (documented_plain ++ documented_flags ++ documented_wrongly).
Proof. exact all_documented. Qed.
Print Assumptions C96_functions.

(** The functions without flags are called as documented. *)
Theorem C96_calls : forall {obj exn} (py : python obj exn) name ps,
  In (name, ps) documented_plain -> conforms py name ps.
Proof. exact @conforms_plain. Qed.
Print Assumptions C96_calls.

Example C96_example_calls : exists ps, In ("loncossin", ps) documented_plain /\
  well_called ps [AnArray 7] [("fast_alg", AnInt 0); ("degree", AnInt 5)] /\
  call_function ex_py "loncossin" [AnArray 7] [("fast_alg", AnInt 0); ("degree", AnInt 5)] =
    Some (Continues [Object (AnArray 7); Integer 5; Integer 0] None).
Proof. exact ex_loncossin. Qed.

Example C96_example_refused :
  call_function ex_py "legendre" [AnArray 1; AnInt 5; AnInt 6] [] = Some (Raises ExType) /\
  call_function ex_py "legendre" [] [("degree", AnInt 5)] = Some (Raises ExType) /\
  call_function ex_py "legendre" [AnArray 1] [("order", AnInt 5)] = Some (Raises ExType) /\
  call_function ex_py "bisect" [AnArray 1; AnArray 1] [("x", AnArray 1)] = Some (Raises ExType) /\
  call_function ex_py "legendre" [AnArray 1; AFloat 5] [] = Some (Raises ExType) /\
  call_function ex_py "legendre" [AnArray 1; AnInt (2 ^ 31)] [] = Some (Raises ExOverflow) /\
  call_function ex_py "legendre" [AnArray 1; AnInt (- 2 ^ 31)] [] =
    Some (Continues [Object (AnArray 1); Integer (- 2 ^ 31)] None).
Proof. exact ex_refused. Qed.

(** The functions with a flag are called as documented, if the flag has a truth value. *)
Theorem C96_flags_partial : forall {obj exn} (py : python obj exn) name ps,
  truthful py -> In (name, ps) documented_flags -> conforms py name ps.
Proof. exact @conforms_flags. Qed.
Print Assumptions C96_flags_partial.

Example C96_example_flags :
  call_function ex_py "sheval" [AnArray 3; AnArray 6] [("is_internal", AnInt 0)] =
  Some (Continues [Object (AnArray 3); Object (AnArray 6); Integer 0; Integer 0; Integer 2; Flag false;
                   Integer (-1); Double 1; Missing] None).
Proof. exact ex_sheval. Qed.

(** If it has none (the array passed by mistake for a flag has more items), the exception is not
    noticed. *)
Theorem C96_flags_refuted : ~ (forall name ps, In (name, ps) documented_flags -> conforms ex_py name ps).
Proof. exact flags_refuted. Qed.
Print Assumptions C96_flags_refuted.

(** What happens: the function continues with the exception set; the flag is taken as true, by
    eval_qdlatlon as false. *)
Theorem C96_flags_unnoticed : forall {obj exn} (py : python obj exn) name ps args kwargs i p o e,
  In (name, ps) documented_flags -> NoDup (map fst kwargs) -> well_called ps args kwargs ->
  nth_error ps i = Some p -> p_kind p = ATruth -> passed args kwargs i (p_name p) o -> truth_of py o = inr e ->
  (forall j p' o' e', j <> i -> nth_error ps j = Some p' -> passed args kwargs j (p_name p') o' ->
     ~ has_error py (p_kind p') o' e') ->
  exists vs, call_function py name args kwargs = Some (Continues vs (Some e)) /\
    nth_error vs i = Some (Flag (negb (String.eqb name "eval_qdlatlon"))).
Proof. exact @flags_truth. Qed.
Print Assumptions C96_flags_unnoticed.

Example C96_example_unnoticed :
  call_function ex_py "interp" [AnArray 1; AnArray 2; AnArray 2] [("extrapolate", AnArray 2)] =
  Some (Continues [Object (AnArray 1); Object (AnArray 2); Object (AnArray 2); Integer 1; Flag true] (Some ExValue)).
Proof. exact ex_interp. Qed.

(** Four of the functions are not called as documented: a correct call of arrays only raises TypeError. *)
Theorem C96_names_refuted : forall {obj exn} (py : python obj exn) (o : obj) name ps,
  In (name, ps) documented_wrongly -> ~ conforms py name ps.
Proof. exact @wrongly_refuted. Qed.
Print Assumptions C96_names_refuted.

(** They are called with the other names, respectively with two arguments. *)
Theorem C96_names_partial : forall {obj exn} (py : python obj exn) name ps,
  In (name, ps) undocumented -> conforms py name ps.
Proof. exact @conforms_wrong. Qed.
Print Assumptions C96_names_partial.

(** The next argument may be passed by position or by name, with the same outcome. *)
Theorem C96_by_name : forall {obj exn} (py : python obj exn) name ps args o kwargs p,
  In (name, ps) (documented_plain ++ documented_flags ++ undocumented) ->
  nth_error ps (List.length args) = Some p -> NoDup (p_name p :: map fst kwargs) ->
  call_function py name (args ++ [o]) kwargs = call_function py name args ((p_name p, o) :: kwargs).
Proof. exact @by_name_all. Qed.
Print Assumptions C96_by_name.

(** The order of the keyword arguments does not matter. *)
Theorem C96_order : forall {obj exn} (py : python obj exn) name args kwargs kwargs',
  NoDup (map fst kwargs) -> Permutation kwargs kwargs' ->
  call_function py name args kwargs = call_function py name args kwargs'.
Proof. exact @order_all. Qed.
Print Assumptions C96_order.
