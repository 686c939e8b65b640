(** Specification of the arguments of the functions of the C extension which are accepted. *)

From Coq Require Import List Reals ZArith.
From Verif Require Import CoefModel ShEvalSpec InterpModel TempModel FourierModel StridedModel StridedSpec NdModel NdSpec.
Import ListNotations.
Open Scope Z_scope.

(** the call raises ValueError *)
Definition refused {A} (call : result A) : Prop := call = Err ValueError.

(** The shapes agree in the dimensions which they have: they are all the beginnings of one shape. *)
Definition agree (shapes : list (list nat)) : Prop := exists D, List.Forall (fun s => prefix s D) shapes.

(** Each of the arrays is a scalar or has the shape D. *)
Definition scalar_or (D : list nat) (a : arrd) : Prop := shape a = [] \/ shape a = D.

(** All the dimensions of the array are less than 2^50. *)
Definition not_huge (a : arrd) : Prop := forall n, In n (shape a) -> Z.of_nat n < 2 ^ 50.

(** the integers of the coordinate types and of the evaluation modes *)
Definition coord_code (ct : Z) : Prop := ct = 0 \/ ct = 1 \/ ct = 2.
Definition eval_code (mode : Z) : Prop := mode = 1 \/ mode = 2 \/ mode = 3.

(** the least number of nodes of the interpolation for its code *)
Definition node_code (kind : Z) (n : nat) : Prop :=
  (kind = 0 /\ (1 <= n)%nat) \/ ((kind = 1 \/ kind = 17) /\ (2 <= n)%nat).

(** no scale of the gradient, one number or three of them *)
Definition scale_shape (scale : option arrd) : Prop :=
  match scale with None => True | Some a => shape a = [] \/ shape a = [3%nat] end.
Definition has_strides (scale : option arrd) : Prop :=
  match scale with None => True | Some a => length (stride a) = length (shape a) end.

(** the coefficients of a series (..., n, 2), with at least one of them, or (..., n) *)
Definition pairs_shape (a : arrd) (ds : list nat) : Prop := exists n, shape a = ds ++ [n; 2%nat] /\ (1 <= n)%nat.
Definition row_shape (a : arrd) (ds : list nat) : Prop := exists n, shape a = ds ++ [n] /\ (1 <= n)%nat.

(** The sizes of a set of coefficients agree and the order of its spline is 1 or 2. *)
Definition set_sizes (s : set_args) : Prop :=
  let '(coef_t, coef_gh, coef_nm, spline_order) := s in
  (spline_order = 1 \/ spline_order = 2) /\ length coef_gh = length coef_nm /\
  List.Forall (fun r => length r = length coef_t) coef_gh.

(** The set is one which can be evaluated: there are enough times for the spline, and the orders are not larger than the
    degrees. *)
Definition set_complete (s : set_args) : Prop :=
  let '(coef_t, _, coef_nm, spline_order) := s in
  spline_order <= Z.of_nat (length coef_t) /\ List.Forall (fun nm => 0 <= fst nm /\ Z.abs (snd nm) <= fst nm) coef_nm.
