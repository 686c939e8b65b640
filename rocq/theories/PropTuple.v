(** C97: the coefficient sets passed to shevaltemp and sheval2dfs. *)
From Coq Require Import List Arith ZArith Reals.
From Verif Require Import TupleModel TupleSpec TupleProofs.
Import ListNotations.

(** A list of 1 to 16 tuples (coef_t, coef_gh, coef_nm, spline_order) is accepted, and nothing else. *)
Theorem C97_accepted : forall {obj exn A} (py : objects obj exn A) o l,
  parse_coef_set_list py None o = inl l <->
  exists items, list_items py o = Some items /\ (1 <= length items <= 16)%nat /\ Forall2 (loads py) items l.
Proof. exact @list_accepted. Qed.
Print Assumptions C97_accepted.

(** The exception is the one of the first wrong tuple. *)
Theorem C97_refused : forall {obj exn A} (py : objects obj exn A) o e,
  parse_coef_set_list py None o = inr e <->
  ((forall items, list_items py o = Some items -> ~ (1 <= length items <= 16)%nat) /\ e = value_error py) \/
  exists before item after, list_items py o = Some (before ++ item :: after) /\
    (length (before ++ item :: after) <= 16)%nat /\
    Forall (fun i => exists s, loads py i s) before /\ item_error py item e.
Proof. exact @list_refused. Qed.
Print Assumptions C97_refused.

Example C97_example_list :
  parse_coef_set_list tpy None (TList [tset (TInt 1); tset (TInt 2)]) = inl [tt; tt] /\
  loads tpy (tset (TInt 2)) tt /\
  parse_coef_set_list tpy None (TList [tset (TInt 2); tset (TInt 3)]) = inr 1%nat /\
  parse_coef_set_list tpy None (TList [tset (TInt (2 ^ 32 + 2))]) = inr 1%nat /\
  parse_coef_set_list tpy None (TList [tset (TInt (2 ^ 64))]) = inr 2%nat /\
  parse_coef_set_list tpy None (TTuple [tset (TInt 2)]) = inr 1%nat /\
  item_error tpy (tset (TInt 3)) 1%nat.
Proof. exact ex_list. Qed.

(** An exception of the flag is_internal (C96_flags_unnoticed) is noticed here by shevaltemp. *)
Theorem C97_pending : forall {obj exn A} (py : objects obj exn A) o l e,
  parse_coef_set_list py None o = inl l -> parse_coef_set_list py (Some e) o = inr e.
Proof. exact @list_pending. Qed.
Print Assumptions C97_pending.

(** The set of sheval2dfs *)
Theorem C97_2dfs_accepted : forall {obj exn A} (py : objects obj exn A) o s,
  f2d_coefset_parse py None o = inl s <-> loads_2dfs py o s.
Proof. exact @set_2dfs_accepted. Qed.
Print Assumptions C97_2dfs_accepted.

Example C97_example_2dfs :
  f2d_coefset_parse tpy None (TTuple [TArray; TArray; TInt 0; TInt (-2); TFloat 6; TFloat 1]) = inl tt /\
  f2d_coefset_parse tpy None (TTuple [TArray; TArray; TInt 0; TInt (-2); TInt 6; TInt 1]) = inr 1%nat /\
  f2d_coefset_parse tpy None (TTuple [TArray; TArray; TInt 0; TInt (-2); TFloat 6]) = inr 1%nat.
Proof. exact ex_2dfs. Qed.

(** Its exception is the one of the first wrong item. *)
Theorem C97_2dfs_refused : forall {obj exn A} (py : objects obj exn A) o e,
  f2d_coefset_parse py None o = inr e <-> error_2dfs py o e.
Proof. exact @set_2dfs_refused. Qed.
Print Assumptions C97_2dfs_refused.

(** The documented set of five items (without scale2) is refused, whatever the items are. *)
Theorem C97_2dfs_documented_refuted : forall {obj exn A} (py : objects obj exn A) o items,
  tuple_items py o = Some items -> length items = 5%nat ->
  f2d_coefset_parse py None o = inr (value_error py).
Proof. exact @five_items. Qed.
Print Assumptions C97_2dfs_documented_refuted.

(** A scale which is not a float (the integer 1) is refused. *)
Theorem C97_2dfs_scale : forall {obj exn A} (py : objects obj exn A) o ab nm o1 o2 o3 o4,
  tuple_items py o = Some [ab; nm; o1; o2; o3; o4] ->
  float_of py o3 = None \/ float_of py o4 = None -> forall s, f2d_coefset_parse py None o <> inl s.
Proof. exact @integer_scale. Qed.
Print Assumptions C97_2dfs_scale.

(** The constructor accepts what is equal to 1, for the piecewise constant interpolation, or to 2, for
    the linear one; otherwise it raises ValueError. *)
Theorem C97_constructor : forall {obj exn A} (py : objects obj exn A) so,
  (forall k, constructor_order py so = inl k <->
     (equal_int py so = Some 1%Z /\ k = 0x00%Z) \/ (equal_int py so = Some 2%Z /\ k = 0x01%Z)) /\
  (forall e, constructor_order py so = inr e <->
     equal_int py so <> Some 1%Z /\ equal_int py so <> Some 2%Z /\ e = value_error py).
Proof. exact @order_kind. Qed.
Print Assumptions C97_constructor.

(** A spline order accepted by the constructor of the coefficients may be refused by their evaluation:
    a float or an integer of NumPy is equal to 2, but it is not of the type int. *)
Theorem C97_order_refuted :
  ~ (forall obj exn A (py : objects obj exn A) t gh nm so k item s, constructor_order py so = inl k ->
      tuple_items py item = Some [t; gh; nm; so] -> (forall order, load_set py t gh nm order = inl s) ->
      parse_coefset py None item = inl s).
Proof. exact order_refuted. Qed.
Print Assumptions C97_order_refuted.

(** An integer accepted by the constructor is accepted by the evaluation. *)
Theorem C97_order_partial : forall {obj exn A} (py : objects obj exn A) t gh nm so z k item s,
  int_of py so = Some z -> equal_int py so = Some z -> constructor_order py so = inl k ->
  tuple_items py item = Some [t; gh; nm; so] -> (forall order, load_set py t gh nm order = inl s) ->
  parse_coefset py None item = inl s.
Proof. exact @order_int. Qed.
Print Assumptions C97_order_partial.
