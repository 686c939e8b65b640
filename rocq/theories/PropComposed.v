(** C51, C52, C66: the composed model. *)

From Coq Require Import List ZArith Reals String Permutation.
From Verif Require Import Ord CoefModel GeoModel ShEvalModel ShEvalSpec CoordModel ComposedModel ComposedSpec ComposedProofs ComposedExamples.
Import ListNotations.
Open Scope R_scope.

(** The result is the sum of the fields of the components, each with its own scale and with its
    own options overriding the common ones, rotated to the output system and times the final
    scale, element by element. *)
Theorem C51_sum : forall T (OT : TOrd T) (IT : TInf T) V (ps : list (@pushed T V)) time loc ci co fs opts,
  List.Forall (fun p => evaluates (p_model p) (p_field p)) ps -> ps <> [] ->
  prefix (dims time) (dims loc) ->
  exists r, composed_eval (after ps) time loc ci co fs opts = Ok r /\ dims r = dims loc /\
    forall ix, List.length ix = List.length (dims loc) ->
      (ci = CT_GEOCENTRIC_CARTESIAN -> get loc ix <> (0, 0, 0)) ->
      delivered ci co (get loc ix) fs (sum_of_fields ps opts ci (at_index time ix) (get loc ix)) (get r ix).
Proof. exact @composed_sum. Qed.
Print Assumptions C51_sum.

Example C51_sum_example : List.Forall (fun p => evaluates (p_model p) (p_field p)) ex_two /\
  sum_of_fields ex_two (f107_is 7) CT_GEOCENTRIC_SPHERICAL (Some (zf 6)) (0, 0, 6371.2) = Some (207, 414, 621) /\
  sum_of_fields ex_two (f107_is 7) CT_GEOCENTRIC_SPHERICAL None (0, 0, 6371.2) = None.
Proof. exact ex_two_ok. Qed.

(** The order of the pushes does not matter. *)
Theorem C51_order : forall T (OT : TOrd T) (IT : TInf T) V (ps ps' : list (@pushed T V)) time loc ci co fs opts,
  Permutation ps ps' ->
  List.Forall (fun p => evaluates (p_model p) (p_field p)) ps -> prefix (dims time) (dims loc) ->
  exists r r', composed_eval (after ps) time loc ci co fs opts = Ok r /\
    composed_eval (after ps') time loc ci co fs opts = Ok r' /\ dims r = dims r' /\
    forall ix, List.length ix = List.length (dims r) -> get r ix = get r' ix.
Proof. exact @composed_order. Qed.
Print Assumptions C51_order.

(** A composed model without components is zero, NaN at NaN times; here the times may also have
    more dimensions than the location. *)
Theorem C51_no_components : forall T (OT : TOrd T) (IT : TInf T) V (time : nd (option T)) loc ci co fs (opts : string -> option V),
  prefix (dims time) (dims loc) \/ dims loc = [] ->
  exists r, composed_eval composed_empty time loc ci co fs opts = Ok r /\
    dims r = (if Nat.ltb (List.length (dims loc)) (List.length (dims time)) then dims time else dims loc) /\
    forall ix, List.length ix = List.length (dims r) ->
      get r ix = match at_index time ix with Some _ => Some (0, 0, 0) | None => None end.
Proof. exact @composed_none. Qed.
Print Assumptions C51_no_components.

(** A composed model can be pushed to another one: its field is the sum of the fields of its
    components times the scale. *)
Theorem C51_nested : forall T (OT : TOrd T) (IT : TInf T) V (ps : list (@pushed T V)),
  List.Forall (fun p => evaluates (p_model p) (p_field p)) ps -> ps <> [] ->
  evaluates (composed_model (after ps))
    (fun opts scale t x => option_map (rescaled scale) (sum_of_fields ps opts CT_GEOCENTRIC_SPHERICAL t x)).
Proof. exact @composed_evaluates. Qed.
Print Assumptions C51_nested.

(** Composing a single spherical harmonic model changes nothing, in all coordinate systems. *)
Theorem C51_single : forall T (OT : TOrd T) (IT : TInf T) V csize coef internal deg mem (opts : string -> option V)
    (time : nd (option T)) loc ci co s,
  (1 <= csize < 2 ^ 50)%Z -> prefix (dims time) (dims loc) ->
  let model := constant_model (V := V) csize coef internal deg mem in
  let scale := Some (s, s, s) in
  exists r r', composed_eval (composed_init [model]) time loc ci co scale opts = Ok r /\
    g_eval model time loc ci co scale opts = Ok r' /\ dims r = dims r' /\
    forall ix, List.length ix = List.length (dims r) ->
      (ci = CT_GEOCENTRIC_CARTESIAN -> get loc ix <> (0, 0, 0)) -> get r ix = get r' ix.
Proof. exact @composed_transparent. Qed.
Print Assumptions C51_single.

(** The spherical harmonic models meet the hypothesis on the components. *)
Theorem C51_constant : forall T (OT : TOrd T) (IT : TInf T) V csize coef internal deg mem,
  evaluates (T := T) (V := V) (constant_model csize coef internal deg mem)
    (fun _ scale t x => constant_eval csize coef internal deg mem CT_GEOCENTRIC_SPHERICAL CT_GEOCENTRIC_SPHERICAL scale t x).
Proof. exact @constant_evaluates. Qed.
Print Assumptions C51_constant.

(** A finite instant is in the validity range of the composed model exactly if it is in those of
    all components. *)
Theorem C52_intersection : forall T (OT : TOrd T) (IT : TInf T) V (ps : list (@pushed T V)) (t : T), lt ninf t ->
  (in_range t (c_validity (after ps)) <-> forall p, In p ps -> in_range t (g_validity (p_model p))).
Proof. exact @composed_validity. Qed.
Print Assumptions C52_intersection.

(** The start is never after the end. *)
Theorem C52_ordered : forall T (OT : TOrd T) (IT : TInf T) V (ps : list (@pushed T V)),
  le (fst (c_validity (after ps))) (snd (c_validity (after ps))).
Proof. exact @composed_validity_form. Qed.
Print Assumptions C52_ordered.

(** When the ranges have a common finite instant, the bounds are the latest start and the
    earliest end. *)
Theorem C52_bounds : forall T (OT : TOrd T) (IT : TInf T) V (ps : list (@pushed T V)) (t : T), lt ninf t ->
  (forall p, In p ps -> in_range t (g_validity (p_model p))) ->
  let v := c_validity (after ps) in
  (forall p, In p ps -> le (fst (g_validity (p_model p))) (fst v) /\ le (snd v) (snd (g_validity (p_model p)))) /\
  (fst v = ninf \/ exists p, In p ps /\ fst v = fst (g_validity (p_model p))) /\
  (snd v = pinf \/ exists p, In p ps /\ snd v = snd (g_validity (p_model p))).
Proof. exact @composed_validity_bounds. Qed.
Print Assumptions C52_bounds.

Example C52_example : c_validity (after ex_two) = (zf 5, zf 10) /\
  c_validity (after (ex_two ++ [ex_push (zf 30) (zf 40) 1 no_options])) = (ninf, ninf).
Proof. exact ex_validity. Qed.

(** The parameters of the composed model are those of its components. *)
Theorem C66_parameters : forall T (OT : TOrd T) (IT : TInf T) V (ps : list (@pushed T V)) name,
  In name (c_parameters (after ps)) <->
  name = "time"%string \/ name = "location"%string \/ exists p, In p ps /\ In name (g_parameters (p_model p)).
Proof. exact @composed_parameters. Qed.
Print Assumptions C66_parameters.

Example C66_example : In "f107"%string (c_parameters (after ex_two)).
Proof. exact ex_parameters. Qed.
