(** C53: field-line tracing. *)

From Coq Require Import List ZArith Reals.
From Verif Require Import CoefModel GeoModel ShEvalModel CoordModel CoordSpec TraceModel TraceSpec TraceProofs TraceExamples.
Import ListNotations.
Open Scope R_scope.

(** There is a line of Cartesian points such that the results are the coordinates of its points and the
    field at its points, in the requested system; the starting point is its point number k;
    the points after it follow the field step by step and those before it go against the field; at most
    max_steps steps are made to each side; the inner points are strictly within the radii
    (the starting point, which may be anywhere, excepted); each side ends out of the radii or after max_steps steps. *)
Theorem C53_structure : forall F start ci co radius lo hi step max_steps,
  let n := Z.to_nat max_steps in
  exists line k cs fs,
    trace_field_line F start ci co radius lo hi step max_steps = Ok (cs, fs) /\
    length cs = length line /\ length fs = length line /\
    (forall i p, nth_error line i = Some p ->
       nth_error cs i = Some (option_map (fun v => convert v CT_GEOCENTRIC_CARTESIAN co) p) /\
       exists w, nth_error fs i = Some w /\ in_frame co p (F p) w) /\
    (k <= n)%nat /\ (k < length line <= k + n + 1)%nat /\
    nth_error line k = Some (Some (position ci start)) /\
    (forall i p q, nth_error line i = Some p -> nth_error line (S i) = Some q ->
       ((k <= i)%nat -> one_step F radius step p q) /\ ((i < k)%nat -> one_step F radius (- step) q p)) /\
    (forall i p, nth_error line i = Some p -> (0 < i < length line - 1)%nat -> i <> k -> within lo hi p) /\
    (k = n \/ exists p, nth_error line 0 = Some p /\ outside lo hi p) /\
    (length line = k + n + 1 \/ exists p, nth_error line (length line - 1) = Some p /\ outside lo hi p)%nat.
Proof. exact trace_structure. Qed.
Print Assumptions C53_structure.

(** The length of a step is step * |p| / radius wherever the field is not zero. *)
Theorem C53_step_length : forall F radius step p q B,
  one_step F radius step (Some p) q -> F (Some p) = Some B -> B <> (0, 0, 0) -> 0 < radius ->
  exists v, q = Some v /\
    distance (let '(a, b, c) := v in let '(x, y, z) := p in (a - x, b - y, c - z)) = Rabs step * magnitude p / radius.
Proof. exact step_length. Qed.
Print Assumptions C53_step_length.

(** The coordinates of the starting point are among the results when they are requested in the system
    in which they were given. *)
Theorem C53_start : forall F start co radius lo hi step max_steps,
  unique_coordinates co start -> beyond_evolute (position co start) ->
  exists cs fs, trace_field_line F start co co radius lo hi step max_steps = Ok (cs, fs) /\ In (Some start) cs.
Proof. exact trace_start. Qed.
Print Assumptions C53_start.

Example C53_example : trace_field_line uniform (0, 0, 100) CT_GEOCENTRIC_CARTESIAN CT_GEOCENTRIC_CARTESIAN 10 85 105 1 2
  = Ok ([Some (0, 0, 81); Some (0, 0, 90); Some (0, 0, 100); Some (0, 0, 110)],
        [Some (0, 0, 2); Some (0, 0, 2); Some (0, 0, 2); Some (0, 0, 2)]).
Proof. exact ex_trace. Qed.
