(** Property C92: each call of a function of the C extensions returns one new reference or raises an
    exception, releases everything else it has acquired, and never uses or releases anything twice,
    whichever of its steps fail. *)
From Coq Require Import List String Bool Arith.
From Verif Require Import ResModel ResSpec ResProofs ResStepProofs ResExamples.
Import ListNotations.
Local Open Scope string_scope.

(** The full property is false. *)
Theorem C92_refuted : ~ (forall f o, clean (run f o)).
Proof. exact not_all_clean. Qed.
Print Assumptions C92_refuted.

(** Missing: sheval2dfs, the failure of the construction of the returned tuple, the failure of the
    test of a flag, and a scale_gradient of a wrong shape passed to sheval: false for each of them, see
    below.  The number of the sets passed to shevaltemp is arbitrary, each step of each may fail. *)
Theorem C92_partial : forall f o, is_sheval2dfs f = false ->
  (returns_tuple f = true -> o Tuple 0 = true) ->
  (flag_given f = true -> o Truth 0 = true) ->
  (sheval_scale f = true -> o (Check "scale_gradient") 0 = true) ->
  clean (run f o).
Proof. exact run_clean. Qed.
Print Assumptions C92_partial.

Example C92_example : clean (run (Shevaltemp 3 Both true true true) second_fails) /\
  exists s, run (Shevaltemp 3 Both true true true) second_fails = Next s /\ raised s = true /\ retval s = None.
Proof. exact ex_second. Qed.

Example C92_example_alloc : clean (run (Sheval Gradient true true true) (all_but (Alloc "model.rrp"))) /\
  exists s, run (Sheval Gradient true true true) (all_but (Alloc "model.rrp")) = Next s /\ raised s = true /\ live s = [].
Proof. exact ex_sheval. Qed.

(** No failure is silent, in any of the functions: a call returning a value without an exception has had
    no failed step. *)
Theorem C92_no_silent_failure : forall f o, succeeded (run f o) ->
  forall q i, In (q, i) (asked o (executions f)) -> o q i = true.
Proof. exact no_silent_failure. Qed.
Print Assumptions C92_no_silent_failure.

Example C92_example_success : clean (run (Shevaltemp 3 Both true true true) (fun _ _ => true)) /\
  succeeded (run (Shevaltemp 3 Both true true true) (fun _ _ => true)) /\
  In (Convert "arr_ct", 2) (asked (fun _ _ => true) (executions (Shevaltemp 3 Both true true true))).
Proof. exact ex_three. Qed.

(** If the tuple cannot be allocated, the arrays are released twice. *)
Theorem C92_tuple_refuted : forall f, returns_tuple f = true -> crashes (run f (all_but Tuple)).
Proof. exact tuple_crashes. Qed.
Print Assumptions C92_tuple_refuted.

(** If the truth of a flag cannot be told, the value is returned with the exception set. *)
Theorem C92_flag_refuted : forall f, flag_given f = true -> returns_with_exception (run f (all_but Truth)).
Proof. exact truth_returns. Qed.
Print Assumptions C92_flag_refuted.

(** The message about a scale_gradient of a wrong shape formats a NULL string. *)
Theorem C92_scale_refuted : forall m flag points,
  crashes (run (Sheval m flag true points) (all_but (Check "scale_gradient"))).
Proof. exact sheval_scale_crashes. Qed.
Print Assumptions C92_scale_refuted.

(** sheval2dfs: each successful call leaks the offsets ... *)
Theorem C92_sheval2dfs_refuted : forall m flag scale points,
  leaks [("offset", 0)] (run (Sheval2dfs m flag scale points) (fun _ _ => true)).
Proof. exact sheval2dfs_leaks. Qed.
Print Assumptions C92_sheval2dfs_refuted.

(** ... and an invalid set of coefficients is used nevertheless. *)
Theorem C92_sheval2dfs_set_refuted : forall m flag scale points,
  let r := run (Sheval2dfs m flag scale points) (all_but (Convert "arr_ab")) in
  if points then crashes r else returns_with_exception r.
Proof. exact sheval2dfs_bad_set. Qed.
Print Assumptions C92_sheval2dfs_set_refuted.

(** With a valid set nothing but the offsets leaks.  Missing: as above. *)
Theorem C92_sheval2dfs_partial : forall m flag scale points o,
  (forall q, In q set_sites -> o q 0 = true) ->
  (m = Both -> o Tuple 0 = true) -> (flag = true -> o Truth 0 = true) ->
  clean_but ("offset", 0) (run (Sheval2dfs m flag scale points) o).
Proof. exact sheval2dfs_clean_but. Qed.
Print Assumptions C92_sheval2dfs_partial.

Example C92_example_2dfs :
  clean_but ("offset", 0) (run (Sheval2dfs Gradient false false true) (all_but (Alloc "arr_grd"))) /\
  exists s, run (Sheval2dfs Gradient false false true) (all_but (Alloc "arr_grd")) = Next s /\ raised s = true /\
    live s = [("offset", 0)].
Proof. exact ex_2dfs. Qed.
