(** Cases of the theorems about the resources. *)
From Coq Require Import List String Bool Arith.
From Verif Require Import ResModel ResSpec ResProofs ResStepProofs.
Import ListNotations.
Local Open Scope string_scope.

(** shevaltemp called with three sets, both outputs, a flag, scales and points; the conversion of the
    times of the second set fails: an exception is raised, the first set is released. *)
Definition second_fails : oracle := fun q i =>
  match q with Convert v => negb (String.eqb v "arr_ct" && Nat.eqb i 1) | _ => true end.

Lemma ex_second : clean (run (Shevaltemp 3 Both true true true) second_fails) /\
  exists s, run (Shevaltemp 3 Both true true true) second_fails = Next s /\ raised s = true /\ retval s = None.
Proof.
  split.
  - apply run_clean; auto.
  - eexists. split; [vm_compute; reflexivity | split; reflexivity].
Qed.

(** Nothing fails: the tuple is returned. *)
Lemma ex_three : clean (run (Shevaltemp 3 Both true true true) (fun _ _ => true)) /\
  succeeded (run (Shevaltemp 3 Both true true true) (fun _ _ => true)) /\
  In (Convert "arr_ct", 2) (asked (fun _ _ => true) (executions (Shevaltemp 3 Both true true true))).
Proof.
  split; [apply run_clean; auto |]. split.
  - eexists. eexists. split; [vm_compute; reflexivity | split; reflexivity].
  - vm_compute. repeat (try (left; reflexivity); right).
Qed.

(** sheval: one of the buffers of the model cannot be allocated. *)
Lemma ex_sheval : clean (run (Sheval Gradient true true true) (all_but (Alloc "model.rrp"))) /\
  exists s, run (Sheval Gradient true true true) (all_but (Alloc "model.rrp")) = Next s /\ raised s = true /\ live s = [].
Proof.
  split.
  - apply run_clean; auto.
  - eexists. split; [vm_compute; reflexivity | split; reflexivity].
Qed.

(** sheval2dfs: the output cannot be allocated: the offsets are lost. *)
Lemma ex_2dfs : clean_but ("offset", 0) (run (Sheval2dfs Gradient false false true) (all_but (Alloc "arr_grd"))) /\
  exists s, run (Sheval2dfs Gradient false false true) (all_but (Alloc "arr_grd")) = Next s /\ raised s = true /\
    live s = [("offset", 0)].
Proof.
  split.
  - apply sheval2dfs_clean_but; try discriminate. intros q Hq. cbn in Hq.
    repeat (destruct Hq as [<- | Hq]; [reflexivity |]). destruct Hq.
  - eexists. split; [vm_compute; reflexivity | split; reflexivity].
Qed.

Lemma not_clean_crash : forall r, crashes r -> ~ clean r.
Proof. intros r -> (s & E & _). discriminate E. Qed.

Lemma not_all_clean : ~ (forall f o, clean (run f o)).
Proof. intros H. apply (not_clean_crash _ (tuple_crashes Legendre eq_refl)). apply H. Qed.
