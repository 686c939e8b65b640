(** Proofs: no failure is silent. *)
From Coq Require Import List String Bool Arith Lia.
From Verif Require Import ResModel ResSpec ResProofs.
Import ListNotations.
Local Open Scope string_scope.
Local Open Scope list_scope.

Lemma asked_bind : forall o t f, asked o (bind t f) = asked o t ++ asked o (f (exec o t)).
Proof.
  intros o t f. induction t as [r | q i yes IHy no IHn]; cbn [bind asked exec]; [reflexivity |].
  destruct (o q i); cbn [app]; f_equal; auto.
Qed.

Definition failed (o : oracle) (t : tree) : Prop := exists q i, In (q, i) (asked o t) /\ o q i = false.

Definition raised_in (r : outcome) : Prop :=
  match r with Next s | Exit s | Return s => raised s = true | Crash => True end.

(** The exception is kept, and each failure raises one. *)
Definition honest (a : stmt) : Prop := forall o s, raised s = true \/ failed o (a s) -> raised_in (exec o (a s)).

Lemma failed_bind : forall o t f, failed o (bind t f) -> failed o t \/ failed o (f (exec o t)).
Proof.
  intros o t f (q & i & H & E). rewrite asked_bind in H. apply in_app_or in H.
  destruct H; [left | right]; exists q, i; auto.
Qed.

Lemma failed_end : forall o r, ~ failed o (End r).
Proof. intros o r (q & i & [] & _). Qed.

Lemma honest_end : forall f, (forall s, raised s = true -> raised_in (f s)) -> honest (fun s => End (f s)).
Proof. intros f H o s [E | E]; [apply H; exact E | exfalso; exact (failed_end _ _ E)]. Qed.

Lemma honest_skip : honest skip.
Proof. apply (honest_end (fun s => Next s)). auto. Qed.

Lemma honest_bind : forall a k, honest a ->
  (forall o s, raised_in (exec o (a s)) \/ failed o (k (exec o (a s))) -> raised_in (exec o (k (exec o (a s))))) ->
  honest (fun s => bind (a s) k).
Proof.
  intros a k Ha Hk o s H. rewrite exec_bind. apply Hk. destruct H as [H | H].
  - left. apply Ha. auto.
  - apply failed_bind in H. destruct H as [H | H]; [left; apply Ha; auto | auto].
Qed.

Lemma honest_seq : forall a b, honest a -> honest b -> honest (a ;; b).
Proof.
  intros a b Ha Hb. apply honest_bind; [exact Ha |]. intros o s. destruct (exec o (a s)); cbn [raised_in]; intros H.
  - apply Hb. exact H.
  - destruct H; [assumption | exfalso; exact (failed_end _ _ H)].
  - destruct H; [assumption | exfalso; exact (failed_end _ _ H)].
  - exact I.
Qed.

Lemma honest_when : forall c a, honest a -> honest (when c a).
Proof. intros [] a H; [exact H | apply honest_skip]. Qed.

Lemma honest_each : forall vs a, (forall v, honest (a v)) -> honest (each vs a).
Proof. intros vs a H. induction vs; [apply honest_skip | apply honest_seq; auto]. Qed.

Lemma honest_ask : forall q i yes no, (forall s, raised s = true -> raised_in (yes s)) ->
  (forall s, raised_in (no s)) -> honest (fun s => Ask q i (End (yes s)) (End (no s))).
Proof.
  intros q i yes no Hy Hn o s H. cbn [exec]. destruct (o q i) eqn:E; cbn [exec]; [| apply Hn].
  apply Hy. destruct H as [H | (q' & i' & H & E')]; [exact H |]. exfalso. cbn [asked] in H. rewrite E in H.
  destruct H as [H | []]. injection H as <- <-. congruence.
Qed.

Lemma honest_parse : honest parse.
Proof. apply honest_ask; [auto | reflexivity]. Qed.

Lemma honest_truth : honest truth.
Proof. apply honest_ask; [auto | reflexivity]. Qed.

Lemma own_raised : forall v i s, raised s = true -> raised_in (own v i s).
Proof. intros v i s H. unfold own. destruct (mem (v, i) (live s)); [exact I | exact H]. Qed.

Lemma honest_convert : forall i v, honest (convert_i i v).
Proof. intros. apply honest_ask; [apply own_raised | reflexivity]. Qed.

Lemma honest_alloc : forall i v, honest (alloc_i i v).
Proof. intros. apply honest_ask; [apply own_raised | reflexivity]. Qed.

Lemma honest_check : forall i k c l, honest (check_i i k c l).
Proof. intros. apply honest_ask; [auto |]. intros s. destruct (forallb _ _); [reflexivity | exact I]. Qed.

Ltac ends := apply honest_end; intros s H;
  repeat match goal with |- context [match ?c with _ => _ end] => destruct c end; cbn; auto.

Lemma honest_use1 : forall v, honest (use1 v). Proof. intros v. ends. Qed.
Lemma honest_use : forall vs, honest (use vs). Proof. intros vs. apply honest_each. apply honest_use1. Qed.
Lemma honest_release : forall v, honest (release v). Proof. intros v. ends. Qed.
Lemma honest_reset : forall vs, honest (reset vs). Proof. intros v. ends. Qed.
Lemma honest_store : forall f v, honest (store f v). Proof. intros f v. ends. Qed.
Lemma honest_set_ret : forall v, honest (set_ret v). Proof. intros v. ends. Qed.
Lemma honest_give : forall v, honest (give v). Proof. intros v. ends. Qed.
Lemma honest_return : honest (fun s => End (Return s)). Proof. ends. Qed.

Lemma honest_unless : forall a, honest a -> honest (unless_ret a).
Proof.
  intros a Ha o s H. unfold unless_ret in *. destruct (retval s); [| apply Ha; exact H].
  destruct H as [H | H]; [exact H | exfalso; exact (failed_end _ _ H)].
Qed.

Lemma honest_build : forall vs, honest (build vs).
Proof.
  intros vs. apply honest_bind; [apply honest_each; apply honest_give |]. intros o s.
  destruct (exec o (each vs give s)) as [s' | s' | s' |]; cbn [raised_in]; intros H;
    try (destruct H; [assumption | exfalso; exact (failed_end _ _ H)]); try exact I.
  cbn [exec]. destruct (o Tuple 0) eqn:E; [| reflexivity]. cbn. destruct H as [H | (q & i & H & E')]; [exact H |].
  exfalso. cbn [asked] in H. rewrite E in H. destruct H as [H | []]. injection H as <- <-. congruence.
Qed.

Lemma honest_call : forall a h, honest a -> honest h -> honest (call a h).
Proof.
  intros a h Ha Hh. apply honest_bind; [exact Ha |]. intros o s.
  destruct (exec o (a s)) as [s' | s' | s' |]; cbn [raised_in]; intros H;
    try (destruct H; [assumption | exfalso; exact (failed_end _ _ H)]); try exact I.
  rewrite exec_bind. cbn [exec].
  assert (R : raised_in (exec o (h s'))).
  { apply Hh. destruct H as [H | H]; [auto |]. apply failed_bind in H.
    destruct H as [H | H]; [auto | exfalso; exact (failed_end _ _ H)]. }
  destruct (exec o (h s')); exact R.
Qed.

Lemma honest_call_ignored : forall a h, honest a -> honest h -> honest (call_ignored a h).
Proof.
  intros a h Ha Hh. apply honest_bind; [exact Ha |]. intros o s.
  destruct (exec o (a s)) as [s' | s' | s' |]; cbn [raised_in]; intros H;
    try (destruct H; [assumption | exfalso; exact (failed_end _ _ H)]); try exact I.
  apply Hh. exact H.
Qed.

Lemma honest_locals : forall b p after, honest b -> (forall p s, raised s = true -> raised (after p s) = true) ->
  honest (with_locals b p after).
Proof.
  intros b p after Hb Haf o s H. unfold with_locals in *. rewrite exec_bind. cbn [exec].
  assert (R : raised_in (exec o (b (set_ptrs p s)))).
  { apply Hb. destruct H as [H | H]; [auto |]. apply failed_bind in H.
    destruct H as [H | H]; [auto | exfalso; exact (failed_end _ _ H)]. }
  destruct (exec o (b (set_ptrs p s))); try exact R. cbn in *. apply Haf. exact R.
Qed.

Ltac honest_step := lazymatch goal with
  | |- honest (call_ignored _ _) => apply honest_call_ignored
  | |- honest (call _ _) => apply honest_call
  | |- honest (_ ;; _) => apply honest_seq
  | |- honest (check _ _ _) => apply honest_check
  | |- honest (check_i _ _ _ _) => apply honest_check
  | |- honest (convert _) => apply honest_convert
  | |- honest (convert_i _ _) => apply honest_convert
  | |- honest (alloc _) => apply honest_alloc
  | |- honest (alloc_i _ _) => apply honest_alloc
  | |- honest (release _) => apply honest_release
  | |- honest (reset _) => apply honest_reset
  | |- honest (store _ _) => apply honest_store
  | |- honest (set_ret _) => apply honest_set_ret
  | |- honest (unless_ret _) => apply honest_unless
  | |- honest (build _) => apply honest_build
  | |- honest (use _) => apply honest_use
  | |- honest (when _ _) => apply honest_when
  | |- honest (each _ _) => apply honest_each; let v := fresh "v" in intros v
  | |- honest parse => apply honest_parse
  | |- honest truth => apply honest_truth
  | |- honest skip => apply honest_skip
  | |- honest (fun s => End (Return s)) => apply honest_return
  end.

Lemma honest_coefset : forall i, honest (parse_coefset i).
Proof. intros i. unfold parse_coefset, coefset_init, coefset_destroy. repeat honest_step. Qed.

Lemma honest_coefsets : forall m n, honest (parse_coefsets n m).
Proof.
  induction m as [| m IH]; intros n; [apply honest_skip |]. cbn [parse_coefsets].
  apply honest_seq; [| apply IH]. apply honest_locals; [apply honest_coefset | auto].
Qed.

Lemma honest_over_sets : forall b (after : pointers -> state -> state), honest b -> (forall p s, raised s = true -> raised (after p s) = true) ->
  honest (fun s => fold_right (fun p r => with_locals b p after ;; r) skip (sets s) s).
Proof.
  intros b after Hb Haf o s. generalize (sets s) as ps. intros ps.
  assert (G : honest (fold_right (fun p r => with_locals b p after ;; r) skip ps)).
  { induction ps; [apply honest_skip |]. apply honest_seq; [apply honest_locals; auto | assumption]. }
  apply G.
Qed.

Lemma honest_destroy : honest destroy_coefsets.
Proof.
  apply honest_over_sets; [| auto]. unfold coefset_destroy. repeat honest_step.
Qed.

Lemma honest_use_sets : honest use_coefsets.
Proof. apply honest_over_sets; [| auto]. repeat honest_step. Qed.

Lemma honest_evaluate : forall m points args, honest (evaluate m points args).
Proof. intros [] points args; unfold evaluate; repeat honest_step. Qed.

(** A function *)
Lemma honest_func : forall b e o s t, honest b -> honest e ->
  exec o (func b e) = Next s -> retval s = Some t -> raised s = false ->
  forall q i, In (q, i) (asked o (func b e)) -> o q i = true.
Proof.
  intros b e o s t Hb He E Et Er q i Hq. destruct (o q i) eqn:Eq; [reflexivity |]. exfalso.
  assert (Fa : failed o (func b e)) by (exists q, i; auto).
  assert (R : raised_in (exec o (func b e))).
  { unfold func in *. rewrite exec_bind in *. apply failed_bind in Fa.
    assert (B := Hb o start). destruct (exec o (b start)) as [s' | s' | s' |]; try exact I.
    - apply He. destruct Fa as [Fa | Fa]; [left; apply B; auto | auto].
    - apply He. destruct Fa as [Fa | Fa]; [left; apply B; auto | auto].
    - destruct Fa as [Fa | Fa]; [apply B; auto | exfalso; exact (failed_end _ _ Fa)]. }
  rewrite E in R. cbn in R. congruence.
Qed.

Lemma no_silent_failure : forall f o, succeeded (run f o) ->
  forall q i, In (q, i) (asked o (executions f)) -> o q i = true.
Proof.
  intros f o (s & t & E & Et & Er). unfold run in E.
  destruct f; cbn [executions] in *;
  unfold bisect, cconv, fourier2d, interp, legendre, loncossin, relradpow, spharpot, sphargrd, sheval, shevaltemp,
    sheval2dfs, vrot2, vrot_sph2geod, eval_mlt, eval_qdlatlon, eval_subsol, sunpos, sunpos_original, sunpos_like, timeconv in *;
  (eapply honest_func; [| | exact E | exact Et | exact Er]); clear E Et Er;
  try (match goal with |- context [if ?b then (_ ;; _) else skip] => destruct b end);
  unfold fourier2d_init, fourier2d_destroy, model_ts_init, model_ts_destroy, model_init, model_destroy,
    f2d_coefset_parse, f2d_coefset_init, f2d_coefset_destroy, fourier2d_init, fourier2d_destroy, use_f2d;
  repeat first [ honest_step | apply honest_coefsets | apply honest_destroy | apply honest_use_sets | apply honest_evaluate ].
Qed.
