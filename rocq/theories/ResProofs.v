(** Proofs about the resources of the extension functions. *)
From Coq Require Import List String Bool Arith Lia.
From Verif Require Import ResModel ResSpec.
Import ListNotations.
Local Open Scope string_scope.
Local Open Scope list_scope.

(** ** A property of all the executions, by computation.  [known q i]: the answer, if it is known *)
Fixpoint all_leaves (known : site -> nat -> option bool) (P : outcome -> bool) (t : tree) : bool :=
  match t with
  | End r => P r
  | Ask q i yes no => match known q i with
      | Some true => all_leaves known P yes
      | Some false => all_leaves known P no
      | None => all_leaves known P yes && all_leaves known P no
      end
  end.

Lemma all_leaves_sound : forall known P o t, (forall q i b, known q i = Some b -> o q i = b) ->
  all_leaves known P t = true -> P (exec o t) = true.
Proof.
  intros known P o t H. induction t as [r | q i yes IHy no IHn]; cbn [all_leaves exec]; [auto |].
  intros E. destruct (known q i) as [b |] eqn:Ek.
  - rewrite (H q i b Ek). destruct b; auto.
  - apply andb_prop in E. destruct E, (o q i); auto.
Qed.

Lemma token_eqb_eq : forall a b, token_eqb a b = true <-> a = b.
Proof.
  intros [v i] [w j]. unfold token_eqb. cbn [fst snd]. rewrite andb_true_iff, String.eqb_eq, Nat.eqb_eq.
  split; [intros [-> ->]; reflexivity | intros H; injection H; auto].
Qed.

Lemma token_eqb_refl : forall a, token_eqb a a = true.
Proof. intros a. apply token_eqb_eq. reflexivity. Qed.

Definition cleanb (r : outcome) : bool :=
  match r with
  | Next s => match retval s, live s with
      | Some t, [u] => token_eqb t u && negb (raised s)
      | None, [] => raised s
      | _, _ => false
      end
  | _ => false
  end.

Lemma cleanb_sound : forall r, cleanb r = true -> clean r.
Proof.
  intros [s | s | s |]; cbn [cleanb]; try discriminate. intros H. exists s. split; [reflexivity |].
  destruct (retval s) as [t |], (live s) as [| u [| x l]]; try discriminate.
  - apply andb_prop in H. destruct H as [H1 H2]. apply token_eqb_eq in H1. subst u.
    split; [reflexivity | destruct (raised s); auto].
  - split; auto.
Qed.

Lemma clean_cleanb : forall r, clean r -> cleanb r = true.
Proof.
  intros r (s & -> & H). cbn [cleanb]. destruct (retval s) as [t |], H as [-> ->]; [| reflexivity].
  rewrite token_eqb_refl. reflexivity.
Qed.

Definition crashb (r : outcome) : bool := match r with Crash => true | _ => false end.

Definition returns_with_exceptionb (r : outcome) : bool :=
  match r with
  | Next s => match retval s with Some _ => raised s | None => false end
  | _ => false
  end.

Lemma returns_with_exceptionb_sound : forall r, returns_with_exceptionb r = true -> returns_with_exception r.
Proof.
  intros [s | s | s |]; cbn; try discriminate. destruct (retval s) as [t |] eqn:E; [| discriminate].
  intros H. exists s, t. auto.
Qed.

(** ** The frame: a statement does not depend on the references it does not hold *)
Lemma exec_bind : forall o t f, exec o (bind t f) = exec o (f (exec o t)).
Proof.
  intros o t f. induction t as [r | q i yes IHy no IHn]; cbn [bind exec]; [reflexivity |].
  destruct (o q i); auto.
Qed.

Lemma exec_seq : forall o a b s, exec o ((a ;; b) s) =
  match exec o (a s) with Next s' => exec o (b s') | r => r end.
Proof. intros. unfold seq. rewrite exec_bind. destruct (exec o (a s)); reflexivity. Qed.

Section Frame.
  Variable F : list token.
  Variable L : list pointers.

  Definition fr (s : state) : state := set_sets L (set_live (live s ++ F) s).

  Definition frr (r : outcome) : outcome :=
    match r with Next s => Next (fr s) | Exit s => Exit (fr s) | Return s => Return (fr s) | Crash => Crash end.

  (** No other state may hold or own the references of the frame. *)
  Definition foreign (s : state) : Prop := sets s = [] /\
    (forall t, mem t (live s) = true -> mem t F = false) /\ forall v t, ptrs s v = Some t -> mem t F = false.

  Definition foreign_r (r : outcome) : Prop :=
    match r with Next s | Exit s | Return s => foreign s | Crash => True end.

  Definition framed (a : stmt) : Prop := forall o s, foreign s ->
    exec o (a (fr s)) = frr (exec o (a s)) /\ foreign_r (exec o (a s)).

  Lemma mem_app : forall t l, mem t F = false -> mem t (l ++ F) = mem t l.
  Proof. intros t l H. unfold mem in *. rewrite existsb_app, H, orb_false_r. reflexivity. Qed.

  Lemma drop_id : forall t l, mem t l = false -> drop t l = l.
  Proof.
    intros t l. unfold mem, drop. induction l as [| x l IH]; cbn; [auto |].
    intros H. apply orb_false_iff in H. destruct H as [-> H]. cbn. rewrite IH; auto.
  Qed.

  Lemma drop_app : forall t l, mem t F = false -> drop t (l ++ F) = drop t l ++ F.
  Proof. intros t l H. unfold drop at 1. rewrite filter_app. fold (drop t F). rewrite drop_id; auto. Qed.

  Lemma mem_drop : forall t u l, mem t (drop u l) = true -> mem t l = true.
  Proof.
    intros t u l. unfold mem, drop. rewrite !existsb_exists. intros (x & H & E). apply filter_In in H.
    exists x. tauto.
  Qed.

  Lemma framed_skip : framed skip.
  Proof. intros o s H. split; [reflexivity | exact H]. Qed.

  Lemma framed_seq : forall a b, framed a -> framed b -> framed (a ;; b).
  Proof.
    intros a b Ha Hb o s H. rewrite !exec_seq. destruct (Ha o s H) as [E Fo]. rewrite E.
    destruct (exec o (a s)) as [s' | s' | s' |]; cbn [frr]; auto.
  Qed.

  Lemma framed_when : forall c a, framed a -> framed (when c a).
  Proof. intros [] a H; cbn; [exact H | apply framed_skip]. Qed.

  Lemma framed_each : forall vs a, (forall v, In v vs -> framed (a v)) -> framed (each vs a).
  Proof.
    induction vs as [| v vs IH]; intros a H; cbn; [apply framed_skip |].
    apply framed_seq; [apply H; left; reflexivity | apply IH; intros w Hw; apply H; right; exact Hw].
  Qed.

  Lemma framed_parse : framed parse.
  Proof. intros o s H. cbn. destruct (o Parse 0); split; auto. Qed.

  Lemma framed_truth : framed truth.
  Proof. intros o s H. cbn. destruct (o Truth 0); split; auto. Qed.

  Lemma foreign_assign : forall p v t, (forall w u, p w = Some u -> mem u F = false) ->
    (forall u, t = Some u -> mem u F = false) ->
    forall w u, assign p v t w = Some u -> mem u F = false.
  Proof. intros p v t Hp Ht w u. unfold assign. destruct (String.eqb v w); eauto. Qed.

  Lemma framed_own : forall v i s, mem (v, i) F = false -> foreign s ->
    own v i (fr s) = frr (own v i s) /\ foreign_r (own v i s).
  Proof.
    intros v i s Hv H. unfold own. cbn [live fr set_sets set_live]. rewrite mem_app by auto.
    destruct (mem (v, i) (live s)); [split; cbn; auto |].
    destruct H as (H0 & H1 & H). split; [reflexivity |]. cbn. unfold foreign. cbn. split; [exact H0 |]. split.
    - intros t E. apply orb_true_iff in E. destruct E as [E | E]; [| auto].
      apply token_eqb_eq in E. subst t. exact Hv.
    - apply foreign_assign; [exact H |]. intros u E. injection E as <-. exact Hv.
  Qed.

  Lemma framed_convert : forall i v, mem (v, i) F = false -> framed (convert_i i v).
  Proof.
    intros i v Hv o s H. cbn [convert_i exec]. destruct (o (Convert v) i); cbn [exec];
      [apply framed_own; auto | split; auto].
  Qed.

  Lemma framed_alloc : forall i v, mem (v, i) F = false -> framed (alloc_i i v).
  Proof.
    intros i v Hv o s H. cbn [alloc_i exec]. destruct (o (Alloc v) i); cbn [exec];
      [apply framed_own; auto | split; auto].
  Qed.

  Lemma framed_check : forall i k c l, framed (check_i i k c l).
  Proof.
    intros i k c l o s H. cbn [check_i exec]. destruct (o (Check c) i); [split; auto |].
    cbn [exec]. destruct (forallb _ _); split; cbn; auto.
  Qed.

  Lemma framed_use1 : forall v, framed (use1 v).
  Proof.
    intros v o s (H0 & H1 & H). cbn [use1 exec]. cbn [ptrs fr set_sets set_live].
    destruct (ptrs s v) as [t |] eqn:E; [| split; cbn; unfold foreign; auto].
    unfold alive. cbn [live kept fr set_sets set_live]. rewrite mem_app by eauto.
    destruct (mem t (live s) || mem t (kept s)); split; cbn; unfold foreign; auto.
  Qed.

  Lemma framed_use : forall vs, framed (use vs).
  Proof. intros vs. apply framed_each. intros v _. apply framed_use1. Qed.

  Lemma framed_release : forall v, framed (release v).
  Proof.
    intros v o s (H0 & H1 & H). cbn [release exec]. cbn [ptrs fr set_sets set_live].
    destruct (ptrs s v) as [t |] eqn:E; [| split; cbn; unfold foreign; auto].
    cbn [live fr set_sets set_live]. rewrite mem_app, drop_app by eauto.
    destruct (mem t (live s)); split; cbn; unfold foreign; cbn; auto.
    repeat split; auto. intros u Hu. apply mem_drop in Hu. auto.
  Qed.

  Lemma framed_reset : forall vs, framed (reset vs).
  Proof.
    intros vs o s (H0 & H1 & H). split; [reflexivity |]. cbn. unfold foreign. cbn [ptrs set_ptrs live sets].
    split; [exact H0 |]. split; [exact H1 |]. revert H. generalize (ptrs s) as p. induction vs as [| v vs IH]; intros p H; [exact H |].
    cbn. apply IH. apply foreign_assign; [exact H | discriminate].
  Qed.

  Lemma framed_store : forall f v, framed (store f v).
  Proof.
    intros f v o s (H0 & H1 & H). split; [reflexivity |]. cbn. unfold foreign. cbn. split; [exact H0 |]. split; [exact H1 |].
    apply foreign_assign; [exact H | apply H].
  Qed.

  Lemma framed_set_ret : forall v, framed (set_ret v).
  Proof. intros v o s H. split; [reflexivity | exact H]. Qed.

  Lemma framed_unless : forall a, framed a -> framed (unless_ret a).
  Proof.
    intros a Ha o s H. unfold unless_ret. cbn [retval fr set_sets set_live].
    destruct (retval s); [split; cbn; auto | apply Ha; exact H].
  Qed.

  Lemma framed_give : forall v, framed (give v).
  Proof.
    intros v o s (H0 & H1 & H). cbn [give exec]. cbn [ptrs fr set_sets set_live].
    destruct (ptrs s v) as [t |] eqn:E; [| split; cbn; unfold foreign; auto].
    cbn [live fr set_sets set_live]. rewrite mem_app, drop_app by eauto.
    destruct (mem t (live s)); split; cbn; unfold foreign; cbn; auto.
    repeat split; auto. intros u Hu. apply mem_drop in Hu. auto.
  Qed.

  Lemma framed_build : forall vs, mem ("retval", 0) F = false -> framed (build vs).
  Proof.
    intros vs Hv o s H. unfold build. rewrite !exec_bind.
    destruct (framed_each vs give (fun v _ => framed_give v) o s H) as [E Fo]. rewrite E.
    destruct (exec o (each vs give s)) as [s' | s' | s' |]; cbn [frr exec]; try (split; [reflexivity | exact Fo]).
    destruct (o Tuple 0); split; auto.
    destruct Fo as (F0 & F1 & F2). cbn. unfold foreign. cbn. repeat split; auto.
    intros t Ht. apply orb_true_iff in Ht. destruct Ht as [Ht | Ht]; [| auto].
    apply token_eqb_eq in Ht. subst t. exact Hv.
  Qed.

  Lemma framed_call : forall a h, framed a -> framed h -> framed (call a h).
  Proof.
    intros a h Ha Hh o s H. unfold call. rewrite !exec_bind.
    destruct (Ha o s H) as [E Fo]. rewrite E.
    destruct (exec o (a s)) as [s' | s' | s' |]; cbn [frr exec]; try (split; [reflexivity | exact Fo]).
    rewrite !exec_bind. destruct (Hh o s' Fo) as [E' Fo']. rewrite E'.
    destruct (exec o (h s')) as [s2 | s2 | s2 |]; cbn [frr exec]; split; auto.
  Qed.

  Lemma foreign_start : foreign start.
  Proof. repeat split; intros; discriminate. Qed.
End Frame.

(** ** The sets of coefficients of shevaltemp *)
Definition set_names := ["offset"; "arr_cm"; "arr_cv"; "arr_ct"].
Definition set_tokens (i : nat) : list token := map (fun v => (v, i)) set_names.

(** The references of the sets from [k] to [k + n - 1]. *)
Fixpoint all_tokens (k n : nat) : list token :=
  match n with 0 => [] | S n => set_tokens (k + n) ++ all_tokens k n end.

(** The pointers behind the parsing of the set. *)
Definition set_ptr (i : nat) : pointers :=
  let at_ v p := assign p v (Some (v, i)) in
  let p := at_ "arr_cm" (at_ "arr_cv" (at_ "arr_ct" null)) in
  let p := fold_left (fun p v => assign p v None) (map (append "set.") coefset_fields) p in
  let p := assign p "set.arr_ct" (p "arr_ct") in
  let p := assign p "set.arr_cv" (p "arr_cv") in
  let p := assign p "set.arr_cm" (p "arr_cm") in
  let p := at_ "offset" p in
  assign p "set.offset" (p "offset").

Lemma exec_check : forall o i k c s, exec o (check_i i k c [] s) =
  if o (Check c) i then Next s else Exit (raise s).
Proof. intros. cbn. destruct (o (Check c) i); reflexivity. Qed.

Lemma exec_convert : forall o i v s, exec o (convert_i i v s) =
  if o (Convert v) i then own v i s else Exit (raise s).
Proof. intros. cbn. destruct (o (Convert v) i); reflexivity. Qed.

Lemma exec_alloc : forall o i v s, exec o (alloc_i i v s) =
  if o (Alloc v) i then own v i s else Exit (raise s).
Proof. intros. cbn. destruct (o (Alloc v) i); reflexivity. Qed.

Lemma exec_call : forall o a h s, exec o (call a h s) =
  match exec o (a s) with
  | Exit s' => match exec o (h s') with Next s'' => Exit s'' | r => r end
  | r => r
  end.
Proof.
  intros. unfold call. rewrite exec_bind. destruct (exec o (a s)); try reflexivity.
  rewrite exec_bind. cbn [exec]. destruct (exec o (h s0)); reflexivity.
Qed.

Lemma exec_own : forall v i s, mem (v, i) (live s) = false ->
  own v i s = Next (set_ptrs (assign (ptrs s) v (Some (v, i))) (set_live ((v, i) :: live s) s)).
Proof. intros v i s H. unfold own. rewrite H. reflexivity. Qed.

Lemma exec_release_null : forall o v s, ptrs s v = None -> exec o (release v s) = Next s.
Proof. intros o v s H. cbn [release exec]. rewrite H. reflexivity. Qed.

Lemma exec_release : forall o v t s, ptrs s v = Some t -> mem t (live s) = true ->
  exec o (release v s) = Next (set_live (drop t (live s)) s).
Proof. intros o v t s H H'. cbn [release exec]. rewrite H, H'. reflexivity. Qed.

Lemma exec_reset : forall o vs s, exec o (reset vs s) =
  Next (set_ptrs (fold_left (fun p v => assign p v None) vs (ptrs s)) s).
Proof. reflexivity. Qed.

Lemma exec_store : forall o f v s, exec o (store f v s) =
  Next (set_ptrs (assign (ptrs s) f (ptrs s v)) s).
Proof. reflexivity. Qed.

Lemma mem_same : forall v i l, mem (v, i) ((v, i) :: l) = true.
Proof. intros. unfold mem. cbn [existsb]. rewrite token_eqb_refl. reflexivity. Qed.

Lemma mem_other : forall v w i j l, String.eqb v w = false -> mem (v, i) ((w, j) :: l) = mem (v, i) l.
Proof. intros v w i j l H. unfold mem. cbn [existsb]. unfold token_eqb at 1. cbn [fst snd]. rewrite H. reflexivity. Qed.

Lemma drop_same : forall v i l, drop (v, i) ((v, i) :: l) = drop (v, i) l.
Proof. intros. unfold drop. cbn [filter]. rewrite token_eqb_refl. reflexivity. Qed.

Lemma drop_other : forall v w i j l, String.eqb v w = false ->
  drop (v, i) ((w, j) :: l) = (w, j) :: drop (v, i) l.
Proof. intros v w i j l H. unfold drop. cbn [filter]. unfold token_eqb at 1. cbn [fst snd]. rewrite H. reflexivity. Qed.

Ltac tokens := repeat first
  [ rewrite mem_same | rewrite mem_other by reflexivity | rewrite drop_same | rewrite drop_other by reflexivity ];
  try reflexivity.

Ltac fields := cbv beta iota delta [live kept raised ptrs sets retval set_live set_ptrs raise set_retval set_sets set_kept].

Ltac scrutinee t :=
  lazymatch t with
  | match ?x with _ => _ end => scrutinee x
  | _ => t
  end.

Ltac step o :=
  lazymatch goal with
  | |- ?Q ?y => let c := scrutinee y in
    lazymatch c with
    | exec o ((?a ;; ?b) ?s) => rewrite (exec_seq o a b s)
    | exec o (check_i ?i ?k ?n [] ?s) => rewrite (exec_check o i k n s)
    | exec o (convert_i ?i ?v ?s) => rewrite (exec_convert o i v s)
    | exec o (alloc_i ?i ?v ?s) => rewrite (exec_alloc o i v s)
    | exec o (call ?a ?h ?s) => rewrite (exec_call o a h s)
    | exec o (reset ?vs ?s) => rewrite (exec_reset o vs s); cbn [fold_left]; fields
    | exec o (store ?f ?v ?s) => rewrite (exec_store o f v s);
        let p := eval cbv in (ptrs s v) in change (ptrs s v) with p; fields
    | exec o (skip ?s) => change c with (Next s)
    | own ?v ?i ?s => rewrite (exec_own v i s) by (fields; tokens); fields
    | exec o (release ?v ?s) => let p := eval cbv in (ptrs s v) in
        lazymatch p with
        | Some ?t => rewrite (exec_release o v t s) by (first [reflexivity | fields; tokens]); fields; tokens
        | None => rewrite (exec_release_null o v s) by reflexivity
        end
    | o ?q ?i => destruct (o q i)
    end; cbv iota beta
  end.

Lemma parse_coefset_alone : forall o i s (Q : outcome -> Prop), live s = [] -> ptrs s = null ->
  Q (Next (set_ptrs (set_ptr i) (set_live (set_tokens i) s))) ->
  (forall p, Q (Exit (set_ptrs p (raise s)))) ->
  Q (exec o (parse_coefset i s)).
Proof.
  intros o i [l k r p ss v] Q; cbn [live ptrs]. intros -> -> HN HE.
  unfold parse_coefset, coefset_init, coefset_destroy, coefset_fields. cbn [each map fold_right append].
  repeat step o; first [exact HN | fields; tokens; apply HE].
Qed.

Lemma set_tokens_index : forall i v j, mem (v, j) (set_tokens i) = true -> j = i /\ In v set_names.
Proof.
  intros i v j H. unfold mem in H. apply existsb_exists in H. destruct H as (t & Ht & E).
  apply token_eqb_eq in E. subst t. unfold set_tokens in Ht. apply in_map_iff in Ht.
  destruct Ht as (w & E & Hw). injection E as -> ->. auto.
Qed.

Lemma mem_app_or : forall t a b, mem t (a ++ b) = mem t a || mem t b.
Proof. intros. unfold mem. apply existsb_app. Qed.

Lemma all_tokens_index : forall k n v j, mem (v, j) (all_tokens k n) = true -> k <= j < k + n /\ In v set_names.
Proof.
  induction n as [| n IH]; intros v j H; [discriminate H |].
  cbn [all_tokens] in H. rewrite mem_app_or in H. apply orb_true_iff in H. destruct H as [H | H].
  - apply set_tokens_index in H. split; [lia | tauto].
  - apply IH in H. split; [lia | tauto].
Qed.

Lemma all_tokens_above : forall k n v, mem (v, k + n) (all_tokens k n) = false.
Proof.
  intros k n v. destruct (mem (v, k + n) (all_tokens k n)) eqn:E; [| reflexivity].
  apply all_tokens_index in E. lia.
Qed.

Lemma all_tokens_name : forall k n v j, ~ In v set_names -> mem (v, j) (all_tokens k n) = false.
Proof.
  intros k n v j H. destruct (mem (v, j) (all_tokens k n)) eqn:E; [| reflexivity].
  apply all_tokens_index in E. tauto.
Qed.

Lemma all_tokens_snoc : forall n k, all_tokens k (S n) = all_tokens (S k) n ++ set_tokens k.
Proof.
  induction n as [| n IH]; intros k; [cbn [all_tokens app]; rewrite Nat.add_0_r; apply app_nil_r |].
  change (all_tokens k (S (S n))) with (set_tokens (k + S n) ++ all_tokens k (S n)). rewrite IH.
  cbn [all_tokens]. rewrite app_assoc. do 3 f_equal. lia.
Qed.

Ltac frames := repeat first
  [ apply framed_call | apply framed_check | apply framed_convert | apply framed_alloc
  | apply framed_release | apply framed_reset | apply framed_store | apply framed_set_ret
  | apply framed_unless | apply framed_build | apply framed_use | apply framed_when
  | apply framed_each; let v := fresh "v" in let Hv := fresh "Hv" in intros v Hv
  | apply framed_seq | apply framed_skip ].

Lemma framed_coefset : forall F L i, (forall v, mem (v, i) F = false) -> framed F L (parse_coefset i).
Proof.
  intros F L i H. unfold parse_coefset, coefset_init, coefset_destroy.
  repeat first [ apply framed_seq | apply framed_call | apply framed_check | apply framed_convert; apply H
    | apply framed_alloc; apply H | apply framed_release | apply framed_reset | apply framed_store
    | apply framed_each; intros | apply framed_skip ].
Qed.

Definition set_ptrs_to (n : nat) : list pointers := map set_ptr (List.seq 0 n).

Lemma set_ptrs_to_S : forall n, set_ptrs_to (S n) = set_ptrs_to n ++ [set_ptr n].
Proof. intros. unfold set_ptrs_to. rewrite seq_S, map_app. reflexivity. Qed.

(** Nothing owned, no pointers, no sets. *)
Definition blank (s : state) : Prop := live s = [] /\ ptrs s = null /\ sets s = [].

Lemma blank_start : blank start.
Proof. repeat split. Qed.

Lemma blank_raise : forall s, blank s -> blank (raise s).
Proof. intros s H. exact H. Qed.

Lemma foreign_blank : forall F s, blank s -> foreign F s.
Proof.
  intros F s (H1 & H2 & H3). unfold foreign. rewrite H1, H2. split; [exact H3 |]. split; intros; discriminate.
Qed.

Lemma parse_coefsets_outcome : forall o s m n, blank s ->
  exec o (parse_coefsets n m (fr (all_tokens 0 n) (set_ptrs_to n) s)) =
    Next (fr (all_tokens 0 (n + m)) (set_ptrs_to (n + m)) s) \/
  exists k, exec o (parse_coefsets n m (fr (all_tokens 0 n) (set_ptrs_to n) s)) =
    Exit (fr (all_tokens 0 k) (set_ptrs_to k) (raise s)).
Proof.
  intros o s m n B. destruct (B) as (B1 & B2 & B3). revert n. induction m as [| m IH]; intros n.
  - left. cbn. rewrite Nat.add_0_r. reflexivity.
  - cbn [parse_coefsets]. rewrite exec_seq. unfold with_locals. rewrite exec_bind.
    replace (set_ptrs null (fr (all_tokens 0 n) (set_ptrs_to n) s))
      with (fr (all_tokens 0 n) (set_ptrs_to n) s) by (rewrite <- B2; reflexivity).
    destruct (framed_coefset (all_tokens 0 n) (set_ptrs_to n) n (all_tokens_above 0 n) o s
      (foreign_blank _ _ B)) as [E _]. rewrite E.
    apply (parse_coefset_alone o n s); [exact B1 | exact B2 | |].
    + cbn [frr exec].
      replace (push _ _) with (fr (all_tokens 0 (S n)) (set_ptrs_to (S n)) s).
      * replace (n + S m) with (S n + m) by lia. apply IH.
      * rewrite set_ptrs_to_S. unfold push, fr, set_sets, set_live, set_ptrs. cbn [live ptrs kept raised retval sets all_tokens].
        rewrite B1. reflexivity.
    + intros p. cbn [frr exec]. right. exists n. reflexivity.
Qed.

(** ** The destruction of the sets *)
Lemma drop_app_left : forall t l l', mem t l = false -> drop t (l ++ l') = l ++ drop t l'.
Proof. intros t l l' H. unfold drop. rewrite filter_app. fold (drop t l). rewrite drop_id; auto. Qed.

Lemma release_set : forall o i l l' w v s, mem (v, i) l = false -> ptrs s w = Some (v, i) ->
  live s = l ++ l' -> mem (v, i) l' = true ->
  exec o (release w s) = Next (set_live (l ++ drop (v, i) l') s).
Proof.
  intros o i l l' w v s Hl Hp Hs Hm. rewrite (exec_release o w (v, i) s Hp).
  - rewrite Hs, drop_app_left by exact Hl. reflexivity.
  - rewrite Hs, mem_app_or, Hm. apply orb_true_r.
Qed.

Lemma coefset_destroy_outcome : forall o i l s, (forall v, In v set_names -> mem (v, i) l = false) ->
  exists p, exec o (coefset_destroy (set_ptrs (set_ptr i) (set_live (l ++ set_tokens i) s))) =
    Next (set_ptrs p (set_live l s)).
Proof.
  intros o i l s H. eexists.
  unfold coefset_destroy. cbn [each map coefset_fields fold_right append].
  unfold set_tokens, set_names. cbn [map]. rewrite exec_seq, exec_seq.
  rewrite (release_set o i l [("offset", i); ("arr_cm", i); ("arr_cv", i); ("arr_ct", i)] _ "offset");
    [| apply H; cbn; tauto | reflexivity | reflexivity | tokens]. tokens. rewrite exec_seq.
  rewrite (release_set o i l [("arr_cm", i); ("arr_cv", i); ("arr_ct", i)] _ "arr_ct");
    [| apply H; cbn; tauto | reflexivity | reflexivity | tokens]. tokens. rewrite exec_seq.
  rewrite (release_set o i l [("arr_cm", i); ("arr_cv", i)] _ "arr_cv");
    [| apply H; cbn; tauto | reflexivity | reflexivity | tokens]. tokens. rewrite exec_seq.
  rewrite (release_set o i l [("arr_cm", i)] _ "arr_cm");
    [| apply H; cbn; tauto | reflexivity | reflexivity | tokens]. tokens.
  cbn [skip exec]. rewrite exec_reset. cbv [drop filter]. rewrite app_nil_r. reflexivity.
Qed.

Lemma destroy_coefsets_outcome : forall o m k l s p0, ptrs s = p0 ->
  (forall v j, In v set_names -> k <= j < k + m -> mem (v, j) l = false) ->
  live s = l ++ all_tokens k m ->
  exec o (fold_right (fun p r => with_locals coefset_destroy p (fun _ s => s) ;; r) skip
    (map set_ptr (List.seq k m)) s) = Next (set_live l s).
Proof.
  intros o. induction m as [| m IH]; intros k l s p0 Hp Hl Hs.
  - cbn. cbn in Hs. rewrite app_nil_r in Hs. rewrite <- Hs. destruct s; reflexivity.
  - cbn [List.seq map fold_right]. rewrite exec_seq. unfold with_locals at 1. rewrite exec_bind.
    rewrite all_tokens_snoc, app_assoc in Hs.
    destruct (coefset_destroy_outcome o k (l ++ all_tokens (S k) m) s) as [p E].
    { intros v Hv. rewrite mem_app_or, Hl by (auto; lia). cbn.
      destruct (mem (v, k) (all_tokens (S k) m)) eqn:E; [apply all_tokens_index in E; lia | reflexivity]. }
    replace (set_ptrs (set_ptr k) s) with
      (set_ptrs (set_ptr k) (set_live ((l ++ all_tokens (S k) m) ++ set_tokens k) s))
      by (rewrite <- Hs; destruct s; reflexivity).
    rewrite E. cbn [exec]. rewrite (IH (S k) l _ (ptrs s)).
    + destruct s; reflexivity.
    + reflexivity.
    + intros v j Hv Hj. apply Hl; [exact Hv | lia].
    + reflexivity.
Qed.

(** ** The use of the sets *)
Lemma use1_set : forall o w t s, ptrs s w = Some t -> mem t (live s) = true -> exec o (use1 w s) = Next s.
Proof. intros o w t s Hp Hm. cbn [use1 exec]. rewrite Hp. unfold alive. rewrite Hm. reflexivity. Qed.

Lemma use_coefset_outcome : forall o i s, (forall v, In v set_names -> mem (v, i) (live s) = true) ->
  exec o (use (map (append "set.") coefset_fields) (set_ptrs (set_ptr i) s)) = Next (set_ptrs (set_ptr i) s).
Proof.
  intros o i s H. unfold use. cbn [each map coefset_fields fold_right append].
  rewrite exec_seq, (use1_set o _ ("offset", i)), exec_seq, (use1_set o _ ("arr_ct", i)),
    exec_seq, (use1_set o _ ("arr_cv", i)), exec_seq, (use1_set o _ ("arr_cm", i));
    try reflexivity; apply H; cbn; tauto.
Qed.

Lemma use_coefsets_outcome : forall o m k s,
  (forall v j, In v set_names -> k <= j < k + m -> mem (v, j) (live s) = true) ->
  exec o (fold_right (fun p r => with_locals (use (map (append "set.") coefset_fields)) p (fun _ s => s) ;; r)
    skip (map set_ptr (List.seq k m)) s) = Next s.
Proof.
  intros o. induction m as [| m IH]; intros k s H; [reflexivity |].
  cbn [List.seq map fold_right]. rewrite exec_seq. unfold with_locals at 1. rewrite exec_bind.
  rewrite use_coefset_outcome by (intros v Hv; apply H; [exact Hv | lia]). cbn [exec].
  replace (set_ptrs (ptrs s) (set_ptrs (set_ptr k) s)) with s by (destruct s; reflexivity).
  apply IH. intros v j Hv Hj. apply H; [exact Hv | lia].
Qed.

Lemma all_tokens_in : forall k n v j, In v set_names -> k <= j < k + n -> mem (v, j) (all_tokens k n) = true.
Proof.
  induction n as [| n IH]; intros v j Hv Hj; [lia |].
  cbn [all_tokens]. rewrite mem_app_or. destruct (Nat.eq_dec j (k + n)) as [-> | E].
  - apply orb_true_iff. left. unfold mem. apply existsb_exists. exists (v, k + n).
    split; [apply in_map_iff; exists v; auto | apply token_eqb_refl].
  - rewrite (IH v j Hv ltac:(lia)). apply orb_true_r.
Qed.

Lemma framed_use_coefsets : forall n, framed (all_tokens 0 n) (set_ptrs_to n) use_coefsets.
Proof.
  intros n o s H. split.
  - unfold use_coefsets at 2. destruct H as (-> & H1 & H2). unfold use_coefsets.
    cbn [sets fr set_sets]. unfold set_ptrs_to at 1. rewrite use_coefsets_outcome; [reflexivity |].
    intros v j Hv Hj. cbn [live fr set_sets set_live]. rewrite mem_app_or, all_tokens_in by auto. apply orb_true_r.
  - unfold use_coefsets. rewrite (proj1 H). exact H.
Qed.

(** ** shevaltemp: the sets change nothing but what the parsing of them does *)
Definition st_keywords := ["arr_t"; "arr_x"; "coef_set_list"; "coord_type_in"; "coord_type_out"; "mode";
  "is_internal"; "scale_potential"; "scale_gradient"].

Definition st_before (flag : bool) : stmt :=
  parse ;;
  when flag truth ;;
  check st_keywords "ct_in" [3] ;;
  check st_keywords "ct_out" [4] ;;
  check st_keywords "mode" [] ;;
  check st_keywords "list" [2] ;;
  check st_keywords "not_empty" [2] ;;
  check st_keywords "max_size" [2].

Definition st_after (m : mode) (scale points : bool) : stmt :=
  convert "arr_t" ;;
  convert "arr_x" ;;
  check st_keywords "degree" [] ;;
  check st_keywords "last" [1] ;;
  check st_keywords "shape" [0; 1] ;;
  when scale (convert "arr_scale" ;; check st_keywords "scale_gradient" [8]) ;;
  when (with_pot m) (alloc "arr_pot") ;;
  when (with_grd m) (alloc "arr_grd") ;;
  model_ts_init ;;
  when points use_coefsets ;;
  evaluate m points (["arr_t"; "arr_x"; "model.coef"] ++ model_fields).

Definition st_release : stmt :=
  release "arr_t" ;; release "arr_x" ;; release "arr_scale" ;;
  unless_ret (release "arr_grd") ;; unless_ret (release "arr_pot").

Definition st_exit : stmt := model_ts_destroy ;; destroy_coefsets ;; st_release.

Definition st_tail (m : mode) (scale points : bool) (s : state) (o : oracle) : outcome :=
  match exec o (st_after m scale points s) with
  | Next s | Exit s => exec o (st_exit s)
  | Return s => Next s
  | Crash => Crash
  end.

Lemma shevaltemp_parts : forall o nset m flag scale points,
  exec o (shevaltemp nset m flag scale points) =
  match exec o (st_before flag start) with
  | Next s => match exec o (parse_coefsets 0 nset s) with
      | Next s => st_tail m scale points s o
      | Exit s => exec o (st_exit s)
      | Return s => Next s
      | Crash => Crash
      end
  | Exit s => exec o (st_exit s)
  | Return s => Next s
  | Crash => Crash
  end.
Proof.
  intros. unfold shevaltemp, func. rewrite exec_bind. fold st_keywords. fold st_release. fold st_exit.
  match goal with |- exec o match exec o ?b with _ => _ end = _ =>
    replace (exec o b) with (exec o ((st_before flag ;; parse_coefsets 0 nset ;; st_after m scale points) start)) end.
  - rewrite !exec_seq. destruct (exec o (st_before flag start)) as [s | s | s |]; try reflexivity.
    rewrite exec_seq. destruct (exec o (parse_coefsets 0 nset s)) as [s' | s' | s' |]; try reflexivity.
    unfold st_tail. destruct (exec o (st_after m scale points s')); reflexivity.
  - unfold st_before. fold (st_after m scale points).
    generalize (parse_coefsets 0 nset ;; st_after m scale points). intros r. rewrite exec_seq, exec_seq, exec_seq.
    destruct (exec o (parse start)) as [s1 | | |]; try reflexivity. rewrite !(exec_seq o (when flag truth)).
    destruct (exec o (when flag truth s1)) as [s2 | | |]; try reflexivity.
    repeat (rewrite !(exec_seq o (check _ _ _));
      match goal with |- match match ?c with _ => _ end with _ => _ end = _ => destruct c; try reflexivity end).
    rewrite exec_seq. reflexivity.
Qed.

Lemma st_before_outcome : forall o flag, (flag = true -> o Truth 0 = true) ->
  exec o (st_before flag start) = Next start \/ exec o (st_before flag start) = Exit (raise start).
Proof.
  intros o flag H. destruct flag; [specialize (H eq_refl) | clear H]; cbn.
  - destruct (o Parse 0); auto. rewrite H.
    repeat (match goal with |- context [o (Check ?c) 0] => destruct (o (Check c) 0); auto end).
  - destruct (o Parse 0); auto.
    repeat (match goal with |- context [o (Check ?c) 0] => destruct (o (Check c) 0); auto end).
Qed.

Lemma framed_after : forall n m scale points,
  framed (all_tokens 0 n) (set_ptrs_to n) (st_after m scale points).
Proof.
  intros n m scale points.
  assert (H : forall v, ~ In v set_names -> mem (v, 0) (all_tokens 0 n) = false)
    by (intros; apply all_tokens_name; auto).
  unfold st_after, model_ts_init, model_init, model_ts_destroy, model_destroy, evaluate.
  destruct m; cbn [with_pot with_grd]; frames; try apply framed_use_coefsets;
    apply H; cbn; cbn in *; intuition (subst; discriminate).
Qed.

Lemma framed_destroy_model : forall n, framed (all_tokens 0 n) (set_ptrs_to n) model_ts_destroy.
Proof. intros n. unfold model_ts_destroy, model_destroy. frames. Qed.

Lemma framed_st_release : forall F L, framed F L st_release.
Proof. intros F L. unfold st_release. frames. Qed.

(** The destructors fall through. *)
Definition quiet (a : stmt) : Prop := forall o s, match exec o (a s) with Next _ | Crash => True | _ => False end.

Lemma quiet_seq : forall a b, quiet a -> quiet b -> quiet (a ;; b).
Proof.
  intros a b Ha Hb o s. rewrite exec_seq. specialize (Ha o s). destruct (exec o (a s)); auto. apply Hb.
Qed.

Lemma quiet_release : forall v, quiet (release v).
Proof. intros v o s. cbn. destruct (ptrs s v) as [t |]; [destruct (mem t (live s)) |]; exact I. Qed.

Lemma quiet_releases : forall vs, quiet (each vs release).
Proof.
  induction vs as [| v vs IH]; [intros o s; exact I |]. cbn. apply quiet_seq; [apply quiet_release | exact IH].
Qed.

Lemma quiet_reset : forall vs, quiet (reset vs).
Proof. intros vs o s. exact I. Qed.

Lemma model_ts_destroy_quiet : quiet model_ts_destroy.
Proof.
  unfold model_ts_destroy, model_destroy.
  repeat first [apply quiet_releases | apply quiet_release | apply quiet_reset | apply quiet_seq].
Qed.

Lemma st_exit_framed : forall o n s, foreign (all_tokens 0 n) s ->
  exec o (st_exit (fr (all_tokens 0 n) (set_ptrs_to n) s)) = frr [] (set_ptrs_to n) (exec o (st_exit s)).
Proof.
  intros o n s H. unfold st_exit. rewrite !exec_seq.
  destruct (framed_destroy_model n o s H) as [E Fo]. rewrite E.
  assert (Q := model_ts_destroy_quiet o s).
  destruct (exec o (model_ts_destroy s)) as [s1 | s1 | s1 |]; cbn [frr foreign_r] in *;
    [| contradiction Q | contradiction Q | reflexivity].
  rewrite !exec_seq. unfold destroy_coefsets. destruct Fo as (H0 & H1 & H2).
  cbn [sets fr set_sets set_live]. rewrite H0. cbn [fold_right skip exec].
  unfold set_ptrs_to at 1. rewrite (destroy_coefsets_outcome o n 0 (live s1) _ (ptrs s1)).
  - replace (set_live (live s1) (fr (all_tokens 0 n) (set_ptrs_to n) s1)) with (fr [] (set_ptrs_to n) s1)
      by (unfold fr; rewrite app_nil_r; destruct s1; reflexivity).
    apply framed_st_release. split; [exact H0 | split; intros; reflexivity].
  - reflexivity.
  - intros v j Hv Hj. destruct (mem (v, j) (live s1)) eqn:Em; [| reflexivity].
    apply H1 in Em. rewrite all_tokens_in in Em by auto. discriminate Em.
  - reflexivity.
Qed.

Lemma clean_frr : forall L r, clean r -> clean (frr [] L r).
Proof.
  intros L r (s & -> & H). exists (fr [] L s). split; [reflexivity |]. unfold fr.
  cbn [retval live raised set_sets set_live]. rewrite app_nil_r. exact H.
Qed.

Definition nextb (r : outcome) : bool := match r with Return _ => false | _ => true end.

Lemma st_after_no_return : forall o m scale points s, s = start \/ s = raise start ->
  nextb (exec o (st_after m scale points s)) = true.
Proof.
  intros o m scale points s H. apply (all_leaves_sound (fun _ _ => None)); [discriminate |].
  destruct H as [-> | ->], m, scale, points; vm_compute; reflexivity.
Qed.

Lemma st_tail_framed : forall o n m scale points s, s = start \/ s = raise start ->
  exists L, st_tail m scale points (fr (all_tokens 0 n) (set_ptrs_to n) s) o =
     frr [] L (st_tail m scale points s o).
Proof.
  intros o n m scale points s Hs. unfold st_tail. assert (R := st_after_no_return o m scale points s Hs).
  destruct (framed_after n m scale points o s) as [E Fo];
    [destruct Hs as [-> | ->]; apply foreign_blank; [| apply blank_raise]; apply blank_start |].
  rewrite E. destruct (exec o (st_after m scale points s)) as [s' | s' | s' |]; cbn [frr foreign_r nextb] in *.
  - exists (set_ptrs_to n). apply st_exit_framed. exact Fo.
  - exists (set_ptrs_to n). apply st_exit_framed. exact Fo.
  - discriminate R.
  - exists []. reflexivity.
Qed.

(** ** The functions, one by one *)
Definition assuming (tuple flag check_ : bool) (q : site) (i : nat) : option bool :=
  match q with
  | Tuple => if tuple then Some true else None
  | Truth => if flag then Some true else None
  | Check c => if check_ && String.eqb c "scale_gradient" then Some true else None
  | _ => None
  end.

Definition knows (f : function) : site -> nat -> option bool :=
  fun q i => match i with
    | 0 => assuming (returns_tuple f) (flag_given f) (sheval_scale f) q i
    | S _ => None
    end.

Lemma knows_sound : forall f o, (returns_tuple f = true -> o Tuple 0 = true) ->
  (flag_given f = true -> o Truth 0 = true) ->
  (sheval_scale f = true -> o (Check "scale_gradient") 0 = true) ->
  forall q i b, knows f q i = Some b -> o q i = b.
Proof.
  intros f o H1 H2 H3 q [| i] b; [| discriminate]. unfold knows, assuming. destruct q; try discriminate.
  - destruct (flag_given f); [| discriminate]. intros E. injection E as <-. auto.
  - destruct (sheval_scale f); [| discriminate]. cbn [andb]. destruct (String.eqb c "scale_gradient") eqn:Ec; [| discriminate].
    apply String.eqb_eq in Ec. subst c. intros E. injection E as <-. auto.
  - destruct (returns_tuple f); [| discriminate]. intros E. injection E as <-. auto.
Qed.

Lemma shevaltemp_clean : forall o nset m flag scale points,
  (m = Both -> o Tuple 0 = true) -> (flag = true -> o Truth 0 = true) ->
  clean (exec o (shevaltemp nset m flag scale points)).
Proof.
  intros o nset m flag scale points Ht Hf.
  assert (E0 : clean (exec o (shevaltemp 0 m flag scale points))).
  { apply cleanb_sound. apply (all_leaves_sound (knows (Shevaltemp 0 m flag scale points))).
    - apply knows_sound; cbn; [destruct m; try discriminate; auto | auto | discriminate].
    - destruct m, flag, scale, points; vm_compute; reflexivity. }
  rewrite shevaltemp_parts in *.
  destruct (st_before_outcome o flag Hf) as [E | E]; rewrite E in *; [| exact E0].
  change start with (fr (all_tokens 0 0) (set_ptrs_to 0) start) at 1.
  destruct (parse_coefsets_outcome o start nset 0 blank_start) as [Ep | [k Ep]]; rewrite Ep.
  - cbn [parse_coefsets skip exec] in E0. cbn [Nat.add].
    destruct (st_tail_framed o nset m scale points start) as [L EL]; [auto |].
    rewrite EL. apply clean_frr. exact E0.
  - rewrite st_exit_framed by (split; [reflexivity | split; intros; discriminate]).
    apply clean_frr. eexists. split; [reflexivity |]. vm_compute. auto.
Qed.

Lemma run_clean : forall f o, is_sheval2dfs f = false ->
  (returns_tuple f = true -> o Tuple 0 = true) -> (flag_given f = true -> o Truth 0 = true) ->
  (sheval_scale f = true -> o (Check "scale_gradient") 0 = true) -> clean (run f o).
Proof.
  intros f o Hn H1 H2 H3. assert (K := knows_sound f o H1 H2 H3). unfold run.
  destruct f as [| | | | | | | | | | nset m flag scale points | | | | | | | | | | | |]; try discriminate Hn;
    try (apply cleanb_sound; apply (all_leaves_sound _ _ _ _ K); lazymatch goal with n : nat |- _ => fail | _ => idtac end; repeat match goal with
         | b : bool |- _ => destruct b | m : mode |- _ => destruct m end; vm_compute; reflexivity).
  cbn [executions]. apply shevaltemp_clean; [intros ->; auto | auto].
Qed.

(** ** The failures *)

(** The sets are parsed if no step of it fails. *)
Definition grants (o : oracle) : Prop :=
  forall q i, match q with Check _ | Convert _ | Alloc _ => o q i = true | _ => True end.

Definition succeeds (o : oracle) (a : stmt) : Prop :=
  forall s, match exec o (a s) with Next _ | Crash => True | _ => False end.

Lemma succeeds_seq : forall o a b, succeeds o a -> succeeds o b -> succeeds o (a ;; b).
Proof.
  intros o a b Ha Hb s. rewrite exec_seq. specialize (Ha s). destruct (exec o (a s)); auto. apply Hb.
Qed.

Lemma succeeds_call : forall o a h, succeeds o a -> succeeds o (call a h).
Proof. intros o a h Ha s. rewrite exec_call. specialize (Ha s). destruct (exec o (a s)); auto; contradiction. Qed.

Lemma succeeds_own : forall (o : oracle) i v s, match own v i s with Next _ | Crash => True | _ => False end.
Proof. intros o i v s. unfold own. destruct (mem (v, i) (live s)); exact I. Qed.

Lemma parse_coefset_succeeds : forall o i, grants o -> succeeds o (parse_coefset i).
Proof.
  intros o i G. unfold parse_coefset, coefset_init.
  repeat first [ apply succeeds_call | apply succeeds_seq ]; intros s;
    try (rewrite exec_check; rewrite (G (Check _) i : o (Check _) i = true); exact I);
    try (rewrite exec_convert; rewrite (G (Convert _) i : o (Convert _) i = true); apply (succeeds_own o));
    try (rewrite exec_alloc; rewrite (G (Alloc _) i : o (Alloc _) i = true); apply (succeeds_own o));
    exact I.
Qed.

Lemma parse_coefsets_succeed : forall o m n, grants o -> succeeds o (parse_coefsets n m).
Proof.
  intros o m n G. revert n. induction m as [| m IH]; intros n; [intros s; exact I |].
  cbn [parse_coefsets]. apply succeeds_seq; [| apply IH]. intros s. unfold with_locals. rewrite exec_bind.
  assert (H := parse_coefset_succeeds o n G (set_ptrs null s)).
  destruct (exec o (parse_coefset n (set_ptrs null s))); auto.
Qed.

Lemma shevaltemp_sets : forall o nset m flag scale points s, grants o -> s = start \/ s = raise start ->
  exec o (st_before flag start) = Next s -> exists L,
  exec o (shevaltemp nset m flag scale points) = frr [] L (exec o (shevaltemp 0 m flag scale points)).
Proof.
  intros o nset m flag scale points s G Hs E. rewrite !shevaltemp_parts, E.
  cbn [parse_coefsets skip exec].
  assert (B : blank s) by (destruct Hs as [-> | ->]; repeat split).
  replace (parse_coefsets 0 nset s) with (parse_coefsets 0 nset (fr (all_tokens 0 0) (set_ptrs_to 0) s)).
  2: { f_equal. destruct Hs as [-> | ->]; reflexivity. }
  assert (Su := parse_coefsets_succeed o nset 0 G (fr (all_tokens 0 0) (set_ptrs_to 0) s)).
  destruct (parse_coefsets_outcome o s nset 0 B) as [Ep | [k Ep]]; rewrite Ep in *; [| contradiction Su].
  cbn [Nat.add]. apply st_tail_framed. exact Hs.
Qed.

Lemma tuple_crashes : forall f, returns_tuple f = true -> crashes (run f (all_but Tuple)).
Proof.
  intros f H. unfold crashes, run.
  destruct f; try discriminate H;
    try (repeat match goal with b : bool |- _ => destruct b | m : mode |- _ => destruct m end;
         try discriminate H; vm_compute; reflexivity).
  cbn [executions]. destruct m; try discriminate H.
  destruct (shevaltemp_sets (all_but Tuple) nset Both flag scale points start) as [L E].
  - intros [] i; exact I || reflexivity.
  - auto.
  - destruct flag; reflexivity.
  - rewrite E. replace (exec (all_but Tuple) (shevaltemp 0 Both flag scale points)) with Crash; [reflexivity |].
    destruct flag, scale, points; vm_compute; reflexivity.
Qed.

Lemma returns_frr : forall L r, returns_with_exception r -> returns_with_exception (frr [] L r).
Proof. intros L r (s & t & -> & H). exists (fr [] L s), t. split; [reflexivity | exact H]. Qed.

Lemma truth_returns : forall f, flag_given f = true -> returns_with_exception (run f (all_but Truth)).
Proof.
  intros f H. unfold run.
  destruct f; try discriminate H;
    try (cbn [flag_given] in H; try subst; try (apply returns_with_exceptionb_sound;
         repeat match goal with b : bool |- _ => destruct b | m : mode |- _ => destruct m end;
         try discriminate H; vm_compute; reflexivity)).
  cbn [executions].
  destruct (shevaltemp_sets (all_but Truth) nset m true scale points (raise start)) as [L E].
  - intros [] i; exact I || reflexivity.
  - auto.
  - reflexivity.
  - rewrite E. apply returns_frr. apply returns_with_exceptionb_sound.
    destruct m, scale, points; vm_compute; reflexivity.
Qed.

Lemma sheval_scale_crashes : forall m flag points,
  crashes (run (Sheval m flag true points) (all_but (Check "scale_gradient"))).
Proof. intros m flag points. destruct m, flag, points; vm_compute; reflexivity. Qed.

Definition leaksb (x : token) (r : outcome) : bool :=
  match r with
  | Next s => match retval s, live s with
      | Some t, [u; y] => token_eqb t u && token_eqb x y && negb (raised s)
      | _, _ => false
      end
  | _ => false
  end.

Lemma leaksb_sound : forall x r, leaksb x r = true -> leaks [x] r.
Proof.
  intros x [s | s | s |]; cbn [leaksb]; try discriminate. destruct (retval s) as [t |] eqn:E; try discriminate.
  destruct (live s) as [| u [| y [| z l]]] eqn:El; try discriminate.
  rewrite !andb_true_iff, !token_eqb_eq, negb_true_iff. intros [[-> ->] Hr]. exists s, u. auto.
Qed.

Lemma sheval2dfs_leaks : forall m flag scale points,
  leaks [("offset", 0)] (run (Sheval2dfs m flag scale points) (fun _ _ => true)).
Proof.
  intros m flag scale points. apply leaksb_sound. destruct m, flag, scale, points; vm_compute; reflexivity.
Qed.

Lemma sheval2dfs_bad_set : forall m flag scale points,
  let r := run (Sheval2dfs m flag scale points) (all_but (Convert "arr_ab")) in
  if points then crashes r else returns_with_exception r.
Proof.
  intros m flag scale points. destruct m, flag, scale, points; cbv zeta;
    first [apply returns_with_exceptionb_sound; vm_compute; reflexivity | vm_compute; reflexivity].
Qed.

(** sheval2dfs with a valid set *)
Definition clean_but_b (x : token) (r : outcome) : bool :=
  match r with
  | Next s => match retval s, live s with
      | Some t, [u] => token_eqb t u && negb (raised s)
      | Some t, [u; y] => token_eqb t u && token_eqb x y && negb (raised s)
      | None, [] => raised s
      | None, [y] => token_eqb x y && raised s
      | _, _ => false
      end
  | _ => false
  end.

Lemma clean_but_sound : forall x r, clean_but_b x r = true -> clean_but x r.
Proof.
  intros x [s | s | s |]; cbn [clean_but_b]; try discriminate. intros H. exists s. split; [reflexivity |].
  destruct (retval s) as [t |], (live s) as [| u [| y [| z l]]]; try discriminate;
    rewrite ?andb_true_iff, ?token_eqb_eq, ?negb_true_iff in H; intuition subst; auto.
Qed.

Definition knows_set (m : mode) (flag : bool) (q : site) (i : nat) : option bool :=
  match i with
  | 0 => if existsb (fun q' => match q, q' with
             | Convert v, Convert w | Check v, Check w | Alloc v, Alloc w => String.eqb v w
             | _, _ => false
             end) set_sites then Some true
         else assuming (match m with Both => true | _ => false end) flag false q i
  | S _ => None
  end.

Lemma sheval2dfs_clean_but : forall m flag scale points o,
  (forall q, In q set_sites -> o q 0 = true) ->
  (m = Both -> o Tuple 0 = true) -> (flag = true -> o Truth 0 = true) ->
  clean_but ("offset", 0) (run (Sheval2dfs m flag scale points) o).
Proof.
  intros m flag scale points o Hs Ht Hf. apply clean_but_sound.
  apply (all_leaves_sound (knows_set m flag)).
  - intros q [| i] b; [| discriminate]. unfold knows_set.
    match goal with |- context [if ?c then _ else _] => destruct c eqn:E end.
    + intros Eb. injection Eb as <-. apply existsb_exists in E. destruct E as (q' & Hq & E).
      destruct q, q'; try discriminate E; apply String.eqb_eq in E; subst; apply Hs; exact Hq.
    + destruct q; cbn; try discriminate.
      * destruct flag; [| discriminate]. intros Eb. injection Eb as <-. auto.
      * destruct m; try discriminate. intros Eb. injection Eb as <-. auto.
  - destruct m, flag, scale, points; vm_compute; reflexivity.
Qed.
