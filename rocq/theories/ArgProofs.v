(** Proofs about the acceptance of the arguments. *)

From Coq Require Import Bool List Reals ZArith Lia.
From Verif Require Import ArrModel LegendreModel SizeModel SizeProofs CoefModel ShEvalModel ShEvalSpec ShEvalProofs SpharModel TempModel
  TempSpec TempProofs FourierModel FourierProofs SunModel SunProofs BisectModel InterpModel ROrd TimeModel CoordModel GeoModel StridedModel
  StridedSpec StridedProofs StridedEvalModel NdModel NdSpec ArgSpec.
Import ListNotations.
Open Scope Z_scope.

Local Notation "'do' x <- r ; e" := (bind r (fun x => e)) (at level 200, x pattern).

(** ** Calculations which do not raise ValueError *)

Definition calm {A} (r : result A) : Prop := r <> Err ValueError.

Lemma calm_bind {A B} (r : result A) (f : A -> result B) : calm r -> (forall x, calm (f x)) -> calm (bind r f).
Proof. unfold calm. intros H1 H2. destruct r as [x|e]; simpl; [apply H2|]. intro E. apply H1. congruence. Qed.
Lemma calm_for {S} n (body : nat -> S -> result S) : (forall i s, calm (body i s)) -> forall s, calm (for_st n body s).
Proof.
  intros H s. unfold for_st. generalize (seq 0 n). intro l.
  assert (G : forall r, calm r -> calm (fold_left (fun r i => match r with Ok s => body i s | Err e => Err e end) l r)).
  { induction l as [|i l IH]; intros r Hr; [exact Hr|]. simpl. apply IH. destruct r as [s'|e]; [apply H|].
    unfold calm in *. intro E. apply Hr. congruence. }
  apply G. discriminate.
Qed.
Lemma calm_items n body : (forall i m, calm (body i m)) -> forall m, calm (for_items n body m).
Proof. exact (@calm_for memory n body). Qed.
Lemma calm_walk {S} (item : list arrd -> list arrd -> S -> result S) : (forall ins outs s, calm (item ins outs s)) ->
  forall dims ins outs s, calm (walk item dims ins outs s).
Proof.
  intros H dims. induction dims as [|d ds IH]; intros ins outs s; cbn [walk]; [apply H|]. apply calm_for. intros i s'. apply IH.
Qed.
Lemma calm_recurse item : (forall ins out m, calm (item ins out m)) -> forall dims ins out m, calm (recurse item dims ins out m).
Proof.
  intros H dims. induction dims as [|d ds IH]; intros ins outs s; cbn [recurse]; [apply H|]. apply calm_items. intros i s'. apply IH.
Qed.

Lemma calm_ok {A} (x : A) : calm (Ok x). Proof. discriminate. Qed.
Lemma calm_oob {A} : calm (@Err A OutOfBounds). Proof. discriminate. Qed.
Lemma calm_system {A} : calm (@Err A SystemError). Proof. discriminate. Qed.
Lemma calm_load m a : calm (load m a).
Proof. unfold load. destruct (a mod 8 =? 0); [|apply calm_oob]. destruct (m (a / 8)); [apply calm_ok|apply calm_oob]. Qed.
Lemma calm_store m a v : calm (store m a v).
Proof. unfold store. destruct (a mod 8 =? 0); [|apply calm_oob]. destruct (m (a / 8)); [apply calm_ok|apply calm_oob]. Qed.
Lemma calm_fetch m a : calm (fetch m a).
Proof. unfold fetch. destruct (a mod 8 =? 0); [|apply calm_oob]. destruct (m (a / 8)) as [[x|i]|]; [apply calm_ok|apply calm_oob..]. Qed.
Lemma calm_put m a v : calm (put m a v).
Proof. unfold put. destruct (a mod 8 =? 0); [|apply calm_oob]. destruct (m (a / 8)); [apply calm_ok|apply calm_oob]. Qed.

Create HintDb calm.
#[local] Hint Resolve calm_ok calm_oob calm_system calm_load calm_store calm_fetch calm_put : calm.

Ltac calm1 :=
  first
    [ apply calm_bind; [|intros ?]
    | apply calm_walk; intros ? ? ?
    | apply calm_recurse; intros ? ? ?
    | apply calm_for; intros ? ?
    | solve [auto 2 with calm]
    | match goal with
      | |- calm (let '(_, _) := ?p in _) => destruct p
      | |- calm (let _ := ?p in _) => intro
      | |- calm (match ?x with _ => _ end) => destruct x
      end ].
Ltac calm := repeat calm1.

Lemma calm_fetch_real m a : calm (fetch_real m a). Proof. unfold fetch_real. calm. Qed.
#[local] Hint Resolve calm_fetch_real : calm.
Lemma calm_fetch_list m : forall n a, calm (fetch_list m a n).
Proof. induction n as [|n IH]; intro a; cbn [fetch_list]; calm. Qed.
#[local] Hint Resolve calm_fetch_list : calm.
Lemma calm_fetch_arr m a n : calm (fetch_arr m a n). Proof. unfold fetch_arr. calm. Qed.
Lemma calm_fetch_pairs m a n : calm (fetch_pairs m a n). Proof. unfold fetch_pairs. calm. Qed.
Lemma calm_put_list : forall l m a s, calm (put_list m a s l).
Proof. induction l as [|c l IH]; intros m a s; cbn [put_list]; calm. Qed.
Lemma calm_fetch_args m : forall l, calm (fetch_args m l).
Proof. induction l as [|c l IH]; cbn [fetch_args]; calm. Qed.
#[local] Hint Resolve calm_fetch_arr calm_fetch_pairs calm_put_list calm_fetch_args : calm.
Lemma calm_P a i : calm (P a i). Proof. unfold P. calm. Qed.
#[local] Hint Resolve calm_P : calm.
Lemma calm_V m a i : calm (V m a i).
Proof. unfold V, P. destruct (stride a); [apply calm_oob|apply calm_load]. Qed.
Lemma calm_set_V m a i v : calm (set_V m a i v).
Proof. unfold set_V, P. destruct (stride a); [apply calm_oob|apply calm_store]. Qed.
#[local] Hint Resolve calm_V calm_set_V : calm.
Lemma calm_load_coefs m a n : calm (load_coefs m a n). Proof. unfold load_coefs. calm. Qed.
Lemma calm_get_coefs m c n : calm (get_coefs m c n).
Proof. unfold get_coefs. destruct c; [apply calm_load_coefs|apply calm_ok]. Qed.
Lemma calm_store_potential m p v : calm (store_potential m p v). Proof. unfold store_potential. calm. Qed.
Lemma calm_store_gradient m p v : calm (store_gradient m p v). Proof. unfold store_gradient. calm. Qed.
#[local] Hint Resolve calm_get_coefs calm_store_potential calm_store_gradient : calm.

Lemma calm_sheval_rec cfg mode : forall odims pot grd x c s, calm (sheval_rec cfg mode odims pot grd x c s).
Proof.
  induction odims as [|d ds IH]; intros pot grd x c [m st]; cbn [sheval_rec].
  - calm.
  - apply calm_for. intros i s. apply IH.
Qed.
#[local] Hint Resolve calm_sheval_rec : calm.
Lemma calm_shevaltemp_rec cfg nterm css mode : forall tdims odims pot grd t x s,
  calm (shevaltemp_rec cfg nterm css mode tdims odims pot grd t x s).
Proof.
  induction tdims as [|d ds IH]; intros odims pot grd t x [m st]; cbn [shevaltemp_rec].
  - calm.
  - apply calm_for. intros i s. apply IH.
Qed.
Lemma calm_sheval2dfs_rec cfg nterm rows mode : forall fuel odims pot grd t1 t2 x s,
  calm (sheval2dfs_rec cfg nterm rows mode fuel odims pot grd t1 t2 x s).
Proof.
  induction fuel as [|fuel IH]; intros odims pot grd t1 t2 x [m st]; cbn [sheval2dfs_rec].
  - calm.
  - destruct (match shape t1 with [] => _ | _ :: _ => _ end); [|calm]. apply calm_for. intros i s. apply IH.
Qed.
#[local] Hint Resolve calm_shevaltemp_rec calm_sheval2dfs_rec : calm.

(** ** Shapes *)

Lemma refused_iff {A} (call : result A) (valid : Prop) :
  (valid -> calm call) -> (refused call \/ valid) -> (refused call <-> ~ valid).
Proof. unfold refused, calm. intros H1 H2. split; [intros E V; now apply (H1 V)|]. intros N. destruct H2; tauto. Qed.

Lemma bad {A} (P : Prop) : refused (@Err A ValueError) \/ P. Proof. left. reflexivity. Qed.

Lemma snoc (l : list nat) : (1 <= length l)%nat -> l = removelast l ++ [last l 0%nat].
Proof. intro H. apply app_removelast_last. intros ->. simpl in H. lia. Qed.

Lemma drop1 l : drop_last 1 l = removelast l.
Proof. unfold drop_last. rewrite removelast_firstn_len. f_equal. lia. Qed.
Lemma dropn (ds l : list nat) : drop_last (length l) (ds ++ l) = ds.
Proof.
  unfold drop_last. rewrite app_length. replace (length ds + length l - length l)%nat with (length ds + 0)%nat by lia.
  rewrite firstn_app_2. simpl. apply app_nil_r.
Qed.
Lemma dimn a (ds l : list nat) n k : shape a = ds ++ l -> (n <= length l)%nat -> nth (length l - n) l 0%nat = k -> dim_last n a = k.
Proof.
  intros E H K. unfold dim_last. rewrite E, app_length. replace (length ds + length l - n)%nat with (length ds + (length l - n))%nat by lia.
  rewrite app_nth2_plus. exact K.
Qed.
Lemma last2 (l : list nat) : (2 <= length l)%nat -> exists ds a b, l = ds ++ [a; b].
Proof.
  intro H. exists (removelast (removelast l)), (last (removelast l) 0%nat), (last l 0%nat).
  rewrite (snoc l) at 1 by lia. rewrite (snoc (removelast l)) at 1.
  - rewrite <- app_assoc. reflexivity.
  - rewrite removelast_firstn_len, firstn_length. lia.
Qed.
Lemma last1 (l : list nat) : (1 <= length l)%nat -> exists ds a, l = ds ++ [a].
Proof. intro H. exists (removelast l), (last l 0%nat). now apply snoc. Qed.
Lemma last3 (l : list nat) : (3 <= length l)%nat -> exists ds a b c, l = ds ++ [a; b; c].
Proof.
  intro H. destruct (last1 l) as (l1 & c & ->); [lia|]. rewrite app_length in H. simpl in H.
  destruct (last2 l1) as (ds & a & b & ->); [lia|]. exists ds, a, b, c. rewrite <- app_assoc. reflexivity.
Qed.
Lemma one_dim (l : list nat) : length l = 1%nat <-> exists n, l = [n].
Proof. split; [destruct l as [|a [|]]; try discriminate; eauto|intros (n & ->); reflexivity]. Qed.

Lemma agree_dims shapes dims : (forall s, In s shapes -> (length s <= length dims)%nat) -> In dims shapes ->
  (existsb (compare_dimensions dims) shapes = false <-> agree shapes).
Proof.
  intros Hl Hin. split.
  - intro H. exists dims. apply Forall_forall. intros s Hs. apply compare_prefix; [now apply Hl|].
    destruct (compare_dimensions dims s) eqn:C; [|reflexivity].
    assert (existsb (compare_dimensions dims) shapes = true) by (apply existsb_exists; eauto). congruence.
  - intros (D & HD). rewrite Forall_forall in HD. destruct (existsb _ _) eqn:C; [|reflexivity].
    apply existsb_exists in C. destruct C as (s & Hs & C). destruct (HD _ Hs) as (c & E). destruct (HD _ Hin) as (c' & E').
    assert (prefix s dims).
    { pose proof (Hl _ Hs). rewrite E' in E. exists (skipn (length s) dims).
      assert (F : firstn (length s) (dims ++ c') = s) by (rewrite E; replace (length s) with (length s + 0)%nat by lia;
        rewrite firstn_app_2; simpl; apply app_nil_r).
      rewrite firstn_app in F. replace (length s - length dims)%nat with 0%nat in F by lia. simpl in F. rewrite app_nil_r in F.
      rewrite <- F at 1. symmetry. apply firstn_skipn. }
    apply compare_prefix in H; [congruence|now apply Hl].
Qed.

Lemma common_shape_in l : l <> [] -> In (extract_common_shape l) l.
Proof.
  destruct l as [|s ss]; [congruence|]. intros _. cbn [extract_common_shape]. revert s.
  induction ss as [|s' ss IH]; intro s; [left; reflexivity|]. cbn [fold_left].
  destruct (Nat.ltb (length s) (length s')).
  - right. apply (IH s').
  - destruct (IH s) as [E|E]; [left; exact E|right; right; exact E].
Qed.
Lemma common_shape_longest l : forall s, In s l -> (length s <= length (extract_common_shape l))%nat.
Proof.
  destruct l as [|s ss]; [intros s []|]. cbn [extract_common_shape]. revert s.
  assert (G : forall (ss : list (list nat)) s, (length s <= length (fold_left (fun dims s' => if Nat.ltb (length dims) (length s') then s' else dims) ss s))%nat).
  { clear. induction ss as [|s' ss IH]; intro s; [reflexivity|]. cbn [fold_left].
    destruct (Nat.ltb_spec (length s) (length s')); [transitivity (length s'); [lia|apply IH]|apply IH]. }
  induction ss as [|s' ss IH]; intros s x [<-|Hx]; try (apply (G _ s)); [destruct Hx|].
  cbn [fold_left]. destruct Hx as [<-|Hx].
  - destruct (Nat.ltb_spec (length s) (length s')); [apply G|]. transitivity (length s); [lia|apply G].
  - apply IH. right. exact Hx.
Qed.
Lemma output_shape_iff shapes pairs : shapes <> [] ->
  (exists d, output_shape shapes pairs = Ok d) /\ agree shapes /\ List.Forall (fun d => d = 2%nat) pairs \/
  output_shape shapes pairs = Err ValueError /\ ~ (agree shapes /\ List.Forall (fun d => d = 2%nat) pairs).
Proof.
  intro N. unfold output_shape.
  pose proof (agree_dims shapes _ (common_shape_longest shapes) (common_shape_in shapes N)) as A.
  assert (B : existsb (fun d => negb (d =? 2)%nat) pairs = false <-> List.Forall (fun d => d = 2%nat) pairs).
  { clear. induction pairs as [|d ps IH]; simpl; [split; auto|]. destruct (Nat.eqb_spec d 2); simpl.
    - rewrite IH. split; [auto|intro H; inversion H; auto].
    - split; [discriminate|intro H; inversion H; congruence]. }
  destruct (existsb (compare_dimensions _) shapes) eqn:C1; simpl.
  - right. split; [reflexivity|]. intros [H _]. apply A in H. discriminate.
  - destruct (existsb _ pairs) eqn:C2; [right|left].
    + split; [reflexivity|]. intros [_ H]. apply B in H. discriminate.
    + split; [eauto|]. split; [now apply A|now apply B].
Qed.

Lemma min_degree ds : ds <> [] -> let d := snd (get_max_degree ds) in In d ds /\ forall x, In x ds -> d <= x.
Proof.
  intro N. destruct (get_max_degree ds) as [i d] eqn:E. destruct (get_max_degree_spec ds i d N E) as (A & _ & B).
  simpl. split; [eapply nth_error_In; exact A|exact B].
Qed.
Lemma applied_iff ds degree : ds <> [] -> (exists d, In d ds /\ d <= 2147483647) ->
  (exists d, applied_degree ds degree = Ok d) /\ List.Forall (fun d => 0 <= d) ds \/
  applied_degree ds degree = Err ValueError /\ ~ List.Forall (fun d => 0 <= d) ds.
Proof.
  intros N (d0 & Hd0 & Hs). unfold applied_degree. destruct (min_degree ds N) as [A B].
  set (d := snd (get_max_degree ds)) in *. destruct (Z.ltb_spec d 0).
  - right. split; [reflexivity|]. intro F. rewrite Forall_forall in F. specialize (F _ A). lia.
  - left. specialize (B _ Hd0) as B0. destruct (Z.ltb_spec 2147483647 d); [lia|]. simpl. split; [eauto|].
    apply Forall_forall. intros x Hx. specialize (B _ Hx). lia.
Qed.

Lemma size_small n : 0 <= n < 2 ^ 50 -> size_to_degree n <= 2147483647 /\ (0 <= size_to_degree n <-> 1 <= n).
Proof.
  intro H. destruct (degree_largest n H) as (A & B & C). set (d := size_to_degree n) in *. split; [nia|]. split; intro K; [nia|].
  assert (0 <= d); [|lia]. apply C; lia.
Qed.

Lemma check_ct ct : (exists c, check_coord_type ct = Ok c) /\ coord_code ct \/ check_coord_type ct = Err ValueError /\ ~ coord_code ct.
Proof.
  unfold check_coord_type, coord_code. destruct (Z.eqb_spec ct 0); [left; eauto|]. destruct (Z.eqb_spec ct 1); [left; eauto|].
  destruct (Z.eqb_spec ct 2); [left; eauto|right]. split; [reflexivity|lia].
Qed.
Lemma check_mode md : (exists c, check_sheval_mode md = Ok c) /\ eval_code md \/ check_sheval_mode md = Err ValueError /\ ~ eval_code md.
Proof.
  unfold check_sheval_mode, eval_code. destruct (Z.eqb_spec md 1); [left; eauto|]. destruct (Z.eqb_spec md 2); [left; eauto|].
  destruct (Z.eqb_spec md 3); [left; eauto|right]. split; [reflexivity|lia].
Qed.
Lemma scale_iff m scale : has_strides scale -> calm (gradient_scale m scale) /\ scale_shape scale \/
  gradient_scale m scale = Err ValueError /\ ~ scale_shape scale.
Proof.
  destruct scale as [a|]; simpl; [|left; split; [apply calm_ok|exact I]]. unfold extract_1d. intro H.
  destruct (shape a) as [|n [|n' l]].
  - left. split; [|auto]. calm.
  - destruct (stride a) as [|s [|]]; simpl in H; try lia. destruct (Nat.eqb_spec n 3) as [->|N].
    + left. split; [|auto]. calm.
    + right. split; [reflexivity|]. intros [E|E]; [discriminate|congruence].
  - right. split; [destruct (stride a) as [|? [|]]; reflexivity|]. intros [E|E]; discriminate.
Qed.

Lemma leading_agree a b : leading_match a b <-> agree [a; b].
Proof.
  unfold agree. rewrite <- common_match. revert b. induction a as [|x a IH]; intro b.
  - simpl. split; [|reflexivity]. intros _. exists b. repeat constructor; [exists b; reflexivity|exists []; now rewrite app_nil_r].
  - destruct b as [|y b]; simpl.
    + split; [|reflexivity]. intros _. exists (x :: a). repeat constructor; [exists []; now rewrite app_nil_r|exists (x :: a); reflexivity].
    + destruct (Nat.eqb_spec x y) as [->|N].
      * rewrite IH. split; intros (D & H); inversion H as [|? ? (c & E1) H']; inversion H' as [|? ? (c' & E2) _]; subst.
        -- exists (y :: a ++ c). repeat constructor; [exists c; reflexivity|exists c'; simpl; congruence].
        -- simpl in E2. injection E2 as E2. exists (a ++ c). repeat constructor; [exists c; reflexivity|exists c'; exact E2].
      * split; [discriminate|]. intros (D & H). inversion H as [|? ? (c & E1) H']. inversion H' as [|? ? (c' & E2) _]. subst.
        simpl in E2. congruence.
Qed.
