(** Evaluation of models made of coefficient trees: final lemmas and examples of C09-C11. *)

From Coq Require Import Bool List Arith ZArith Lia.
From Verif Require Import Ord IntervalsModel IntervalsSpec IntervalsProofs AggregateProofs
  CoefModel CoefSpec CoefProofs ValidityProofs CoefMoreProofs DecomposeSpec DecomposeProofs
  DecomposeClosed EvalModel EvalProofs.
Import ListNotations.

Section Proofs.
Context {T : Type} {OT : TOrd T} {OI : TInf T} {V : Type} {MV : CMon V} {P L F : Type}.
Notation coef := (coeffs T V P).
Variable ev : coef -> option T -> L -> F.

Lemma tree_nan (c : coef) d t : layered c -> proper_tree c -> decompose c = Ok d ->
  ((forall x, In x d -> comp_valid x (Some t) = false) <-> ~ valid_at c t).
Proof.
  intros Hl Hp E. destruct (decompose_covers c Hl Hp) as (d' & E' & Hc).
  assert (d' = d) as -> by congruence. rewrite <- Hc. split.
  - intros H (x & Hx & Hv). apply comp_valid_closed in Hv. rewrite (H x Hx) in Hv. discriminate.
  - intros H x Hx. destruct (comp_valid x (Some t)) eqn:Ev; auto. exfalso. apply H.
    exists x. split; auto. apply comp_valid_closed; auto.
Qed.

Lemma tree_scalar_nan (c : coef) d t x : layered c -> proper_tree c -> decompose c = Ok d ->
  (eval_scalar ev d (Some t) x = None <-> ~ valid_at c t).
Proof. intros Hl Hp E. rewrite scalar_nan_iff. apply tree_nan; auto. Qed.

Lemma tree_array_nan (c : coef) d txs i t x : layered c -> proper_tree c -> decompose c = Ok d ->
  nth_error txs i = Some (Some t, x) ->
  (nth_error (eval_array ev d txs) i = Some None <-> ~ valid_at c t).
Proof. intros Hl Hp E Hi. rewrite (array_nan_iff ev d txs i _ _ Hi). apply tree_nan; auto. Qed.

Lemma nan_time (comps : list (interval T coef)) txs i x :
  eval_scalar ev comps None x = None /\
  (nth_error txs i = Some (None, x) -> nth_error (eval_array ev comps txs) i = Some None).
Proof.
  split; [apply scalar_nan_iff; reflexivity|].
  intro Hi. apply (array_nan_iff ev comps txs i _ _ Hi). reflexivity.
Qed.

Lemma tree_scalar_array (c : coef) d txs i t x : tidy c -> proper_tree c -> decompose c = Ok d ->
  nth_error txs i = Some (t, x) ->
  (forall u, t = Some u -> valid_at c u -> inner_instant c u) ->
  nth_error (eval_array ev d txs) i = Some (eval_scalar ev d t x).
Proof.
  intros Hl Hp E Hi Hin. apply scalar_array_agree; auto.
  intros x1 x2 H1 H2 V1 V2. destruct t as [t|]; [|discriminate].
  assert (x1 = x2) as ->; [|reflexivity].
  pose proof (proj1 (comp_valid_closed x1 t) V1) as W1.
  pose proof (proj1 (comp_valid_closed x2 t) V2) as W2.
  apply (decompose_unique c d t); auto. apply (Hin t eq_refl).
  destruct (decompose_covers c (layered_tidy c Hl) Hp) as (d' & E' & Hc).
  assert (d' = d) as -> by congruence. apply Hc. eauto.
Qed.

(** The value of the model is the one of the component with the coefficients of the tree *)
Lemma tree_scalar_value (c : coef) d t x : layered c -> proper_tree c -> decompose c = Ok d ->
  valid_at c t -> inner_instant c t ->
  exists o, eval_scalar ev d (Some t) x = Some (ev o (Some t) x) /\ forall p,
    same_cells (fst (call_scalar p (Some t) o)) (fst (call_scalar p (Some t) c)).
Proof.
  intros Hl Hp E Hv Ht. destruct (decompose_preserves c d t Hl Hp E Ht Hv) as (o & Ho & Hs).
  exists o. split; [|exact Hs]. rewrite eval_scalar_find. unfold first_closed_at in Ho.
  change (find (fun c0 : interval T coef => comp_valid c0 (Some t)) d) with (find (closed_at t) d).
  destruct (find (closed_at t) d) as [y|]; [|discriminate]. simpl in Ho. injection Ho as <-. reflexivity.
Qed.

Lemma scalar_from_component {C} (ev' : C -> option T -> L -> F) comps t x v :
  eval_scalar ev' comps t x = Some v ->
  exists u c, t = Some u /\ In c comps /\ at_time_closed u c /\ v = ev' (iobj c) t x.
Proof.
  intro H. apply scalar_value in H as (c & Hc & Hv & ->).
  destruct t as [u|]; [|discriminate]. apply comp_valid_closed in Hv. eauto 6.
Qed.

Lemma array_from_component {C} (ev' : C -> option T -> L -> F) comps txs i t x v :
  nth_error txs i = Some (t, x) ->
  nth_error (eval_array ev' comps txs) i = Some (Some v) ->
  exists u c, t = Some u /\ In c comps /\ at_time_closed u c /\ v = ev' (iobj c) t x.
Proof.
  intros Hi H. apply (array_value ev' comps txs i _ _ _ Hi) in H as (c & Hc & Hv & ->).
  destruct t as [u|]; [|discriminate]. apply comp_valid_closed in Hv. eauto 6.
Qed.

Lemma scalar_nan_closed {C} (ev' : C -> option T -> L -> F) comps t x :
  eval_scalar ev' comps t x = None <-> forall u c, t = Some u -> In c comps -> ~ at_time_closed u c.
Proof.
  rewrite scalar_nan_iff. split.
  - intros H u c -> Hc Hv. apply comp_valid_closed in Hv. rewrite (H c Hc) in Hv. discriminate.
  - intros H c Hc. destruct t as [u|]; [|reflexivity].
    destruct (comp_valid c (Some u)) eqn:E; auto.
    apply comp_valid_closed in E. destruct (H u c eq_refl Hc E).
Qed.

Lemma array_nan_closed {C} (ev' : C -> option T -> L -> F) comps txs i t x :
  nth_error txs i = Some (t, x) ->
  (nth_error (eval_array ev' comps txs) i = Some None <->
   forall u c, t = Some u -> In c comps -> ~ at_time_closed u c).
Proof.
  intro Hi. rewrite (array_nan_iff ev' comps txs i _ _ Hi), <- (scalar_nan_iff ev' comps t x).
  apply scalar_nan_closed.
Qed.

End Proofs.

(** ** Examples and refutations *)

Definition ex_ev (c : coeffs Zx Z unit) (t : option Zx) (x : Z) : Z :=
  (cell (fst (call_scalar tt t c)) 0 * x)%Z.

Definition ex_pair : coeffs Zx Z unit :=
  match mk_composed [ex_leaf 0 5 true 1 3; ex_leaf 5 9 true 1 7] with Ok c => c | Err _ => ex_leaf 0 0 true 0 0 end.

Ltac tidy_leaf := apply tidy_leaf; intros ? ?; apply repeat_length.

Lemma ordered_pair (a b : coeffs Zx Z unit) : leb (snd (validity a)) (fst (validity b)) = true ->
  time_ordered [a; b].
Proof.
  intros H i j x y Hij Hx Hy. destruct i as [|[|i]]; destruct j as [|[|j]]; simpl in *; try lia;
    try discriminate.
  - injection Hx as <-. injection Hy as <-. apply leb_le; exact H.
  - destruct j; discriminate.
  - destruct j; discriminate.
  - destruct i; discriminate.
Qed.

Lemma ex_pair_flat : flat ex_pair.
Proof.
  apply (flat_composed [ex_leaf 0 5 true 1 3; ex_leaf 5 9 true 1 7]).
  - intros x [<-|[<-|[]]]; eexists; (split; [reflexivity|]); intros ? ?; apply repeat_length.
  - apply ordered_pair. reflexivity.
  - vm_compute. reflexivity.
Qed.

Ltac proper_nodes :=
  let n := fresh "n" in let H := fresh "H" in
  intros n H; apply ltb_lt; vm_compute in H;
  repeat (destruct H as [<-|H]; [vm_compute; reflexivity|]); destruct H.

Lemma ex_pair_proper : proper_tree ex_pair.
Proof. proper_nodes. Qed.

Lemma scalar_array_differ : exists (c : coeffs Zx Z unit) d t x,
  flat c /\ proper_tree c /\ decompose c = Ok d /\
  nth_error (eval_array ex_ev d [(t, x)]) 0 <> Some (eval_scalar ex_ev d t x).
Proof.
  exists ex_pair. eexists. exists (Some (zf 5)), 2%Z.
  split; [apply ex_pair_flat|]. split; [apply ex_pair_proper|].
  split; [vm_compute; reflexivity|]. vm_compute. discriminate.
Qed.

Definition ex_inner : coeffs Zx Z unit :=
  match mk_combined [ex_pair; ex_leaf 5 9 true 1 100] with Ok c => c | Err _ => ex_leaf 0 0 true 0 0 end.
Definition ex_deep : coeffs Zx Z unit :=
  match mk_composed [ex_inner; ex_leaf 9 12 true 1 1000] with Ok c => c | Err _ => ex_leaf 0 0 true 0 0 end.

Lemma ex_deep_tidy : tidy ex_deep.
Proof.
  apply (tidy_composed [ex_inner; ex_leaf 9 12 true 1 1000]).
  - intros x [<-|[<-|[]]].
    + apply (tidy_combined [ex_pair; ex_leaf 5 9 true 1 100]).
      * intros x [<-|[<-|[]]]; [apply flat_tidy, ex_pair_flat|tidy_leaf].
      * vm_compute. reflexivity.
    + tidy_leaf.
  - apply ordered_pair. reflexivity.
  - vm_compute. reflexivity.
Qed.

Lemma ex_deep_proper : proper_tree ex_deep.
Proof. proper_nodes. Qed.

Lemma ex_deep_inner : inner_instant ex_deep (zf 7) /\ valid_at ex_deep (zf 7).
Proof.
  split.
  - intros n H. vm_compute in H. split; intros [H1 H2]; apply leb_le in H1; apply leb_le in H2;
      repeat (destruct H as [<-|H]; [vm_compute in H1; vm_compute in H2; congruence|]); destruct H.
  - split; apply leb_le; reflexivity.
Qed.

Lemma decompose_boundary : exists (c : coeffs Zx Z unit) d t o,
  tidy c /\ proper_tree c /\ decompose c = Ok d /\ valid_at c t /\
  first_closed_at t d = Some o /\
  cell (fst (call_scalar tt (Some t) o)) 0 <> cell (fst (call_scalar tt (Some t) c)) 0.
Proof.
  exists ex_deep. do 1 eexists. exists (zf 5). eexists.
  split; [apply ex_deep_tidy|]. split; [apply ex_deep_proper|].
  split; [vm_compute; reflexivity|].
  split; [split; apply leb_le; reflexivity|].
  split; [vm_compute; reflexivity|]. vm_compute. discriminate.
Qed.

Lemma ex_deep_values : exists d, decompose ex_deep = Ok d /\
  map (fun t => eval_scalar ex_ev d t 1%Z) [Some (zf 4); Some (zf 7); Some (zf 10); Some (zf 13); None]
    = [None; Some 107; Some 1000; None; None]%Z /\
  eval_array ex_ev d [(Some (zf 4), 1); (Some (zf 7), 1); (Some (zf 10), 1); (None, 1)]%Z
    = [None; Some 107; Some 1000; None]%Z.
Proof. eexists. split; [vm_compute; reflexivity|]. vm_compute. auto. Qed.

Lemma ex_flat_tree : exists c, mk_combined [ex_pair; ex_leaf 3 9 true 1 100] = Ok c /\ flat c /\ proper_tree c.
Proof.
  destruct (mk_combined [ex_pair; ex_leaf 3 9 true 1 100]) as [c|e] eqn:E; [|vm_compute in E; discriminate].
  exists c. split; auto. split.
  - apply (flat_combined [ex_pair; ex_leaf 3 9 true 1 100]); auto.
    intros x [<-|[<-|[]]]; [apply ex_pair_flat|]. apply flat_leaf. intros ? ?; apply repeat_length.
  - vm_compute in E. injection E as <-. proper_nodes.
Qed.
