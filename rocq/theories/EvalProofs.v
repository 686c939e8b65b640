(** Proofs about the component selection of the model evaluation. *)

From Coq Require Import Bool List Arith Lia.
From Verif Require Import Ord IntervalsModel IntervalsSpec CoefModel EvalModel.
Import ListNotations.

Section Proofs.
Context {T : Type} {OT : TOrd T} {C L F : Type}.
Variable ev : C -> option T -> L -> F.

Lemma comp_valid_nan (x : interval T C) : comp_valid x None = false.
Proof. reflexivity. Qed.

Lemma comp_valid_closed (x : interval T C) t : comp_valid x (Some t) = true <-> at_time_closed t x.
Proof using Type.
  clear ev L F.
  unfold comp_valid, at_time_closed. simpl. rewrite andb_true_iff, !leb_le. tauto.
Qed.

Lemma eval_scalar_find comps t x :
  eval_scalar ev comps t x =
  option_map (fun c => ev (iobj c) t x) (find (fun c => comp_valid c t) comps).
Proof.
  induction comps as [|c comps IH]; simpl; auto. destruct (comp_valid c t); auto.
Qed.

(** scattering a map over the selected elements *)
Lemma scatter_select {A B D} (g : A -> D) (f : B -> D -> B) (m : A -> bool) : forall (l : list A) base,
  length base = length l -> forall i,
  nth_error (scatter f (map m l) base (map g (select (map m l) l))) i =
  match nth_error l i, nth_error base i with
  | Some a, Some b => Some (if m a then f b (g a) else b)
  | _, _ => None
  end.
Proof.
  induction l as [|a l IH]; intros base Hb i; destruct base as [|b base]; simpl in Hb; try discriminate.
  - simpl. destruct i; reflexivity.
  - simpl. destruct (m a) eqn:E; simpl; destruct i as [|i]; simpl; rewrite ?E; auto;
      apply IH; lia.
Qed.

Lemma scatter_length {A B} (f : A -> B -> A) : forall mask base new,
  length (scatter f mask base new) = length base.
Proof.
  induction mask as [|[] mask IH]; intros [|b base] new; simpl; auto.
  destruct new; simpl; auto.
Qed.

Definition last_match (comps : list (interval T C)) (t : option T) : option (interval T C) :=
  find (fun c => comp_valid c t) (rev comps).

Lemma eval_array_nth comps txs i t x : nth_error txs i = Some (t, x) ->
  nth_error (eval_array ev comps txs) i =
  Some (option_map (fun c => ev (iobj c) t x) (last_match comps t)).
Proof.
  intro Hi. unfold eval_array, last_match.
  rewrite <- (rev_involutive comps) at 1. set (rc := rev comps).
  rewrite <- fold_left_rev_right, rev_involutive.
  match goal with |- nth_error (fold_right ?f ?b _) _ = _ => set (step := f); set (base := b) end.
  assert (G : length (fold_right step base rc) = length txs /\
     nth_error (fold_right step base rc) i
       = Some (option_map (fun c => ev (iobj c) t x) (find (fun c => comp_valid c t) rc))).
  { clearbody rc. induction rc as [|c rc [IH1 IH2]]; cbn [fold_right find].
    - split; [apply map_length|]. unfold base. rewrite nth_error_map, Hi. reflexivity.
    - split; [unfold step at 1; rewrite scatter_length; exact IH1|].
      unfold step at 1.
      rewrite (scatter_select (fun tx => ev (iobj c) (fst tx) (snd tx)) (fun _ v => Some v)
        (fun tx => comp_valid c (fst tx)) txs) by exact IH1.
      rewrite Hi, IH2. simpl. destruct (comp_valid c t); reflexivity. }
  apply G.
Qed.

Lemma eval_array_length comps txs : length (eval_array ev comps txs) = length txs.
Proof.
  unfold eval_array.
  assert (G : forall base, length base = length txs ->
    length (fold_left (fun result c =>
       let mask := map (fun tx => comp_valid c (fst tx)) txs in
       scatter (fun _ v => Some v) mask result
         (map (fun tx => ev (iobj c) (fst tx) (snd tx)) (select mask txs))) comps base)
    = length txs).
  { induction comps as [|c comps IH]; intros base Hb; simpl; auto.
    apply IH. rewrite scatter_length. exact Hb. }
  apply G. apply map_length.
Qed.

(** NaN exactly if no component is valid *)
Lemma scalar_nan_iff comps t x :
  eval_scalar ev comps t x = None <-> forall c, In c comps -> comp_valid c t = false.
Proof.
  rewrite eval_scalar_find. split.
  - intros H c Hc. destruct (find _ comps) eqn:E; [discriminate|].
    apply (find_none _ _ E c Hc).
  - intro H. destruct (find _ comps) eqn:E; auto.
    apply find_some in E as [E1 E2]. rewrite (H _ E1) in E2. discriminate.
Qed.

Lemma scalar_value comps t x v : eval_scalar ev comps t x = Some v ->
  exists c, In c comps /\ comp_valid c t = true /\ v = ev (iobj c) t x.
Proof.
  rewrite eval_scalar_find. destruct (find _ comps) as [c|] eqn:E; [|discriminate].
  apply find_some in E as [E1 E2]. intro H. injection H as <-. eauto.
Qed.

Lemma array_nan_iff comps txs i t x : nth_error txs i = Some (t, x) ->
  (nth_error (eval_array ev comps txs) i = Some None <->
   forall c, In c comps -> comp_valid c t = false).
Proof.
  intro Hi. rewrite (eval_array_nth _ _ _ _ _ Hi). unfold last_match. split.
  - intros H c Hc. destruct (find _ (rev comps)) eqn:E; [discriminate|].
    apply (find_none _ _ E c). apply in_rev in Hc. exact Hc.
  - intro H. destruct (find _ (rev comps)) eqn:E; auto.
    apply find_some in E as [E1 E2]. apply in_rev in E1. rewrite (H _ E1) in E2. discriminate.
Qed.

Lemma array_value comps txs i t x v : nth_error txs i = Some (t, x) ->
  nth_error (eval_array ev comps txs) i = Some (Some v) ->
  exists c, In c comps /\ comp_valid c t = true /\ v = ev (iobj c) t x.
Proof.
  intros Hi. rewrite (eval_array_nth _ _ _ _ _ Hi). unfold last_match.
  destruct (find _ (rev comps)) as [c|] eqn:E; [|discriminate].
  apply find_some in E as [E1 E2]. intro H. injection H as <-.
  exists c. split; [apply in_rev; exact E1|auto].
Qed.

Lemma scalar_array_agree comps txs i t x : nth_error txs i = Some (t, x) ->
  (forall c1 c2, In c1 comps -> In c2 comps -> comp_valid c1 t = true -> comp_valid c2 t = true ->
     ev (iobj c1) t x = ev (iobj c2) t x) ->
  nth_error (eval_array ev comps txs) i = Some (eval_scalar ev comps t x).
Proof.
  intros Hi H. rewrite (eval_array_nth _ _ _ _ _ Hi). f_equal.
  destruct (eval_scalar ev comps t x) as [v|] eqn:E.
  - apply scalar_value in E as (c & Hc & Hv & ->). unfold last_match.
    destruct (find _ (rev comps)) as [c'|] eqn:E'.
    + apply find_some in E' as [E1 E2]. apply in_rev in E1. simpl. f_equal. auto.
    + exfalso. apply in_rev in Hc. pose proof (find_none _ _ E' c Hc). simpl in *. congruence.
  - rewrite scalar_nan_iff in E. unfold last_match.
    destruct (find _ (rev comps)) as [c'|] eqn:E'; auto.
    apply find_some in E' as [E1 E2]. apply in_rev in E1. rewrite (E _ E1) in E2. discriminate.
Qed.

End Proofs.
