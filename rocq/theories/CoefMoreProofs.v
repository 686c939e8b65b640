(** Corollaries about the evaluation of composed and combined coefficients, and the
    concrete coefficient sets used as examples. *)

From Coq Require Import Bool List Arith Lia Permutation ZArith.
From Verif Require Import Ord IntervalsModel IntervalsSpec CoefModel CoefSpec CoefProofs
  ValidityProofs.
Import ListNotations.

Section Proofs.
Context {T : Type} {OT : TOrd T} {OI : TInf T} {V : Type} {MV : CMon V} {P : Type}.
Notation coef := (coeffs T V P).

Lemma composed_scalar_first_valid (items : list coef) (c : coef) (p : P) (t : option T) :
  mk_composed items = Ok c ->
  forall i item, nth_error items i = Some item ->
  is_valid item t = true ->
  (forall j x, j < i -> nth_error items j = Some x -> is_valid x t = false) ->
  call_scalar p t c = call_scalar p t item.
Proof.
  intros E i item Hi Hv Hf.
  apply mk_composed_cases in E as [->|(a & first & rest & -> & -> & _)].
  - destruct i as [|i]; simpl in Hi; [congruence|]. destruct i; discriminate.
  - rewrite call_scalar_composed.
    assert (G : forall (l : list coef) i, nth_error l i = Some item ->
              (forall j x, j < i -> nth_error l j = Some x -> is_valid x t = false) ->
              find (fun c => is_valid c t) l = Some item).
    { induction l as [|x l IH]; intros [|k] Hk Hfk; simpl in *; try discriminate.
      - injection Hk as ->. rewrite Hv. reflexivity.
      - rewrite (Hfk 0 x) by (auto; lia). eapply IH; eauto.
        intros j y Hj Hy. apply (Hfk (S j) y); [lia|auto]. }
    rewrite (G _ i Hi Hf). reflexivity.
Qed.

Lemma composed_scalar_none_valid (first : coef) (rest : list coef) (c : coef) (p : P) (t : option T) :
  mk_composed (first :: rest) = Ok c ->
  (forall x, In x (first :: rest) -> is_valid x t = false) ->
  call_scalar p t c = call_scalar p t first.
Proof.
  intros E Hv.
  apply mk_composed_cases in E as [E|(a & f & r & -> & E & _)].
  - injection E as -> ->. reflexivity.
  - injection E as <- <-. rewrite call_scalar_composed.
    destruct (find _ _) eqn:F; auto.
    apply find_some in F as [F1 F2]. rewrite (Hv _ F1) in F2. discriminate.
Qed.

Lemma array_is_scalar (c : coef) (p : P) (ts : list (option T)) : built c ->
  length (fst (call_array p ts c)) = length ts /\
  forall i t, nth_error ts i = Some t ->
    exists rows, nth_error (fst (call_array p ts c)) i = Some rows /\
      length rows = coeff_size (snd (call_array p ts c)) /\
      same_cells rows (fst (call_scalar p t c)).
Proof. intro B. apply (call_array_ok c (built_wf c B) p ts). Qed.

Lemma combined_is_sum (items : list coef) (c : coef) (p : P) (t : option T) k :
  (forall x, In x items -> built x) -> mk_combined items = Ok c ->
  cell (fst (call_scalar p t c)) k = vsum (map (fun x => cell (fst (call_scalar p t x)) k) items).
Proof.
  intros B E. apply mk_combined_cases in E as [->|(a & f & r & -> & -> & _)].
  - simpl. rewrite vadd_comm, vadd_0_l. reflexivity.
  - apply combined_scalar_sum. intros x Hx. apply built_wf, B, Hx.
Qed.

Lemma combined_order_independent (items items' : list coef) (c : coef) (p : P) (t : option T) :
  (forall x, In x items -> built x) -> Permutation items items' -> mk_combined items = Ok c ->
  exists c', mk_combined items' = Ok c' /\
    same_cells (fst (call_scalar p t c')) (fst (call_scalar p t c)).
Proof.
  intros B Hp E. destruct (combined_perm items items' c Hp E) as (c' & E' & _).
  exists c'. split; auto. intro k.
  rewrite (combined_is_sum items' c' p t k); auto.
  - rewrite (combined_is_sum items c p t k); auto. apply vsum_perm.
    apply Permutation_map, Permutation_sym, Hp.
  - intros x Hx. apply B. eapply Permutation_in; [apply Permutation_sym; eauto|auto].
Qed.

Lemma combined_flattens (inner outer : list coef) (ci c cf : coef) (p : P) (t : option T) :
  (forall x, In x inner -> built x) -> (forall x, In x outer -> built x) ->
  mk_combined inner = Ok ci -> mk_combined (ci :: outer) = Ok c ->
  mk_combined (inner ++ outer) = Ok cf ->
  same_cells (fst (call_scalar p t c)) (fst (call_scalar p t cf)).
Proof.
  intros Bi Bo Ei Ec Ef k.
  rewrite (combined_is_sum (ci :: outer) c p t k); auto.
  - rewrite (combined_is_sum (inner ++ outer) cf p t k); auto.
    + rewrite map_app, vsum_app. simpl.
      rewrite (combined_is_sum inner ci p t k); auto.
    + intros x Hx. apply in_app_iff in Hx as [Hx|Hx]; auto.
  - intros x [<-|Hx]; auto. apply (built_combined inner ci Bi Ei).
Qed.

Lemma combined_valid_iff (items : list coef) (c : coef) : mk_combined items = Ok c ->
  (forall t, valid_at c t <-> forall x, In x items -> valid_at x t) /\
  is_max (degree c) (map degree items) /\ is_min (min_degree c) (map min_degree items).
Proof.
  intro E. apply combined_attrs in E as (A1 & A2 & _ & A4 & A5).
  split; [|auto]. intro t. unfold valid_at. rewrite A1, A2. split.
  - intros [H1 H2] x Hx. auto.
  - intro H. split; intros x Hx; apply H; auto.
Qed.

Lemma composed_hull (items : list coef) (c : coef) : mk_composed items = Ok c ->
  (forall t, le (fst (validity c)) t <-> exists x, In x items /\ le (fst (validity x)) t) /\
  (forall t, le t (snd (validity c)) <-> exists x, In x items /\ le t (snd (validity x))) /\
  is_max (degree c) (map degree items) /\ is_min (min_degree c) (map min_degree items).
Proof. intro E. apply composed_attrs in E as (A1 & A2 & _ & A4 & A5). auto. Qed.

End Proofs.

(** Concrete coefficient sets over the extended integers: values are integers and the
    options are trivial. *)
#[global] Instance CMon_Z : CMon Z.
Proof.
  refine {| vzero := 0%Z; vadd := Z.add |}; intros; lia.
Defined.

Definition ex_leaf (s e : Z) (internal : bool) (deg : nat) (v : Z) : coeffs Zx Z unit :=
  Leaf {| lf_validity := (ZFin s, ZFin e); lf_internal := internal; lf_degree := deg;
          lf_min_degree := deg; lf_call_degree := fun _ => deg;
          lf_call := fun _ _ => repeat v (coeff_size deg) |}.

Lemma ex_leaf_built s e i d v : built (ex_leaf s e i d v).
Proof. constructor. intros p t. apply repeat_length. Qed.

Lemma ex_leaves_built (l : list (coeffs Zx Z unit)) :
  (forall x, In x l -> exists s e i d v, x = ex_leaf s e i d v) -> forall x, In x l -> built x.
Proof. intros H x Hx. destruct (H x Hx) as (s & e & i & d & v & ->). apply ex_leaf_built. Qed.

Definition ex_nested : list (coeffs Zx Z unit) :=
  [ex_leaf 0 10 true 1 1; ex_leaf 1 2 true 1 1; ex_leaf 5 12 true 1 1].

Lemma ex_nested_no_gap : ~ has_gap ex_nested.
Proof.
  intros (early & (x & Hx & Ex) & (y & Hy & Ey) & Hg).
  set (i1 := ex_leaf 0 10 true 1 1) in *.
  assert (H1 : In i1 ex_nested) by (simpl; auto).
  assert (K : forall a b, In a ex_nested -> In b ex_nested ->
            a = i1 \/ b = i1 -> ltb (snd (validity a)) (fst (validity b)) = false).
  { intros a b Ha Hb Hab. simpl in Ha, Hb.
    destruct Ha as [<-|[<-|[<-|[]]]], Hb as [<-|[<-|[<-|[]]]]; try reflexivity;
      destruct Hab as [Hab|Hab]; discriminate. }
  destruct (early i1) eqn:E1.
  - pose proof (Hg i1 y H1 Hy E1 Ey) as H. apply ltb_lt in H.
    rewrite (K i1 y H1 Hy (or_introl eq_refl)) in H. discriminate.
  - pose proof (Hg x i1 Hx H1 Ex E1) as H. apply ltb_lt in H.
    rewrite (K x i1 Hx H1 (or_intror eq_refl)) in H. discriminate.
Qed.

Lemma gapfree_rejected : exists items : list (coeffs Zx Z unit),
  (forall x, In x items -> built x) /\
  (forall x, In x items -> le (fst (validity x)) (snd (validity x))) /\
  (forall x y, In x items -> In y items -> is_internal x = is_internal y) /\
  ~ has_gap items /\ mk_composed items = Err ValueError.
Proof.
  exists ex_nested. split; [|split; [|split; [|split]]].
  - intros x Hx. simpl in Hx. destruct Hx as [<-|[<-|[<-|[]]]]; apply ex_leaf_built.
  - intros x Hx. simpl in Hx. apply leb_le. destruct Hx as [<-|[<-|[<-|[]]]]; reflexivity.
  - intros x y Hx Hy. simpl in Hx, Hy.
    destruct Hx as [<-|[<-|[<-|[]]]], Hy as [<-|[<-|[<-|[]]]]; reflexivity.
  - apply ex_nested_no_gap.
  - vm_compute. reflexivity.
Qed.

Lemma composed_hull_only T (OT : TOrd T) (OI : TInf T) V P (items : list (coeffs T V P)) c :
  mk_composed items = Ok c ->
  (forall t, le (fst (validity c)) t <-> exists x, In x items /\ le (fst (validity x)) t) /\
  (forall t, le t (snd (validity c)) <-> exists x, In x items /\ le t (snd (validity x))).
Proof. intro E. apply composed_attrs in E as (A1 & A2 & _). auto. Qed.

Lemma mixed_rejected T (OT : TOrd T) (OI : TInf T) V P (items : list (coeffs T V P)) x y :
  In x items -> In y items -> is_internal x <> is_internal y ->
  mk_combined items = Err ValueError /\ mk_composed items = Err ValueError.
Proof.
  intros Hx Hy Hd.
  split; [exact (combined_mixed_rejected items x y Hx Hy Hd)|exact (composed_mixed_rejected items x y Hx Hy Hd)].
Qed.

Lemma order_independent T (OT : TOrd T) (OI : TInf T) V P (items items' : list (coeffs T V P)) mk c :
  mk = mk_combined \/ mk = mk_composed ->
  Permutation items items' ->
  mk items = Ok c -> exists c', mk items' = Ok c' /\
    degree c' = degree c /\ min_degree c' = min_degree c /\ is_internal c' = is_internal c /\
    (forall t, valid_at c' t <-> valid_at c t).
Proof. intros [->| ->] Hp E; [eapply combined_perm|eapply composed_perm]; eauto. Qed.

(** Examples *)

Lemma ex_composed_ok :
  exists c, mk_composed [ex_leaf 5 12 true 2 7; ex_leaf 0 5 true 1 3] = Ok c /\
            validity c = (zf 0, zf 12).
Proof. eexists. split; [vm_compute; reflexivity|reflexivity]. Qed.

Lemma ex_gap : has_gap [ex_leaf 7 12 true 2 7; ex_leaf 0 5 true 1 3].
Proof.
  exists (fun x => leb (fst (validity x)) (zf 1)). split; [|split].
  - exists (ex_leaf 0 5 true 1 3). simpl; auto.
  - exists (ex_leaf 7 12 true 2 7). simpl; auto.
  - intros x y Hx Hy Ex Ey. apply ltb_lt.
    destruct Hx as [<-|[<-|[]]], Hy as [<-|[<-|[]]]; try reflexivity; discriminate.
Qed.

Lemma ex_no_nesting :
  let items := [ex_leaf 5 12 true 2 7; ex_leaf 0 7 true 1 3] in
  (forall x, In x items -> le (fst (validity x)) (snd (validity x))) /\
  (forall x y, In x items -> In y items ->
     lt (fst (validity x)) (fst (validity y)) -> le (snd (validity x)) (snd (validity y))) /\
  ~ has_gap items.
Proof.
  intro items. split; [|split].
  - intros x [<-|[<-|[]]]; apply leb_le; reflexivity.
  - intros x y [<-|[<-|[]]] [<-|[<-|[]]] H; apply ltb_lt in H; apply leb_le; try reflexivity;
      discriminate.
  - intros (early & (x & Hx & Ex) & (y & Hy & Ey) & Hg).
    assert (H := Hg x y Hx Hy Ex Ey). apply ltb_lt in H.
    destruct Hx as [<-|[<-|[]]], Hy as [<-|[<-|[]]]; try discriminate.
Qed.

Lemma ex_array_call :
  exists c, built c /\
    mk_composed [ex_leaf 5 12 true 1 7; ex_leaf 0 5 true 0 3] = Ok c /\
    call_array tt [Some (zf 6); Some (zf 1); None; Some (zf 5)] c =
      ([[7; 7; 7]; [3; 0; 0]; [7; 7; 7]; [7; 7; 7]]%Z, 1).
Proof.
  destruct (mk_composed [ex_leaf 5 12 true 1 7; ex_leaf 0 5 true 0 3]) as [c|e] eqn:E.
  - exists c. split; [|split; [reflexivity|]].
    + eapply built_composed; [|exact E]. intros x [<-|[<-|[]]]; apply ex_leaf_built.
    + vm_compute in E. injection E as <-. vm_compute. reflexivity.
  - vm_compute in E. discriminate.
Qed.

Lemma ex_combined :
  exists ci c cf, mk_combined [ex_leaf 0 9 true 1 7; ex_leaf 0 5 true 0 3] = Ok ci /\
    mk_combined [ci; ex_leaf 3 7 true 1 2] = Ok c /\
    mk_combined [ex_leaf 0 9 true 1 7; ex_leaf 0 5 true 0 3; ex_leaf 3 7 true 1 2] = Ok cf /\
    call_scalar tt (Some (zf 4)) c = ([12; 9; 9]%Z, 1) /\
    call_scalar tt (Some (zf 4)) cf = ([12; 9; 9]%Z, 1).
Proof.
  do 3 eexists. split; [vm_compute; reflexivity|]. split; [vm_compute; reflexivity|].
  split; [vm_compute; reflexivity|]. vm_compute. auto.
Qed.

Lemma ex_combined_validity :
  exists c, mk_combined [ex_leaf 0 9 true 3 7; ex_leaf 2 5 true 1 3] = Ok c /\
    validity c = (zf 2, zf 5) /\ degree c = 3 /\ min_degree c = 1.
Proof. eexists. split; [vm_compute; reflexivity|]. vm_compute. auto. Qed.
