(** Proofs about the coefficient containers. *)

From Coq Require Import Bool List Arith Lia Permutation Sorting.Sorted.
From Verif Require Import Ord IntervalsModel IntervalsSpec IntervalsProofs AggregateProofs
  CoefModel CoefSpec.
Import ListNotations.

(** ** Lists *)

Lemma insert_by_perm {A} (cmp : A -> A -> bool) x l : Permutation (x :: l) (insert_by cmp x l).
Proof.
  induction l as [|y l IH]; simpl; auto. destruct (cmp x y); auto.
  eapply perm_trans; [apply perm_swap|]. constructor. exact IH.
Qed.
Lemma sort_by_perm {A} (cmp : A -> A -> bool) l : Permutation l (sort_by cmp l).
Proof.
  induction l as [|x l IH]; simpl; auto.
  eapply perm_trans; [constructor; exact IH|apply insert_by_perm].
Qed.
Lemma sort_by_in {A} (cmp : A -> A -> bool) l x : In x (sort_by cmp l) <-> In x l.
Proof.
  split; apply Permutation_in; [apply Permutation_sym|]; apply sort_by_perm.
Qed.

Lemma insert_by_sorted {A} (cmp : A -> A -> bool) x l :
  (forall a b, cmp a b = true \/ cmp b a = true) ->
  (forall a b c, cmp a b = true -> cmp b c = true -> cmp a c = true) ->
  StronglySorted (fun a b => cmp a b = true) l ->
  StronglySorted (fun a b => cmp a b = true) (insert_by cmp x l).
Proof.
  intros Tot Tr. induction 1 as [|y l S IH F]; simpl.
  - repeat constructor.
  - destruct (cmp x y) eqn:E.
    + constructor; [constructor; auto|]. constructor; auto.
      eapply Forall_impl; [|exact F]. intros z Hz. eapply Tr; eauto.
    + constructor; auto. rewrite Forall_forall in *. intros z Hz.
      apply (Permutation_in z (Permutation_sym (insert_by_perm cmp x l))) in Hz.
      destruct Hz as [<-|Hz]; auto. destruct (Tot x y); congruence.
Qed.
Lemma sort_by_sorted {A} (cmp : A -> A -> bool) l :
  (forall a b, cmp a b = true \/ cmp b a = true) ->
  (forall a b c, cmp a b = true -> cmp b c = true -> cmp a c = true) ->
  StronglySorted (fun a b => cmp a b = true) (sort_by cmp l).
Proof.
  intros Tot Tr. induction l as [|x l IH]; simpl; [constructor|].
  apply insert_by_sorted; auto.
Qed.

Lemma fold_max_ge l : forall a, a <= fold_left Nat.max l a.
Proof. induction l as [|x l IH]; simpl; intro a; [lia|]. specialize (IH (Nat.max a x)). lia. Qed.
Lemma fold_max_in l : forall a x, In x l -> x <= fold_left Nat.max l a.
Proof.
  induction l as [|y l IH]; simpl; intros a x; [tauto|]. intros [->|Hx]; auto.
  pose proof (fold_max_ge l (Nat.max a x)). lia.
Qed.
Lemma max_list_in l x : In x l -> x <= max_list l.
Proof. apply fold_max_in. Qed.

Lemma coeff_size_mono a b : a <= b -> coeff_size a <= coeff_size b.
Proof.
  intro L. unfold coeff_size. apply Nat.div_le_mono; [lia|]. apply Nat.mul_le_mono; lia.
Qed.

Section Proofs.
Context {T : Type} {OT : TOrd T} {OI : TInf T} {V : Type} {MV : CMon V} {P : Type}.
Notation coef := (coeffs T V P).

(** ** Induction over coefficient trees *)
Section Ind.
Variable Q : coef -> Prop.
Hypothesis HL : forall l, Q (Leaf l).
Hypothesis HS : forall a items, (forall x, In x items -> Q x) -> Q (Composed a items).
Hypothesis HC : forall a items, (forall x, In x items -> Q x) -> Q (Combined a items).
Fixpoint coeffs_ind' (c : coef) : Q c :=
  match c with
  | Leaf l => HL l
  | Composed a items => HS a items
      ((fix go (l : list coef) : forall x, In x l -> Q x :=
          match l with
          | [] => fun x H => match H with end
          | y :: l' => fun x H =>
              match H with
              | or_introl E => eq_ind y Q (coeffs_ind' y) x E
              | or_intror H' => go l' x H'
              end
          end) items)
  | Combined a items => HC a items
      ((fix go (l : list coef) : forall x, In x l -> Q x :=
          match l with
          | [] => fun x H => match H with end
          | y :: l' => fun x H =>
              match H with
              | or_introl E => eq_ind y Q (coeffs_ind' y) x E
              | or_intror H' => go l' x H'
              end
          end) items)
  end.
End Ind.

Inductive wf : coef -> Prop :=
| wf_leaf l : leaf_ok l -> wf (Leaf l)
| wf_composed a items : items <> [] -> (forall x, In x items -> wf x) -> wf (Composed a items)
| wf_combined a items : items <> [] -> (forall x, In x items -> wf x) -> wf (Combined a items).

Lemma mk_composed_cases (items : list coef) (c : coef) : mk_composed items = Ok c ->
  items = [c] \/
  exists a first rest, c = Composed a items /\ items = first :: rest /\ rest <> [] /\
    composed_loop (is_internal first) (sort_by validity_leb items) pinf pinf ninf None None
      = Ok a.
Proof.
  unfold mk_composed. destruct items as [|first rest]; [discriminate|].
  destruct rest as [|second rest].
  - destruct first; intro E; inversion E; auto.
  - intro E. right.
    assert (exists a, composed_loop (is_internal first)
        (sort_by validity_leb (first :: second :: rest)) pinf pinf ninf None None = Ok a /\
        c = Composed a (first :: second :: rest)) as (a & E1 & E2).
    { destruct first; destruct (composed_loop _ _ _ _ _ _ _) as [at0|e];
        try discriminate; injection E as <-; exists at0; auto. }
    exists a, first, (second :: rest). repeat split; auto. discriminate.
Qed.

Lemma mk_combined_cases (items : list coef) (c : coef) : mk_combined items = Ok c ->
  items = [c] \/
  exists a first rest, c = Combined a items /\ items = first :: rest /\ rest <> [] /\
    combined_loop (is_internal first) rest (fst (validity first)) (snd (validity first))
      (degree first) (min_degree first) = Ok a.
Proof.
  unfold mk_combined. destruct items as [|first rest]; [discriminate|].
  destruct rest as [|second rest].
  - destruct first; intro E; inversion E; auto.
  - intro E. right.
    assert (exists a, combined_loop (is_internal first) (second :: rest)
        (fst (validity first)) (snd (validity first)) (degree first) (min_degree first)
        = Ok a /\ c = Combined a (first :: second :: rest)) as (a & E1 & E2).
    { destruct first; destruct (combined_loop _ _ _ _ _ _) as [at0|e];
        try discriminate; injection E as <-; exists at0; auto. }
    exists a, first, (second :: rest). repeat split; auto. discriminate.
Qed.

Lemma built_wf (c : coef) : built c -> wf c.
Proof.
  induction 1 as [l Hl|items c Hb IH E|items c Hb IH E].
  - constructor; auto.
  - apply mk_composed_cases in E as [->|(a & f & r & -> & -> & _)].
    + apply IH. simpl; auto.
    + constructor; [discriminate|auto].
  - apply mk_combined_cases in E as [->|(a & f & r & -> & -> & _)].
    + apply IH. simpl; auto.
    + constructor; [discriminate|auto].
Qed.

(** ** Cells *)

Lemma cell_nil k : cell (@nil V) k = vzero.
Proof. destruct k; reflexivity. Qed.
Lemma cell_zeros n k : cell (zeros n) k = vzero.
Proof. unfold cell, zeros. revert k. induction n; intros [|k]; simpl; auto. Qed.
Lemma vadd_0_r v : vadd v vzero = v.
Proof. rewrite vadd_comm. apply vadd_0_l. Qed.

Lemma cell_add_prefix base : forall new k, length new <= length base ->
  cell (add_prefix base new) k = vadd (cell base k) (cell new k).
Proof.
  unfold cell. induction base as [|b base IH]; intros [|n new] k L; simpl in *; try lia.
  - destruct k; simpl; rewrite vadd_0_l; auto.
  - destruct k; simpl; rewrite vadd_0_r; auto.
  - destruct k; simpl; auto. apply IH. lia.
Qed.
Lemma length_add_prefix base : forall new, length (add_prefix base new) = length base.
Proof. induction base as [|b base IH]; intros [|n new]; simpl; auto. Qed.

Lemma nth_skipn_zeros m : forall n k, nth k (skipn m (zeros n)) vzero = vzero.
Proof.
  induction m as [|m IH]; intros n k.
  - rewrite skipn_O. apply cell_zeros.
  - destruct n as [|n]; [destruct k; reflexivity|]. apply (IH n k).
Qed.

Lemma cell_assign_zeros n (new : list V) k : length new <= n ->
  cell (assign_prefix (zeros n) new) k = cell new k.
Proof.
  intro L. unfold cell, assign_prefix.
  destruct (Nat.ltb_spec k (length new)).
  - rewrite app_nth1; auto.
  - rewrite app_nth2 by lia. rewrite (nth_overflow new) by lia. apply nth_skipn_zeros.
Qed.
Lemma length_assign (base new : list V) : length new <= length base ->
  length (assign_prefix base new) = length base.
Proof. intro L. unfold assign_prefix. rewrite app_length, skipn_length. lia. Qed.

Lemma fold_add_prefix (l : list (list V)) : forall base,
  (forall x, In x l -> length x <= length base) ->
  length (fold_left add_prefix l base) = length base /\
  forall k, cell (fold_left add_prefix l base) k
    = vadd (cell base k) (vsum (map (fun r => cell r k) l)).
Proof.
  induction l as [|x l IH]; intros base L; simpl.
  - split; auto. intro k. rewrite vadd_0_r. auto.
  - destruct (IH (add_prefix base x)) as [L1 C1].
    { intros y Hy. rewrite length_add_prefix. apply L; simpl; auto. }
    rewrite length_add_prefix in L1. split; auto. intro k. rewrite C1.
    rewrite cell_add_prefix by (apply L; simpl; auto). rewrite vadd_assoc. reflexivity.
Qed.

(** ** Scalar calls *)

Definition composed_pick (p : P) (t : option T) (fallback : list V * nat) :=
  fix go (its : list coef) : list V * nat :=
    match its with
    | [] => fallback
    | item :: rest => if is_valid item t then call_scalar p t item else go rest
    end.

Lemma composed_pick_find (p : P) t fb (its : list coef) :
  composed_pick p t fb its =
  match find (fun c => is_valid c t) its with
  | Some c => call_scalar p t c
  | None => fb
  end.
Proof. induction its as [|x its IH]; simpl; auto. destruct (is_valid x t); auto. Qed.

Lemma call_scalar_composed (p : P) (t : option T) a (first : coef) (rest : list coef) :
  call_scalar p t (Composed a (first :: rest)) =
  match find (fun c => is_valid c t) (first :: rest) with
  | Some c => call_scalar p t c
  | None => call_scalar p t first
  end.
Proof.
  change (call_scalar p t (Composed a (first :: rest))) with
    (composed_pick p t (call_scalar p t first) (first :: rest)).
  apply composed_pick_find.
Qed.

Lemma call_scalar_length (c : coef) : wf c -> forall (p : P) (t : option T),
  length (fst (call_scalar p t c)) = coeff_size (snd (call_scalar p t c)).
Proof.
  induction c as [l|a items IH|a items IH] using coeffs_ind'; intros W p t;
    inversion W as [? Hl|? ? Hne Hw|? ? Hne Hw]; subst.
  - apply Hl.
  - destruct items as [|first rest]; [congruence|].
    rewrite call_scalar_composed.
    destruct (find _ _) as [x|] eqn:E.
    + apply find_some in E as [E _]. apply IH; auto.
    + apply IH; [|apply Hw]; simpl; auto.
  - simpl.
    destruct (fold_add_prefix (map fst (map (call_scalar p t) items))
      (zeros (coeff_size (max_list (map snd (map (call_scalar p t) items)))))) as [-> _].
    { intros x Hx. rewrite in_map_iff in Hx. destruct Hx as (y & <- & Hy).
      pose proof Hy as Hy'. rewrite in_map_iff in Hy. destruct Hy as (c & <- & Hc).
      unfold zeros. rewrite repeat_length, IH by auto. apply coeff_size_mono, max_list_in.
      apply in_map. apply in_map; auto. }
    apply repeat_length.
Qed.

Lemma combined_scalar_sum a (items : list coef) : (forall x, In x items -> wf x) ->
  forall (p : P) (t : option T) k,
  cell (fst (call_scalar p t (Combined a items))) k =
  vsum (map (fun c => cell (fst (call_scalar p t c)) k) items).
Proof.
  intros W p t k. simpl.
  destruct (fold_add_prefix (map fst (map (call_scalar p t) items))
      (zeros (coeff_size (max_list (map snd (map (call_scalar p t) items)))))) as [_ ->].
  - intros x Hx. rewrite in_map_iff in Hx. destruct Hx as (y & <- & Hy).
    pose proof Hy as Hy'. rewrite in_map_iff in Hy. destruct Hy as (c & <- & Hc).
    unfold zeros. rewrite repeat_length, call_scalar_length by auto.
    apply coeff_size_mono, max_list_in. apply in_map. apply in_map; auto.
  - rewrite cell_zeros, vadd_0_l, !map_map. reflexivity.
Qed.

Lemma vsum_app l1 l2 : vsum (l1 ++ l2) = vadd (vsum l1) (vsum l2).
Proof.
  induction l1 as [|x l1 IH]; simpl; [rewrite vadd_0_l; auto|].
  rewrite IH, vadd_assoc. auto.
Qed.
Lemma vsum_perm l1 l2 : Permutation l1 l2 -> vsum l1 = vsum l2.
Proof.
  induction 1 as [|x l l' _ IH|x y l|l l' l'' _ IH1 _ IH2]; simpl; auto.
  - congruence.
  - rewrite !vadd_assoc, (vadd_comm y x). auto.
  - congruence.
Qed.

(** ** Array calls *)

(** number of selected elements before position i *)
Fixpoint rank (mask : list bool) (i : nat) : nat :=
  match i, mask with
  | S i', b :: mask' => (if b then 1 else 0) + rank mask' i'
  | _, _ => 0
  end.

Lemma nth_select {A} mask : forall (l : list A) i x,
  nth_error mask i = Some true -> nth_error l i = Some x ->
  nth_error (select mask l) (rank mask i) = Some x.
Proof.
  induction mask as [|b mask IH]; intros [|y l] [|i] x Hm Hx; simpl in *; try discriminate.
  - injection Hm as ->. injection Hx as ->. reflexivity.
  - destruct b; simpl; apply IH; auto.
Qed.
Lemma rank_lt mask : forall {A} (l : list A) i, length mask = length l ->
  nth_error mask i = Some true -> rank mask i < length (select mask l).
Proof.
  intros A l i L Hm. apply nth_error_Some.
  destruct (nth_error l i) as [x|] eqn:E.
  - rewrite (nth_select mask l i x Hm E). discriminate.
  - apply nth_error_None in E. assert (i < length mask) by (apply nth_error_Some; congruence). lia.
Qed.

Lemma length_scatter {A B} (f : A -> B -> A) mask : forall base new,
  length (scatter f mask base new) = length base.
Proof.
  induction mask as [|[|] mask IH]; intros [|x base] [|y new]; simpl; auto.
Qed.

Lemma scatter_true {A B} (f : A -> B -> A) mask : forall base new i x y,
  nth_error mask i = Some true -> nth_error base i = Some x ->
  nth_error new (rank mask i) = Some y ->
  nth_error (scatter f mask base new) i = Some (f x y).
Proof.
  induction mask as [|[|] mask IH]; intros [|x0 base] new [|i] x y Hm Hb Hn;
    simpl in *; try discriminate.
  - destruct new as [|y0 new]; [discriminate|]. simpl in *. congruence.
  - destruct new as [|y0 new]; [discriminate|]. simpl in *. apply IH; auto.
  - apply IH; auto.
Qed.

Lemma scatter_false {A B} (f : A -> B -> A) mask : forall base new i,
  nth_error mask i <> Some true ->
  nth_error (scatter f mask base new) i = nth_error base i.
Proof.
  induction mask as [|[|] mask IH]; intros [|x0 base] new i Hm; simpl; auto.
  - destruct new as [|y0 new]; auto. destruct i; simpl in *; [congruence|]. apply IH; auto.
  - destruct i; simpl in *; auto.
Qed.

Lemma length_mask_and a : forall b, length a = length b -> length (mask_and a b) = length a.
Proof. induction a as [|x a IH]; intros [|y b]; simpl; intros; auto. Qed.
Lemma nth_mask_and a : forall b i, length a = length b ->
  nth_error (mask_and a b) i =
  match nth_error a i, nth_error b i with Some x, Some y => Some (x && y) | _, _ => None end.
Proof.
  induction a as [|x a IH]; intros [|y b] i L; simpl in *; try discriminate.
  - destruct i; auto.
  - destruct i; simpl; auto.
Qed.
Lemma length_select_le {A} mask : forall l : list A, length (select mask l) <= length l.
Proof.
  induction mask as [|[|] mask IH]; intros [|x l]; simpl; try lia; specialize (IH l); lia.
Qed.

Definition composed_parts (p : P) (ts : list (option T)) :=
  fix go (its : list coef) (mask : list bool) : list (@part V) * list bool :=
    match its with
    | [] => ([], mask)
    | item :: rest =>
        let item_mask := mask_and mask (map (is_valid item) ts) in
        let res := call_array p (select item_mask ts) item in
        let '(parts, last) := go rest (mask_and mask (map negb item_mask)) in
        ((item_mask, res) :: parts, last)
    end.

Lemma call_array_composed (p : P) (ts : list (option T)) a (first : coef) rest :
  call_array p ts (Composed a (first :: rest)) =
  let pm := composed_parts p ts (first :: rest) (map (fun _ => true) ts) in
  let parts := fst pm ++ [(snd pm, call_array p (select (snd pm) ts) first)] in
  let deg := max_list (map (fun x => snd (snd x)) parts) in
  (fold_left (fun acc x => scatter assign_prefix (fst x) acc (fst (snd x)))
     parts (map (fun _ => zeros (coeff_size deg)) ts), deg).
Proof. reflexivity. Qed.

(** what is proved of an array call: one array of rows per time, of the size given by
    the returned degree, with the same cells as the scalar call *)
Definition array_ok (p : P) (ts : list (option T)) (c : coef) : Prop :=
  length (fst (call_array p ts c)) = length ts /\
  forall i t, nth_error ts i = Some t ->
    exists rows, nth_error (fst (call_array p ts c)) i = Some rows /\
      length rows = coeff_size (snd (call_array p ts c)) /\
      same_cells rows (fst (call_scalar p t c)).

Definition part_ok (ts : list (option T)) (x : @part V) : Prop :=
  length (fst x) = length ts /\
  length (fst (snd x)) = length (select (fst x) ts) /\
  forall r, In r (fst (snd x)) -> length r = coeff_size (snd (snd x)).

(* result of folding the parts at one position *)
Lemma fold_parts_at (ts : list (option T)) (parts : list (@part V)) : forall acc N,
  Forall (part_ok ts) parts ->
  length acc = length ts -> (forall r, In r acc -> length r = coeff_size N) ->
  (forall x, In x parts -> snd (snd x) <= N) ->
  let res := fold_left (fun acc x => scatter assign_prefix (fst x) acc (fst (snd x))) parts acc in
  length res = length ts /\ (forall r, In r res -> length r = coeff_size N).
Proof.
  induction parts as [|x parts IH]; intros acc N F La Lr Ld; simpl; auto.
  inversion F as [|? ? Fx F']; subst. apply IH; auto.
  - rewrite length_scatter. auto.
  - intros r Hr. apply In_nth_error in Hr as [i Hi].
    destruct Fx as (Lm & Ln & Lx).
    assert (Hd : snd (snd x) <= N) by (apply Ld; simpl; auto).
    destruct (nth_error (fst x) i) as [[|]|] eqn:E.
    + assert (i < length acc).
      { rewrite <- (length_scatter assign_prefix (fst x) acc (fst (snd x))).
        apply nth_error_Some. congruence. }
      destruct (nth_error acc i) as [a|] eqn:Ea; [|apply nth_error_None in Ea; lia].
      pose proof (rank_lt (fst x) ts i Lm E) as Hr. rewrite <- Ln in Hr.
      destruct (nth_error (fst (snd x)) (rank (fst x) i)) as [y|] eqn:Ey;
        [|apply nth_error_None in Ey; lia].
      rewrite (scatter_true _ _ _ _ _ _ _ E Ea Ey) in Hi. injection Hi as <-.
      assert (La' : length a = coeff_size N) by (apply Lr; eapply nth_error_In; eauto).
      assert (Ly : length y = coeff_size (snd (snd x))) by (apply Lx; eapply nth_error_In; eauto).
      rewrite length_assign; auto. rewrite La', Ly. apply coeff_size_mono; auto.
    + rewrite scatter_false in Hi by congruence. apply Lr. eapply nth_error_In; eauto.
    + rewrite scatter_false in Hi by congruence. apply Lr. eapply nth_error_In; eauto.
  - intros y Hy. apply Ld. simpl; auto.
Qed.

Lemma composed_parts_at (p : P) (ts : list (option T)) (its : list coef) : forall mask,
  (forall c, In c its -> forall ts', array_ok p ts' c) ->
  length mask = length ts ->
  let pm := composed_parts p ts its mask in
  length (snd pm) = length ts /\ Forall (part_ok ts) (fst pm) /\
  forall i t b acc old N, nth_error ts i = Some t -> nth_error mask i = Some b ->
    length acc = length ts -> nth_error acc i = Some old ->
    let res := fold_left (fun acc x => scatter assign_prefix (fst x) acc (fst (snd x)))
                 (fst pm) acc in
    if b then
      match find (fun c => is_valid c t) its with
      | Some c => nth_error (snd pm) i = Some false /\
          (old = zeros (coeff_size N) -> (forall x, In x (fst pm) -> snd (snd x) <= N) ->
           exists rows, nth_error res i = Some rows /\ same_cells rows (fst (call_scalar p t c)))
      | None => nth_error (snd pm) i = Some true /\ nth_error res i = Some old
      end
    else nth_error (snd pm) i = Some false /\ nth_error res i = Some old.
Proof.
  induction its as [|item its IH]; intros mask Ha Lm.
  - cbn. split; [exact Lm|]. split; [constructor|].
    intros i t b acc old N Ht Hm La Ho. destruct b; auto.
  - cbn [composed_parts].
    set (im := mask_and mask (map (is_valid item) ts)).
    set (nm := mask_and mask (map negb im)).
    assert (Lim : length im = length ts).
    { unfold im. rewrite length_mask_and; auto. rewrite map_length. auto. }
    assert (Lnm : length nm = length ts).
    { unfold nm. rewrite length_mask_and; auto. rewrite map_length. lia. }
    specialize (IH nm (fun c Hc => Ha c (or_intror Hc)) Lnm).
    destruct (composed_parts p ts its nm) as [parts last] eqn:Ep. cbn [fst snd] in *.
    destruct IH as (Ll & Fp & IH).
    destruct (Ha item (or_introl eq_refl) (select im ts)) as [Lr Hr].
    assert (Px : part_ok ts (im, call_array p (select im ts) item)).
    { split; [exact Lim|]. split; [exact Lr|]. cbn [fst snd]. intros r Hin.
      apply In_nth_error in Hin as [j Hj].
      assert (Hlt : j < length (select im ts)) by (rewrite <- Lr; apply nth_error_Some; congruence).
      destruct (nth_error (select im ts) j) as [t|] eqn:Et; [|apply nth_error_None in Et; lia].
      destruct (Hr j t Et) as (rows & E1 & E2 & _). congruence. }
    split; [exact Ll|]. split; [constructor; auto|].
    intros i t b acc old N Ht Hm La Ho. cbn [fold_left fst snd].
    set (acc1 := scatter assign_prefix im acc (fst (call_array p (select im ts) item))).
    assert (La1 : length acc1 = length ts) by (unfold acc1; rewrite length_scatter; auto).
    assert (Hv : nth_error im i = Some (b && is_valid item t)).
    { unfold im. rewrite nth_mask_and by (rewrite map_length; auto).
      rewrite Hm, (map_nth_error (is_valid item) _ _ Ht). reflexivity. }
    assert (Hnm : nth_error nm i = Some (b && negb (is_valid item t))).
    { unfold nm. rewrite nth_mask_and by (rewrite map_length; lia).
      rewrite Hm, (map_nth_error negb _ _ Hv). destruct b, (is_valid item t); reflexivity. }
    destruct b.
    + simpl find. simpl in Hv, Hnm. destruct (is_valid item t) eqn:Ev; simpl in Hnm.
      * (* taken from this item *)
        assert (Hnew : exists y, nth_error (fst (call_array p (select im ts) item)) (rank im i)
                  = Some y /\ length y = coeff_size (snd (call_array p (select im ts) item)) /\
                  same_cells y (fst (call_scalar p t item))).
        { apply Hr. apply nth_select; auto. }
        destruct Hnew as (y & Ey & Ly & Sy).
        assert (E1 : nth_error acc1 i = Some (assign_prefix old y)).
        { unfold acc1. apply scatter_true; auto. }
        destruct (IH i t false acc1 _ N Ht Hnm La1 E1) as [I1 I2].
        split; [exact I1|]. intros -> Hd. exists (assign_prefix (zeros (coeff_size N)) y).
        split; [exact I2|]. intro k. rewrite cell_assign_zeros; [apply Sy|].
        rewrite Ly. apply coeff_size_mono.
        apply (Hd (im, call_array p (select im ts) item)). simpl; auto.
      * assert (E1 : nth_error acc1 i = Some old).
        { unfold acc1. rewrite scatter_false; congruence. }
        specialize (IH i t true acc1 old N Ht Hnm La1 E1). simpl in IH.
        destruct (find (fun c => is_valid c t) its) as [c|]; auto.
        destruct IH as [I1 I2]. split; [exact I1|]. intros Hz Hd. apply I2; auto.
        intros x Hx. apply Hd. simpl; auto.
    + simpl in Hv, Hnm.
      assert (E1 : nth_error acc1 i = Some old).
      { unfold acc1. rewrite scatter_false; congruence. }
      apply (IH i t false acc1 old N Ht Hnm La1 E1).
Qed.

Lemma scatter_all_true {A} (f : A -> A -> A) {B} (ts : list B) : forall base new,
  length base = length ts -> length new = length ts ->
  forall i x y, nth_error base i = Some x -> nth_error new i = Some y ->
  nth_error (scatter f (map (fun _ => true) ts) base new) i = Some (f x y).
Proof.
  induction ts as [|t ts IH]; intros [|b base] [|n new] Lb Ln i x y Hx Hy;
    simpl in *; try discriminate.
  - destruct i; discriminate.
  - destruct i; simpl in *; [congruence|]. apply IH; auto.
Qed.

Lemma fold_scatter_add {B} (ts : list B) (l : list (list (list V))) : forall base N,
  length base = length ts -> (forall r, In r base -> length r = N) ->
  (forall x, In x l -> length x = length ts /\ forall r, In r x -> length r <= N) ->
  let res := fold_left (fun acc r => scatter add_prefix (map (fun _ => true) ts) acc r) l base in
  length res = length ts /\ (forall r, In r res -> length r = N) /\
  forall i rows0, nth_error base i = Some rows0 ->
    exists rows, nth_error res i = Some rows /\
      forall k, cell rows k = vadd (cell rows0 k)
        (vsum (map (fun x => match nth_error x i with Some r => cell r k | None => vzero end) l)).
Proof.
  induction l as [|x l IH]; intros base N Lb Lr Lx; cbn [fold_left].
  - split; [exact Lb|]. split; [exact Lr|]. intros i rows0 E. exists rows0. split; auto.
    intro k. simpl. rewrite vadd_0_r. auto.
  - destruct (Lx x (or_introl eq_refl)) as [Lx1 Lx2].
    set (base1 := scatter add_prefix (map (fun _ => true) ts) base x).
    assert (Lb1 : length base1 = length ts) by (unfold base1; rewrite length_scatter; auto).
    assert (At : forall i r0, nth_error base i = Some r0 ->
       exists r, nth_error x i = Some r /\ nth_error base1 i = Some (add_prefix r0 r)).
    { intros i r0 E. assert (i < length base) by (apply nth_error_Some; congruence).
      destruct (nth_error x i) as [r|] eqn:Er; [|apply nth_error_None in Er; lia].
      exists r. split; auto. apply scatter_all_true; auto. }
    assert (Lr1 : forall r, In r base1 -> length r = N).
    { intros r Hr. apply In_nth_error in Hr as [i Hi].
      assert (Hlt : i < length base) by (rewrite Lb, <- Lb1; apply nth_error_Some; congruence).
      destruct (nth_error base i) as [r0|] eqn:E; [|apply nth_error_None in E; lia].
      destruct (At i r0 E) as (r1 & _ & E1). rewrite E1 in Hi. injection Hi as <-.
      rewrite length_add_prefix. apply Lr. eapply nth_error_In; eauto. }
    destruct (IH base1 N Lb1 Lr1 (fun y Hy => Lx y (or_intror Hy))) as (R1 & R2 & R3).
    split; [exact R1|]. split; [exact R2|]. intros i rows0 E.
    destruct (At i rows0 E) as (r & Er & E1). destruct (R3 i _ E1) as (rows & Ers & C).
    exists rows. split; [exact Ers|]. intro k. rewrite C. simpl. rewrite Er.
    rewrite cell_add_prefix. { rewrite vadd_assoc. reflexivity. }
    rewrite (Lr rows0) by (eapply nth_error_In; eauto). apply Lx2. eapply nth_error_In; eauto.
Qed.

Lemma call_array_ok (c : coef) : wf c -> forall (p : P) (ts : list (option T)), array_ok p ts c.
Proof.
  induction c as [l|a items IH|a items IH] using coeffs_ind'; intros W p ts;
    inversion W as [? Hl|? ? Hne Hw|? ? Hne Hw]; subst.
  - split; cbn. { apply map_length. }
    intros i t Ht. exists (lf_call l p t). repeat split.
    + apply map_nth_error; auto.
    + apply Hl.
  - destruct items as [|first rest]; [congruence|].
    unfold array_ok. rewrite call_array_composed.
    destruct (composed_parts_at p ts (first :: rest) (map (fun _ => true) ts)) as (L1 & F1 & C1).
    { intros c Hc ts'. apply IH; auto. } { apply map_length. }
    set (pm := composed_parts p ts (first :: rest) (map (fun _ => true) ts)) in *.
    cbv zeta. cbn [fst snd].
    set (lo := (snd pm, call_array p (select (snd pm) ts) first)).
    set (deg := max_list (map (fun x : @part V => snd (snd x)) (fst pm ++ [lo]))).
    assert (Hdeg : forall x, In x (fst pm ++ [lo]) -> snd (snd x) <= deg).
    { intros x Hx. apply max_list_in. apply (in_map (fun x : @part V => snd (snd x))). exact Hx. }
    destruct (IH first (or_introl eq_refl) (Hw first (or_introl eq_refl)) p
      (select (snd pm) ts)) as [Lf Hf].
    assert (Plo : part_ok ts lo).
    { split; [exact L1|]. split; [exact Lf|]. cbn [fst snd lo]. intros r Hin.
      apply In_nth_error in Hin as [j Hj].
      assert (Hlt : j < length (select (snd pm) ts)) by (rewrite <- Lf; apply nth_error_Some; congruence).
      destruct (nth_error (select (snd pm) ts) j) as [t|] eqn:Et; [|apply nth_error_None in Et; lia].
      destruct (Hf j t Et) as (rows & E1 & E2 & _). congruence. }
    assert (Pall : Forall (part_ok ts) (fst pm ++ [lo])).
    { apply Forall_app. split; auto. }
    set (acc := map (fun _ : option T => zeros (coeff_size deg)) ts).
    assert (Lacc : length acc = length ts) by apply map_length.
    assert (Racc : forall r, In r acc -> length r = coeff_size deg).
    { intros r Hr. apply in_map_iff in Hr as (? & <- & _). apply repeat_length. }
    destruct (fold_parts_at ts _ acc deg Pall Lacc Racc Hdeg) as [Lres Rres].
    split; [exact Lres|]. intros i t Ht.
    assert (Hacc : nth_error acc i = Some (zeros (coeff_size deg))).
    { unfold acc. rewrite (map_nth_error _ _ _ Ht). reflexivity. }
    assert (Hmask : nth_error (map (fun _ : option T => true) ts) i = Some true).
    { rewrite (map_nth_error _ _ _ Ht). reflexivity. }
    specialize (C1 i t true acc _ deg Ht Hmask Lacc Hacc). cbn beta iota zeta in C1.
    rewrite call_scalar_composed.
    assert (Goal1 : exists rows,
      nth_error (fold_left (fun acc x => scatter assign_prefix (fst x) acc (fst (snd x)))
        (fst pm ++ [lo]) acc) i = Some rows /\
      same_cells rows (fst match find (fun c => is_valid c t) (first :: rest) with
                           | Some c => call_scalar p t c | None => call_scalar p t first end)).
    { rewrite fold_left_app. cbn [fold_left].
      set (res1 := fold_left _ (fst pm) acc) in *.
      destruct (find (fun c => is_valid c t) (first :: rest)) as [c|].
      - destruct C1 as [Cm Cr]. destruct Cr as (rows & E1 & S1); auto.
        { intros x Hx. apply Hdeg. apply in_app_iff. auto. }
        exists rows. split; auto. rewrite scatter_false; [exact E1|].
        cbn [fst lo]. congruence.
      - destruct C1 as [Cm Cr].
        destruct (Hf (rank (snd pm) i) t) as (y & Ey & Ly & Sy). { apply nth_select; auto. }
        exists (assign_prefix (zeros (coeff_size deg)) y). split.
        + apply scatter_true; auto.
        + intro k. rewrite cell_assign_zeros; [apply Sy|]. rewrite Ly. apply coeff_size_mono.
          apply (Hdeg lo). apply in_app_iff. simpl; auto. }
    destruct Goal1 as (rows & E & S). exists rows. split; [exact E|]. split; [|exact S].
    apply Rres. eapply nth_error_In; eauto.
  - unfold array_ok. cbn [call_array fst snd].
    set (deg := max_list (map snd (map (call_array p ts) items))).
    set (acc := map (fun _ : option T => zeros (coeff_size deg)) ts).
    destruct (fold_scatter_add ts (map fst (map (call_array p ts) items)) acc (coeff_size deg))
      as (R1 & R2 & R3).
    + apply map_length.
    + intros r Hr. apply in_map_iff in Hr as (? & <- & _). apply repeat_length.
    + intros x Hx. apply in_map_iff in Hx as (y & <- & Hy).
      pose proof Hy as Hy2. apply in_map_iff in Hy2 as (c & <- & Hc).
      destruct (IH c Hc (Hw c Hc) p ts) as [L1 H1]. split; [exact L1|].
      intros r Hr. apply In_nth_error in Hr as [j Hj].
      assert (Hlt : j < length ts) by (rewrite <- L1; apply nth_error_Some; congruence).
      destruct (nth_error ts j) as [t|] eqn:Et; [|apply nth_error_None in Et; lia].
      destruct (H1 j t Et) as (rows & E1 & E2 & _). rewrite E1 in Hj. injection Hj as <-.
      rewrite E2. apply coeff_size_mono, max_list_in. apply in_map. exact Hy.
    + split; [exact R1|]. intros i t Ht.
      assert (Hacc : nth_error acc i = Some (zeros (coeff_size deg))).
      { unfold acc. rewrite (map_nth_error _ _ _ Ht). reflexivity. }
      destruct (R3 i _ Hacc) as (rows & E & C). exists rows. split; [exact E|]. split.
      { apply R2. eapply nth_error_In; eauto. }
      intro k. rewrite C, cell_zeros, vadd_0_l, combined_scalar_sum by auto.
      rewrite !map_map. f_equal. apply map_ext_in. intros c Hc.
      destruct (IH c Hc (Hw c Hc) p ts) as [_ H1]. destruct (H1 i t Ht) as (r & E1 & _ & S1).
      rewrite E1. apply S1.
Qed.

End Proofs.
