(** Proofs about the coefficient sets as objects. *)
From Coq Require Import Bool List Arith Lia.
From Verif Require Import Ord CoefModel CoefSpec CoefProofs ObjModel ObjSpec.
Import ListNotations.

Section Proofs.
Context {T : Type} {OT : TOrd T} {OI : TInf T} {V : Type} {MV : CMon V} {P : Type}.
Notation coef := (coeffs T V P).
Notation heap := (heap T V P).

Lemma nesting_in (x : coef) l : In x l -> nesting x <= fold_right Nat.max 0 (map nesting l).
Proof. induction l as [|y l IH]; simpl; [tauto|]. intros [->|H]; [lia|]. specialize (IH H). lia. Qed.

Definition same_attributes (a b : coef) : Prop :=
  validity a = validity b /\ is_internal a = is_internal b /\ degree a = degree b /\ min_degree a = min_degree b.

Lemma stands_attributes (h : heap) x c : stands_for h x c -> exists o, nth_error h x = Some o /\ same_attributes (attributes o) c.
Proof. intro S; inversion S; subst; eexists; (split; [eassumption|]); unfold same_attributes; cbn; auto. Qed.

Lemma valid_same (a b : coef) t : same_attributes a b -> is_valid a t = is_valid b t.
Proof. intros [E _]. unfold is_valid. now rewrite E. Qed.

Lemma insert_same a b la lb : same_attributes a b -> Forall2 same_attributes la lb ->
  Forall2 same_attributes (insert_by validity_leb a la) (insert_by validity_leb b lb).
Proof.
  intros S F. induction F as [|x y la lb Sx F IH]; cbn; [auto|].
  assert (E : validity_leb a x = validity_leb b y) by (unfold validity_leb; now rewrite (proj1 S), (proj1 Sx)).
  rewrite E. destruct (validity_leb b y); auto.
Qed.

Lemma sort_same la lb : Forall2 same_attributes la lb -> Forall2 same_attributes (sort_by validity_leb la) (sort_by validity_leb lb).
Proof. induction 1; cbn; [auto|]. now apply insert_same. Qed.

Lemma composed_same la lb : Forall2 same_attributes la lb -> forall i l s e d m,
  composed_loop i la l s e d m = composed_loop i lb l s e d m.
Proof.
  induction 1 as [|a b la lb (V1 & I & D & M) F IH]; intros; cbn; [reflexivity|].
  rewrite V1, I, D, M. destruct (validity b) as [vs ve]. destruct (ltb l vs); [reflexivity|]. destruct (negb _); [reflexivity|]. apply IH.
Qed.

Lemma combined_same la lb : Forall2 same_attributes la lb -> forall i s e d m,
  combined_loop i la s e d m = combined_loop i lb s e d m.
Proof.
  induction 1 as [|a b la lb (V1 & I & D & M) F IH]; intros; cbn; [reflexivity|].
  rewrite V1, I, D, M. destruct (negb _); [reflexivity|]. apply IH.
Qed.

Lemma stands_objects (h : heap) items sets : Forall2 (stands_for h) items sets ->
  exists os, objects h items = Some os /\ Forall2 same_attributes (map attributes os) sets.
Proof.
  intro F. induction F as [|x c items sets S F (os & E & Fs)]; [exists []; split; [reflexivity|constructor]|]. cbn.
  destruct (stands_attributes h x c S) as (o & Eo & So). rewrite Eo, E. exists (o :: os). cbn. auto.
Qed.

(** ** Evaluation *)
Definition item_ok (h : heap) p depth (i : nat) (c : coef) : Prop :=
  (forall t, object_call h p t depth i = Value (call_scalar p t c)) /\
  (forall ts, object_call_array h p ts depth i = Value (call_array p ts c)) /\
  exists o, nth_error h i = Some o /\ forall t, is_valid (attributes o) t = is_valid c t.

Lemma items_ok (h : heap) p depth items sets : Forall2 (stands_for h) items sets -> fold_right Nat.max 0 (map nesting sets) <= depth ->
  (forall c, In c sets -> forall x, stands_for h x c -> nesting c <= depth ->
     (forall t, object_call h p t depth x = Value (call_scalar p t c)) /\ (forall ts, object_call_array h p ts depth x = Value (call_array p ts c))) ->
  Forall2 (item_ok h p depth) items sets.
Proof.
  induction 1 as [|i c items sets Si F IHF]; intros D IH; [constructor|]. cbn in D. constructor.
  - destruct (IH c (or_introl eq_refl) i Si ltac:(lia)) as [A B]. split; [exact A|]. split; [exact B|].
    destruct (stands_attributes _ _ _ Si) as (o & Eo & So). exists o. split; [exact Eo|]. intro t. now apply valid_same.
  - apply IHF; [lia|]. intros y Hy. apply IH. now right.
Qed.

Lemma omap_value {A B C} (f : A -> outcome B) (g : C -> B) l l' : Forall2 (fun x y => f x = Value (g y)) l l' -> omap f l = Value (map g l').
Proof. induction 1 as [|x y l l' E F IH]; cbn; [reflexivity|]. rewrite E. cbn. rewrite IH. reflexivity. Qed.

Lemma pick_value (h : heap) p t depth fo fb its cs : fo = Value fb -> Forall2 (item_ok h p depth) its cs ->
  (fix go (its : list nat) : outcome (list V * nat) :=
     match its with
     | [] => fo
     | item :: rest =>
         match nth_error h item with
         | None => NoObject
         | Some o => if is_valid (attributes o) t then object_call h p t depth item else go rest
         end
     end) its = Value (match find (fun c => is_valid c t) cs with Some c' => call_scalar p t c' | None => fb end).
Proof.
  intros E. induction 1 as [|i c its cs (A & B & o & Eo & Vo) F IH]; [exact E|]. cbn [find]. rewrite Eo, Vo.
  destruct (is_valid c t); [apply A|exact IH].
Qed.

Lemma parts_value (h : heap) p ts depth its cs : Forall2 (item_ok h p depth) its cs -> forall mask,
  (fix go (its : list nat) (mask : list bool) : outcome (list part * list bool) :=
     match its with
     | [] => Value ([], mask)
     | item :: rest =>
         match nth_error h item with
         | None => NoObject
         | Some o =>
             let item_mask := mask_and mask (map (is_valid (attributes o)) ts) in
             obind (object_call_array h p (select item_mask ts) depth item) (fun res =>
               obind (go rest (mask_and mask (map negb item_mask))) (fun r =>
                 Value ((item_mask, res) :: fst r, snd r)))
         end
     end) its mask = Value (composed_parts p ts cs mask).
Proof.
  induction 1 as [|i c its cs (A & B & o & Eo & Vo) F IH]; intro mask; [reflexivity|]. rewrite Eo. cbn zeta.
  rewrite (map_ext _ _ Vo), B. cbn [obind]. rewrite IH. cbn [obind composed_parts]. cbn zeta.
  destruct (composed_parts p ts cs _). reflexivity.
Qed.

Lemma call_value (h : heap) p c : forall x depth, stands_for h x c -> nesting c <= depth ->
  (forall t, object_call h p t depth x = Value (call_scalar p t c)) /\
  (forall ts, object_call_array h p ts depth x = Value (call_array p ts c)).
Proof.
  induction c as [l|a sets IH|a sets IH] using coeffs_ind'; intros x depth S D;
    (destruct depth as [|depth]; [cbn in D; lia|]); inversion S as [? ? E|? ? items ? E Ne F|? ? items ? E Ne F]; subst; cbn [object_call object_call_array]; rewrite E.
  - split; reflexivity.
  - pose proof (items_ok h p depth items sets F ltac:(cbn in D; lia) (fun c Hc y => IH c Hc y depth)) as G.
    inversion G as [|i c items' sets' Gi G' E1 E2]; subst; [congruence|]. split; intro t.
    + rewrite call_scalar_composed. refine (pick_value h p t depth _ _ _ _ _ G). apply Gi.
    + rewrite call_array_composed. rewrite (parts_value h p t depth _ _ G). cbn [obind].
      rewrite (proj1 (proj2 Gi)). reflexivity.
  - pose proof (items_ok h p depth items sets F ltac:(cbn in D; lia) (fun c Hc y => IH c Hc y depth)) as G. split; intro t.
    + rewrite (omap_value _ (call_scalar p t) items sets); [reflexivity|]. clear - G. induction G as [|i c its cs A F IH]; constructor; [apply A|exact IH].
    + rewrite (omap_value _ (call_array p t) items sets); [reflexivity|]. clear - G. induction G as [|i c its cs A F IH]; constructor; [apply A|exact IH].
Qed.

Lemma evaluates (h : heap) x c : stands_for h x c -> evaluates_as h x c.
Proof. intros S depth p D. now apply call_value. Qed.

(** ** Objects which contain themselves *)
Lemma composed_self (h : heap) a x : nth_error h x = Some (OComposed a [x]) -> never_evaluates h x.
Proof.
  intros E depth p. induction depth as [|depth [IH1 IH2]]; [split; reflexivity|]. split; intro t; cbn [object_call object_call_array]; rewrite E.
  - rewrite E. destruct (is_valid _ t); apply IH1.
  - rewrite E. cbn zeta. rewrite IH2. reflexivity.
Qed.

Lemma combined_self (h : heap) a x : nth_error h x = Some (OCombined a [x]) -> never_evaluates h x.
Proof.
  intros E depth p. induction depth as [|depth [IH1 IH2]]; [split; reflexivity|]. split; intro t; cbn [object_call object_call_array]; rewrite E; cbn [omap].
  - rewrite IH1. reflexivity.
  - rewrite IH2. reflexivity.
Qed.

Lemma store_at (h : heap) : forall x o o', nth_error h x = Some o' -> nth_error (store h x o) x = Some o.
Proof. induction h as [|y h IH]; intros [|x] o o' E; cbn in *; try discriminate; [reflexivity|]. eapply IH; eassumption. Qed.

Lemma composed_broken (h : heap) x a items : nth_error h x = Some (OComposed a items) -> returns_broken h [x] (new_composed h [x]).
Proof.
  intro E. unfold new_composed, construct. rewrite E. cbn [is_composed]. unfold composed_init. cbn [objects]. rewrite E.
  cbn. destruct (a_validity a) as [s e]. unfold ltb at 1. rewrite pinf_greatest. cbn. rewrite eqb_reflx. cbn.
  eexists _, x. split; [reflexivity|]. split; [reflexivity|]. eapply composed_self, store_at, E.
Qed.

Lemma combined_broken (h : heap) x a items : nth_error h x = Some (OCombined a items) -> returns_broken h [x] (new_combined h [x]).
Proof.
  intro E. unfold new_combined, construct. rewrite E. cbn [is_combined]. unfold combined_init. cbn [objects]. rewrite E. cbn.
  eexists _, x. split; [reflexivity|]. split; [reflexivity|]. eapply combined_self, store_at, E.
Qed.

(** ** Constructors *)
Lemma stands_extend (h h' : heap) c : (forall i, i < length h -> nth_error h' i = nth_error h i) -> forall x, stands_for h x c -> stands_for h' x c.
Proof.
  intro K. assert (K' : forall x o, nth_error h x = Some o -> nth_error h' x = Some o).
  { intros x o E. rewrite K; [exact E|]. apply nth_error_Some. congruence. }
  assert (A : forall sets, (forall c, In c sets -> forall x, stands_for h x c -> stands_for h' x c) -> forall items, Forall2 (stands_for h) items sets -> Forall2 (stands_for h') items sets).
  { intros sets H items F. induction F as [|i c0 items sets Si F IH]; constructor; [apply H; [now left|exact Si]|]. apply IH. intros y Hy. apply H. now right. }
  induction c as [l|a sets IH|a sets IH] using coeffs_ind'; intros x S; inversion S as [? ? E|? ? items ? E Ne F|? ? items ? E Ne F]; subst; econstructor; eauto.
Qed.

Lemma append_old (h : heap) o i : i < length h -> nth_error (h ++ [o]) i = nth_error h i.
Proof. intro L. now apply nth_error_app1. Qed.

Lemma append_new (h : heap) o : nth_error (h ++ [o]) (length h) = Some o.
Proof. rewrite nth_error_app2, Nat.sub_diag; [reflexivity|lia]. Qed.

Lemma Forall2_extend (h h' : heap) items sets : (forall i, i < length h -> nth_error h' i = nth_error h i) ->
  Forall2 (stands_for h) items sets -> Forall2 (stands_for h') items sets.
Proof. intro K. induction 1; constructor; [eapply stands_extend; eassumption|assumption]. Qed.

Lemma stands_one_composed (h : heap) x c : stands_for h x c ->
  exists o, nth_error h x = Some o /\ (is_composed o = true <-> exists a l, c = Composed a l) /\ (is_combined o = true <-> exists a l, c = Combined a l).
Proof.
  intro S; inversion S; subst; eexists; (split; [eassumption|]); cbn; split; split; try congruence; try (intros (? & ? & ?); congruence); eauto.
Qed.

Lemma composed_error (l : list coef) : forall i l0 s0 e0 d0 m0 e, composed_loop i l l0 s0 e0 d0 m0 = Err e -> e = ValueError.
Proof.
  induction l as [|z l IH]; intros i l0 s0 e0 d0 m0 e; cbn; [destruct d0, m0; congruence|].
  destruct (validity z). destruct (ltb l0 t); [congruence|]. destruct (negb _); [congruence|]. apply IH.
Qed.

Lemma combined_error (l : list coef) : forall i s0 e0 d0 m0 e, combined_loop i l s0 e0 d0 m0 = Err e -> e = ValueError.
Proof. induction l as [|z l IH]; intros i s0 e0 d0 m0 e; cbn; [congruence|]. destruct (negb _); [congruence|]. apply IH. Qed.

Lemma composed_constructs (h : heap) items sets : Forall2 (stands_for h) items sets -> constructs h items (new_composed h items) (mk_composed sets).
Proof.
  intro F. destruct F as [|x c items sets S F]; [reflexivity|]. destruct F as [|y d items sets S' F].
  - destruct c as [l|a l|a l].
    + inversion S as [? ? E0|? ? its ? E0 Ne Fi|? ? its ? E0 Ne Fi]; subst. cbn. unfold returns_new. exists h, x. unfold new_composed, construct. rewrite E0. cbn. auto.
    + inversion S as [? ? E0|? ? its ? E0 Ne Fi|? ? its ? E0 Ne Fi]; subst. cbn. eapply composed_broken. eassumption.
    + inversion S as [? ? E0|? ? its ? E0 Ne Fi|? ? its ? E0 Ne Fi]; subst. cbn. unfold returns_new. exists h, x. unfold new_composed, construct. rewrite E0. cbn. auto.
  - assert (F' : Forall2 (stands_for h) (x :: y :: items) (c :: d :: sets)) by (repeat constructor; assumption).
    destruct (stands_objects _ _ _ F') as (os & Eo & Fo). destruct os as [|o os]; [inversion Fo|].
    assert (M : mk_composed (c :: d :: sets) = match composed_loop (is_internal c) (sort_by validity_leb (c :: d :: sets)) pinf pinf ninf None None with Ok a => Ok (Composed a (c :: d :: sets)) | Err e => Err e end) by (destruct c; reflexivity).
    rewrite M. unfold new_composed, construct, composed_init. rewrite Eo.
    assert (I : is_internal (attributes o) = is_internal c) by (inversion Fo as [|? ? ? ? Sa]; subst; apply Sa). rewrite I.
    rewrite (composed_same _ _ (sort_same _ _ Fo)).
    destruct (composed_loop _ _ _ _ _ _ _) as [a|e] eqn:L.
    + cbn. eexists _, _. split; [reflexivity|]. split; [|intros i Hi; now apply append_old].
      eapply stands_composed; [apply append_new|discriminate|]. eapply Forall2_extend; [intros i Hi; now apply append_old|exact F'].
    + cbn. now rewrite (composed_error _ _ _ _ _ _ _ _ L).
Qed.

Lemma combined_constructs (h : heap) items sets : Forall2 (stands_for h) items sets -> constructs h items (new_combined h items) (mk_combined sets).
Proof.
  intro F. destruct F as [|x c items sets S F]; [reflexivity|]. destruct F as [|y d items sets S' F].
  - destruct c as [l|a l|a l].
    + inversion S as [? ? E0|? ? its ? E0 Ne Fi|? ? its ? E0 Ne Fi]; subst. cbn. unfold returns_new. exists h, x. unfold new_combined, construct. rewrite E0. cbn. auto.
    + inversion S as [? ? E0|? ? its ? E0 Ne Fi|? ? its ? E0 Ne Fi]; subst. cbn. unfold returns_new. exists h, x. unfold new_combined, construct. rewrite E0. cbn. auto.
    + inversion S as [? ? E0|? ? its ? E0 Ne Fi|? ? its ? E0 Ne Fi]; subst. cbn. eapply combined_broken. eassumption.
  - assert (F' : Forall2 (stands_for h) (x :: y :: items) (c :: d :: sets)) by (repeat constructor; assumption).
    destruct (stands_objects _ _ _ F') as (os & Eo & Fo). destruct os as [|o os]; [inversion Fo|].
    assert (M : mk_combined (c :: d :: sets) = match combined_loop (is_internal c) (d :: sets) (fst (validity c)) (snd (validity c)) (degree c) (min_degree c) with Ok a => Ok (Combined a (c :: d :: sets)) | Err e => Err e end) by (destruct c; reflexivity).
    rewrite M. unfold new_combined, construct, combined_init. rewrite Eo. cbn [map] in Fo.
    inversion Fo as [|? ? ? ? (Ev & Ei & Ed & Em) Fo']; subst. rewrite Ei, Ev, Ed, Em.
    rewrite (combined_same _ _ Fo').
    destruct (combined_loop _ _ _ _ _ _) as [a|e] eqn:L.
    + cbn [constructs]. eexists _, _. split; [reflexivity|]. split; [|intros i Hi; now apply append_old].
      eapply stands_combined; [apply append_new|discriminate|]. eapply Forall2_extend; [intros i Hi; now apply append_old|exact F'].
    + cbn [constructs]. now rewrite (combined_error _ _ _ _ _ _ _ L).
Qed.

(** ** Programs *)
Definition all_stand (h : heap) : Prop := forall x, x < length h -> exists c, stands_for h x c.

Lemma all_objects (h : heap) items os : all_stand h -> objects h items = Some os -> exists sets, Forall2 (stands_for h) items sets.
Proof.
  intro A. revert os. induction items as [|x items IH]; intros os E; [exists []; constructor|]. cbn in E.
  destruct (nth_error h x) eqn:Ex; [|discriminate]. destruct (objects h items) eqn:Eo; [|discriminate].
  destruct (IH _ eq_refl) as (sets & F). destruct (A x) as (c & S); [apply nth_error_Some; congruence|]. exists (c :: sets). now constructor.
Qed.

Lemma new_objects instance init (h : heap) items r : (forall h items o, init h items = Ok o -> objects h items <> None) ->
  construct instance init h items = Ok r -> objects h items <> None.
Proof.
  intros I. unfold construct. destruct items as [|x [|y items]].
  - intros _. cbn. discriminate.
  - cbn. destruct (nth_error h x) eqn:E; [discriminate|discriminate].
  - destruct (init h (x :: y :: items)) eqn:E; [|discriminate]. intros _. eapply I, E.
Qed.

Lemma step_same (h : heap) s : all_stand h -> careful_statement h s ->
  all_stand (execute h s) /\ length h <= length (execute h s) /\ forall i, i < length h -> nth_error (execute h s) i = nth_error h i.
Proof.
  intros A C.
  assert (G : forall (r : result (heap * nat)) sets tree items, Forall2 (stands_for h) items sets -> constructs h items r tree -> tree <> Err SelfReference ->
    (forall h' x, r = Ok (h', x) -> h' = h \/ exists o, h' = h ++ [o] /\ x = length h) ->
    let h' := match r with Ok (h', _) => h' | Err _ => h end in
    all_stand h' /\ length h <= length h' /\ forall i, i < length h -> nth_error h' i = nth_error h i).
  { intros r sets tree items F K N Sh. destruct r as [[h' x]|e]; cbn zeta; [|auto].
    destruct tree as [c|e]; cbn in K; [|destruct e; try discriminate; congruence].
    destruct K as (h2 & x2 & E & S & O). injection E as <- <-. destruct (Sh _ _ eq_refl) as [->|(o & -> & ->)]; [auto|].
    split; [|split; [rewrite app_length; lia|exact O]]. intros y Hy. rewrite app_length in Hy. cbn in Hy.
    destruct (Nat.eq_dec y (length h)) as [->|Ny]; [exists c; exact S|]. destruct (A y ltac:(lia)) as (cy & Sy). exists cy. eapply stands_extend; eassumption. }
  assert (Shape : forall instance init items, (forall x o, items = [x] -> nth_error h x = Some o -> instance o = false) -> 
    forall h' x, construct instance init h items = Ok (h', x) -> h' = h \/ exists o, h' = h ++ [o] /\ x = length h).
  { intros instance init items Hn h' x. unfold construct. destruct items as [|y [|z items]].
    - destruct (init h []); [|discriminate]. intros [= <- <-]. right. eauto.
    - destruct (nth_error h y) eqn:E; [|discriminate]. rewrite (Hn y o eq_refl E). intros [= <- <-]. now left.
    - destruct (init h _); [|discriminate]. intros [= <- <-]. right. eauto. }
  destruct s as [l|items|items]; cbn [execute].
  - split; [|split; [rewrite app_length; lia|intros i Hi; now apply append_old]]. intros x Hx. rewrite app_length in Hx. cbn in Hx.
    destruct (Nat.eq_dec x (length h)) as [->|Ny]; [exists (Leaf l); constructor; apply append_new|].
    destruct (A x ltac:(lia)) as (c & S). exists c. eapply stands_extend; [|exact S]. intros i Hi. now apply append_old.
  - destruct (new_composed h items) as [r|e] eqn:E; [|auto].
    assert (Ob : objects h items <> None).
    { eapply new_objects; [|exact E]. intros h0 it o. unfold composed_init. destruct (objects h0 it); [congruence|discriminate]. }
    destruct (objects h items) as [os|] eqn:Eo; [|congruence]. destruct (all_objects h items os A Eo) as (sets & F).
    pose proof (composed_constructs h items sets F) as K. rewrite E in K.
    assert (Hc : forall x o, items = [x] -> nth_error h x = Some o -> is_composed o = false).
    { intros x o -> Ex. cbn in C. destruct o; try reflexivity. exfalso. eapply C, Ex. }
    apply (G (Ok r) sets (mk_composed sets) items F K); [|intros h' x Er; eapply Shape; [exact Hc|]; rewrite <- Er; exact E].
    intro M. rewrite M in K. cbn in K. destruct K as (h' & x & -> & K & Nv). inversion F as [|? c ? ? S F']; subst. inversion F'; subst.
    destruct (stands_one_composed h x c S) as (o & Ex & I & _). rewrite (Hc x o eq_refl Ex) in I.
    destruct c; cbn in M; try discriminate. destruct I as [_ I]. discriminate I. eauto.
  - destruct (new_combined h items) as [r|e] eqn:E; [|auto].
    assert (Ob : objects h items <> None).
    { eapply new_objects; [|exact E]. intros h0 it o. unfold combined_init. destruct (objects h0 it); [congruence|discriminate]. }
    destruct (objects h items) as [os|] eqn:Eo; [|congruence]. destruct (all_objects h items os A Eo) as (sets & F).
    pose proof (combined_constructs h items sets F) as K. rewrite E in K.
    assert (Hc : forall x o, items = [x] -> nth_error h x = Some o -> is_combined o = false).
    { intros x o -> Ex. cbn in C. destruct o; try reflexivity. exfalso. eapply C, Ex. }
    apply (G (Ok r) sets (mk_combined sets) items F K); [|intros h' x Er; eapply Shape; [exact Hc|]; rewrite <- Er; exact E].
    intro M. rewrite M in K. cbn in K. destruct K as (h' & x & -> & K & Nv). inversion F as [|? c ? ? S F']; subst. inversion F'; subst.
    destruct (stands_one_composed h x c S) as (o & Ex & _ & I). rewrite (Hc x o eq_refl Ex) in I.
    destruct c; cbn in M; try discriminate. destruct I as [_ I]. discriminate I. eauto.
Qed.

Lemma run_same (program : list (statement T V P)) : forall h, all_stand h -> careful h program ->
  all_stand (run h program) /\ forall x c, stands_for h x c -> stands_for (run h program) x c.
Proof.
  induction program as [|s program IH]; intros h A C; [cbn; auto|]. destruct C as [C1 C2]. destruct (step_same h s A C1) as (A' & L & O).
  destruct (IH _ A' C2) as [A2 K]. split; [exact A2|]. intros x c S. apply K. eapply stands_extend; eassumption.
Qed.

Lemma history (program more : list (statement T V P)) : careful [] (program ++ more) -> let h := run [] program in
  forall x, x < length h -> exists c, stands_for h x c /\ evaluates_as h x c /\ stands_for (run h more) x c /\ evaluates_as (run h more) x c.
Proof.
  intros C h x Hx. assert (A0 : all_stand []) by (intros y Hy; cbn in Hy; lia).
  assert (Sp : forall p h0, careful h0 (p ++ more) -> careful h0 p /\ careful (run h0 p) more).
  { induction p as [|s p IH]; intros h0 H; [split; [exact I|exact H]|]. cbn in H. destruct H as [H1 H2]. destruct (IH _ H2) as [H3 H4]. cbn. auto. }
  destruct (Sp program [] C) as [C1 C2]. destruct (run_same program [] A0 C1) as [A1 _]. destruct (A1 x Hx) as (c & S).
  destruct (run_same more _ A1 C2) as [_ K]. exists c. split; [exact S|]. split; [now apply evaluates|]. split; [now apply K|]. apply evaluates. now apply K.
Qed.

End Proofs.
