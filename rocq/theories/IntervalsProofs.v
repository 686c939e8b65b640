(** Proofs about the interval utilities. *)

From Coq Require Import Bool List Arith Lia Sorting.Sorted.
From Verif Require Import Ord IntervalsModel IntervalsSpec.
Import ListNotations.

Section BisectFacts.
Context {T : Type} `{TOrd T}.

Lemma bisect_loop_split (fuel : nat) : forall (a1 a2 : list T) x lo hi,
  Forall (fun v => le v x) a1 -> Forall (fun v => lt x v) a2 ->
  lo <= length a1 <= hi -> hi <= length (a1 ++ a2) -> hi - lo <= fuel ->
  bisect_loop fuel (a1 ++ a2) x lo hi = Some (length a1).
Proof.
  induction fuel as [|fuel IH]; intros a1 a2 x lo hi H1 H2 Hr Hh Hf; cbn [bisect_loop].
  - destruct (Nat.ltb_spec lo hi); [lia|]. f_equal; lia.
  - destruct (Nat.ltb_spec lo hi) as [Hlt|Hge]; [|f_equal; lia].
    assert (Hm : lo <= (lo + hi) / 2 < hi).
    { split; [apply Nat.div_le_lower_bound; lia|apply Nat.div_lt_upper_bound; lia]. }
    set (mid := (lo + hi) / 2) in *. clearbody mid.
    destruct (nth_error (a1 ++ a2) mid) as [v|] eqn:E.
    2:{ apply nth_error_None in E. lia. }
    destruct (Nat.ltb_spec mid (length a1)) as [Hm1|Hm1].
    + rewrite nth_error_app1 in E by lia.
      assert (Hv : le v x).
      { rewrite Forall_forall in H1. apply H1. eapply nth_error_In; eauto. }
      apply ltb_ge in Hv. rewrite Hv. apply IH; auto; lia.
    + rewrite nth_error_app2 in E by lia.
      assert (Hv : lt x v).
      { rewrite Forall_forall in H2. apply H2. eapply nth_error_In; eauto. }
      apply ltb_lt in Hv. rewrite Hv. apply IH; auto; lia.
Qed.

Lemma py_bisect_right_split (a1 a2 : list T) x :
  Forall (fun v => le v x) a1 -> Forall (fun v => lt x v) a2 ->
  py_bisect_right (a1 ++ a2) x = Some (length a1).
Proof.
  intros H1 H2. unfold py_bisect_right.
  apply bisect_loop_split; auto; rewrite ?app_length; lia.
Qed.
End BisectFacts.

Section NonOverlapping.
Context {T : Type} `{TOrd T} {A : Type}.
Notation iv := (interval T A).

Definition before (x y : iv) : Prop := le (iend x) (istart y).
Definition inv (l : list iv) : Prop :=
  StronglySorted before l /\ Forall (fun x => lt (istart x) (iend x)) l.

Lemma inv_nil : inv [].
Proof. split; constructor. Qed.

Lemma SS_app_inv {B} (R : B -> B -> Prop) (l1 l2 : list B) :
  StronglySorted R (l1 ++ l2) <->
  StronglySorted R l1 /\ StronglySorted R l2 /\
  (forall x y, In x l1 -> In y l2 -> R x y).
Proof.
  induction l1 as [|a l1 IH]; simpl.
  - split; [intro S; repeat split; auto; [constructor|contradiction]|tauto].
  - split.
    + intro S. inversion S as [|? ? S1 F]; subst. apply IH in S1 as (S1 & S2 & C).
      rewrite Forall_app in F. destruct F as [F1 F2]. rewrite Forall_forall in F2.
      repeat split; auto. { constructor; auto. }
      intros x y [->|Hx] Hy; auto.
    + intros (S1 & S2 & C). inversion S1 as [|? ? S1' F]; subst. constructor.
      * apply IH. repeat split; auto.
      * rewrite Forall_app. split; auto. rewrite Forall_forall. auto.
Qed.

Lemma inv_app (l1 l2 : list iv) :
  inv (l1 ++ l2) <-> inv l1 /\ inv l2 /\ (forall x y, In x l1 -> In y l2 -> before x y).
Proof. unfold inv. rewrite SS_app_inv, Forall_app. tauto. Qed.

Lemma inv_cons (x : iv) l :
  inv (x :: l) <-> lt (istart x) (iend x) /\ inv l /\ (forall y, In y l -> before x y).
Proof.
  unfold inv. split.
  - intros [S F]. inversion S; inversion F; subst. rewrite <- Forall_forall. tauto.
  - intros (L & [S F] & B). rewrite <- Forall_forall in B. split; constructor; auto.
Qed.

(* split of the list at the position returned by bisect_right *)
Lemma inv_split (l : list iv) (s : T) : inv l ->
  exists l1 l2, l = l1 ++ l2 /\ Forall (fun x => le (iend x) s) l1 /\
    Forall (fun x => lt s (iend x)) l2.
Proof.
  induction l as [|x l IH]; intro I.
  - exists [], []. auto.
  - apply inv_cons in I as (L & I & B). destruct (le_or_lt (iend x) s) as [Hx|Hx].
    + destruct (IH I) as (l1 & l2 & -> & F1 & F2). exists (x :: l1), l2. auto.
    + exists [], (x :: l). split; [reflexivity|]. split; [constructor|]. constructor; auto.
      rewrite Forall_forall. intros y Hy. pose proof (B y Hy) as By. unfold before in By.
      apply inv_cons in I || idtac.
      assert (lt (istart y) (iend y)).
      { destruct I as [_ F]. rewrite Forall_forall in F. auto. }
      ord.
Qed.

Lemma bisect_ends (l1 l2 : list iv) s :
  Forall (fun x => le (iend x) s) l1 -> Forall (fun x => lt s (iend x)) l2 ->
  py_bisect_right (map iend (l1 ++ l2)) s = Some (length l1).
Proof.
  intros F1 F2. rewrite map_app, <- (map_length iend l1).
  apply py_bisect_right_split; rewrite Forall_map; assumption.
Qed.

Lemma list_insert_split {B} (l1 l2 : list B) x :
  list_insert (length l1) x (l1 ++ l2) = l1 ++ x :: l2.
Proof.
  unfold list_insert. rewrite firstn_app, firstn_all, Nat.sub_diag, skipn_app, skipn_all,
    Nat.sub_diag. simpl. rewrite app_nil_r. reflexivity.
Qed.

Lemma nth_error_split_eq {B} (l1 l2 : list B) x :
  nth_error (l1 ++ x :: l2) (length l1) = Some x.
Proof. rewrite nth_error_app2, Nat.sub_diag; auto. Qed.

(** lookups *)
Lemma find_app {B} (f : B -> bool) l1 l2 :
  find f (l1 ++ l2) = match find f l1 with Some x => Some x | None => find f l2 end.
Proof. induction l1 as [|x l1 IH]; simpl; auto. destruct (f x); auto. Qed.

Lemma first_at_app t (l1 l2 : list iv) :
  first_at t (l1 ++ l2) =
  match first_at t l1 with Some x => Some x | None => first_at t l2 end.
Proof. unfold first_at. rewrite find_app. destruct (find _ l1); auto. Qed.

Lemma first_at_cons t (x : iv) l :
  first_at t (x :: l) = if at_time t x then Some (iobj x) else first_at t l.
Proof. unfold first_at. simpl. destruct (at_time t x); auto. Qed.

Lemma at_time_spec t (x : iv) : at_time t x = true <-> le (istart x) t /\ lt t (iend x).
Proof. unfold at_time. rewrite andb_true_iff, leb_le, ltb_lt. tauto. Qed.

Lemma first_at_none_le t (l : list iv) :
  Forall (fun x => le (iend x) t) l -> first_at t l = None.
Proof.
  induction 1 as [|x l Hx _ IH]; auto. rewrite first_at_cons.
  destruct (at_time t x) eqn:E; auto. apply at_time_spec in E as [E1 E2]. ord.
Qed.

Lemma first_at_none_lt t (l : list iv) :
  Forall (fun x => lt t (istart x)) l -> first_at t l = None.
Proof.
  induction 1 as [|x l Hx _ IH]; auto. rewrite first_at_cons.
  destruct (at_time t x) eqn:E; auto. apply at_time_spec in E as [E1 E2]. ord.
Qed.

Definition pending (s : T) (l : list iv) : nat :=
  length (filter (fun x => ltb s (iend x)) l).

Lemma pending_split s (l1 l2 : list iv) :
  Forall (fun x => le (iend x) s) l1 -> Forall (fun x => lt s (iend x)) l2 ->
  pending s (l1 ++ l2) = length l2.
Proof.
  intros F1 F2. unfold pending. rewrite filter_app, app_length.
  assert (E1 : filter (fun x : iv => ltb s (iend x)) l1 = []).
  { induction F1 as [|x l1 Hx _ IH]; simpl; auto. apply ltb_ge in Hx. rewrite Hx. auto. }
  assert (E2 : filter (fun x : iv => ltb s (iend x)) l2 = l2).
  { induction F2 as [|x l2 Hx _ IH]; simpl; auto. apply ltb_lt in Hx. rewrite Hx.
    f_equal; auto. }
  rewrite E1, E2. reflexivity.
Qed.

(** the effect of inserting the interval [s, e) *)
Definition add_spec (t s e : T) (item : A) (l : list iv) : option A :=
  match first_at t l with
  | Some x => Some x
  | None => if leb s t && ltb t e then Some item else None
  end.

Lemma insert_loop_correct (fuel : nat) : forall (st : list iv) s e item,
  inv st -> pending s st < fuel ->
  exists st', insert_loop fuel s e item st = Some st' /\ inv st' /\
    forall t, first_at t st' = add_spec t s e item st.
Proof.
  induction fuel as [|fuel IH]; intros st s e item I Hp; [lia|].
  cbn [insert_loop].
  destruct (ltb s e) eqn:Ese.
  2:{ exists st. split; [reflexivity|]. split; [exact I|]. intro t. unfold add_spec.
      destruct (first_at t st); auto. destruct (leb s t && ltb t e) eqn:E; auto. ord. }
  destruct (inv_split st s I) as (l1 & l2 & -> & F1 & F2).
  rewrite (bisect_ends l1 l2 s F1 F2), app_length.
  rewrite pending_split in Hp by assumption.
  apply inv_app in I as (I1 & I2 & C).
  destruct l2 as [|cur l2].
  - (* all existing intervals end not after s *)
    simpl length. rewrite Nat.add_0_r, Nat.eqb_refl.
    assert (R : exists st', Some (list_insert (length l1) (s, e, item) (l1 ++ [])) = Some st' /\
       inv st' /\
       (forall t, first_at t st' = add_spec t s e item (l1 ++ []))).
    { rewrite list_insert_split. eexists; split; [reflexivity|]. split.
      - apply inv_app. split; [auto|]. split.
        + apply inv_cons. split; [unfold istart, iend; simpl; ord|]. split; [auto|].
          intros y [].
        + intros x y Hx [<-|[]]. rewrite Forall_forall in F1. exact (F1 x Hx).
      - intro t. unfold add_spec. rewrite app_nil_r, first_at_app, first_at_cons.
        destruct (first_at t l1); reflexivity. }
    destruct (Nat.eqb_spec (length l1) 0) as [E0|E0]; [exact R|].
    rewrite app_nil_r.
    destruct (nth_error l1 (length l1 - 1)) as [last|] eqn:El.
    2:{ apply nth_error_None in El. lia. }
    apply nth_error_In in El. rewrite Forall_forall in F1. pose proof (F1 _ El) as Fl.
    assert (X : ltb (iend last) e = true) by ord. rewrite X.
    rewrite app_nil_r in R. exact R.
  - destruct (Nat.eqb_spec (length l1) (length l1 + length (cur :: l2))) as [E|_];
      [simpl in E; lia|].
    rewrite nth_error_split_eq.
    apply inv_cons in I2 as (Lc & I2 & B2).
    inversion F2 as [|? ? Hcur F2']; subst.
    assert (Cc : forall x, In x l1 -> before x cur) by (intros; apply C; simpl; auto).
    destruct (ltb s (istart cur)) eqn:Esc.
    + (* gap before the current interval *)
      destruct (leb e (istart cur)) eqn:Eec.
      * rewrite list_insert_split. eexists; split; [reflexivity|]. split.
        1: apply inv_app; split; [auto|]; split;
          [apply inv_cons; split; [unfold istart, iend; simpl; ord|]; split;
             [apply inv_cons; auto|];
             intros y [<-|Hy];
             [unfold before, iend; simpl; ord
             |pose proof (B2 y Hy); unfold before, iend in *; simpl in *; ord]
          |intros x y Hx [<-|Hy];
             [rewrite Forall_forall in F1; exact (F1 x Hx)|apply C; auto]].
        -- intro t. unfold add_spec. rewrite !first_at_app.
           destruct (first_at t l1) eqn:E1; auto.
           rewrite (first_at_cons t (s, e, item)).
           destruct (at_time t (s, e, item)) eqn:Et.
           ++ assert (first_at t (cur :: l2) = None) as ->.
              { apply first_at_none_lt. apply at_time_spec in Et. unfold istart, iend in Et.
                simpl in Et. destruct Et. constructor; [ord|]. rewrite Forall_forall.
                intros y Hy. pose proof (B2 y Hy). unfold before in *. ord. }
              unfold at_time, istart, iend in Et. simpl in Et. rewrite Et. reflexivity.
           ++ destruct (first_at t (cur :: l2)); auto.
              unfold at_time, istart, iend in Et. simpl in Et. rewrite Et. reflexivity.
      * cbv zeta. rewrite list_insert_split.
        assert (EQ : forall x : iv, l1 ++ x :: cur :: l2 = (l1 ++ [x]) ++ cur :: l2)
          by (intro; rewrite <- app_assoc; reflexivity).
        assert (EL : forall x : iv, length l1 + 1 = length (l1 ++ [x]))
          by (intro; rewrite app_length; simpl; lia).
        rewrite EQ, (EL (s, istart cur, item)).
        rewrite nth_error_split_eq.
        set (new := (s, istart cur, item)).
        assert (In' : inv ((l1 ++ [new]) ++ cur :: l2)).
        { apply inv_app. split; [|split].
          - apply inv_app. split; [auto|]. split.
            + apply inv_cons. split; [unfold new, istart, iend; simpl; ord|].
              split; [apply inv_nil|intros y []].
            + intros x y Hx [<-|[]]. rewrite Forall_forall in F1. exact (F1 x Hx).
          - apply inv_cons. auto.
          - intros x y Hx Hy. apply in_app_iff in Hx as [Hx|[<-|[]]]; [apply C; auto|].
            destruct Hy as [<-|Hy]; unfold before, new, iend at 1; simpl.
            + apply le_refl.
            + pose proof (B2 y Hy). unfold before in *. ord. }
        assert (Hn : pending (iend cur) ((l1 ++ [new]) ++ cur :: l2) < fuel).
        { replace ((l1 ++ [new]) ++ cur :: l2) with (((l1 ++ [new]) ++ [cur]) ++ l2)
            by (rewrite <- app_assoc; reflexivity).
          rewrite pending_split.
          - simpl in Hp. lia.
          - rewrite !Forall_app. repeat split.
            + eapply Forall_impl; [|exact F1]. cbn. intros x Hx. ord.
            + constructor; [unfold new, iend at 1; simpl; ord|constructor].
            + constructor; [apply le_refl|constructor].
          - rewrite Forall_forall in *. intros y Hy. pose proof (B2 y Hy).
            unfold before in *. destruct I2 as [_ I2]. rewrite Forall_forall in I2.
            pose proof (I2 y Hy). ord. }
        destruct (IH _ (iend cur) e item In' Hn) as (st' & E & I' & Sp).
        exists st'. split; [exact E|]. split; [exact I'|].
        intro t. rewrite Sp. unfold add_spec.
        rewrite !first_at_app.
        destruct (first_at t l1) eqn:E1; auto.
        rewrite (first_at_cons t new), (first_at_cons t cur).
        unfold at_time, new, istart at 1, iend at 1, iobj at 1. simpl.
        destruct (leb s t) eqn:E2; destruct (ltb t (istart cur)) eqn:E3;
          destruct (leb (istart cur) t) eqn:E4; destruct (ltb t (iend cur)) eqn:E5;
          destruct (ltb t e) eqn:E6; destruct (leb (iend cur) t) eqn:E7;
          simpl; try reflexivity; try solve [ord];
          destruct (first_at t l2) eqn:E8; try reflexivity;
          try (rewrite (first_at_none_lt t l2) in E8; [discriminate|];
               rewrite Forall_forall; intros y Hy; pose proof (B2 y Hy);
               unfold before in *; ord).
    + (* s is within the current interval *)
      assert (In' : inv (l1 ++ cur :: l2)).
      { apply inv_app. split; auto. split; auto. apply inv_cons. auto. }
      assert (Hn : pending (iend cur) (l1 ++ cur :: l2) < fuel).
      { replace (l1 ++ cur :: l2) with ((l1 ++ [cur]) ++ l2)
          by (rewrite <- app_assoc; reflexivity).
        rewrite pending_split.
        - simpl in Hp. lia.
        - rewrite Forall_app. split.
          + eapply Forall_impl; [|exact F1]. cbn. intros x Hx. ord.
          + constructor; [apply le_refl|constructor].
        - rewrite Forall_forall in *. intros y Hy. pose proof (B2 y Hy).
          unfold before in *. destruct I2 as [_ I2]. rewrite Forall_forall in I2.
          pose proof (I2 y Hy). ord. }
      destruct (IH _ (iend cur) e item In' Hn) as (st' & E & I' & Sp).
      exists st'. split; [exact E|]. split; [exact I'|].
      intro t. rewrite Sp. unfold add_spec. rewrite !first_at_app.
      destruct (first_at t l1) eqn:E1; auto.
      rewrite (first_at_cons t cur).
      unfold at_time.
      destruct (leb s t) eqn:E2;
        destruct (leb (istart cur) t) eqn:E4; destruct (ltb t (iend cur)) eqn:E5;
        destruct (ltb t e) eqn:E6; destruct (leb (iend cur) t) eqn:E7;
        simpl; try reflexivity; try solve [ord].
Qed.

Lemma nonoverlapping_loop_correct (l : list iv) : forall st, inv st ->
  exists st', nonoverlapping_loop l st = Some st' /\ inv st' /\
    forall t, first_at t st' = first_at t (st ++ l).
Proof.
  induction l as [|[[s e] item] l IH]; intros st I.
  - exists st. rewrite app_nil_r. simpl. auto.
  - cbn [nonoverlapping_loop]. destruct (ltb e s) eqn:E.
    + destruct (IH st I) as (st' & E' & I' & Sp). exists st'. split; [exact E'|]. split; [exact I'|].
      intro t. rewrite Sp, !first_at_app, first_at_cons. destruct (first_at t st); auto.
      destruct (at_time t (s, e, item)) eqn:Et; auto. apply at_time_spec in Et.
      unfold istart, iend in Et. simpl in Et. destruct Et. ord.
    + assert (Hp : pending s st < S (length st)).
      { unfold pending. induction st as [|x st IHs]; simpl; [lia|].
        apply inv_cons in I as (_ & I & _). specialize (IHs I).
        destruct (ltb s (iend x)); simpl; lia. }
      destruct (insert_loop_correct _ st s e item I Hp) as (st1 & E1 & I1 & Sp1).
      rewrite E1. destruct (IH st1 I1) as (st' & E' & I' & Sp).
      exists st'. split; [exact E'|]. split; [exact I'|]. intro t.
      rewrite Sp, !first_at_app, Sp1. unfold add_spec.
      destruct (first_at t st) eqn:Es; auto. rewrite first_at_cons.
      unfold at_time, istart, iend, iobj. simpl. destruct (leb s t && ltb t e); auto.
Qed.

Lemma SS_nth {B} (R : B -> B -> Prop) (l : list B) : StronglySorted R l ->
  forall i j x y, i < j -> nth_error l i = Some x -> nth_error l j = Some y -> R x y.
Proof.
  induction 1 as [|a l S IH F]; intros i j x y Hij Hi Hj.
  - destruct i; discriminate.
  - destruct j as [|j]; [lia|]. simpl in Hj. destruct i as [|i]; simpl in Hi.
    + injection Hi as <-. rewrite Forall_forall in F. apply F. eapply nth_error_In; eauto.
    + eapply (IH i j); eauto. lia.
Qed.

Lemma nth_SS {B} (R : B -> B -> Prop) (l : list B) :
  (forall i j x y, i < j -> nth_error l i = Some x -> nth_error l j = Some y -> R x y) ->
  StronglySorted R l.
Proof.
  induction l as [|a l IH]; intro F; constructor.
  - apply IH. intros i j x y Hij Hi Hj. apply (F (S i) (S j) x y); auto. lia.
  - rewrite Forall_forall. intros x Hx. apply In_nth_error in Hx as [n Hn].
    apply (F 0 (S n) a x); auto. lia.
Qed.

Lemma inv_iff (l : list iv) : inv l <-> ordered l /\ proper l.
Proof.
  unfold inv, ordered, proper. rewrite Forall_forall. split.
  - intros [S F]. split; [|exact F]. intros i j x y. apply (SS_nth before l S).
  - intros [S F]. split; [|exact F]. apply nth_SS. exact S.
Qed.

Lemma get_nonoverlapping_correct (l : list iv) :
  exists r, get_nonoverlapping_intervals l = Some r /\ ordered r /\ proper r /\
    forall t, first_at t r = first_at t l.
Proof.
  destruct (nonoverlapping_loop_correct l [] inv_nil) as (r & E & I & Sp).
  apply inv_iff in I as [O P]. exists r. auto.
Qed.

(** at any instant at most one interval of an ordered list matches *)
Lemma all_at_first_at t (l : list iv) : inv l ->
  all_at t l = match first_at t l with Some x => [x] | None => [] end.
Proof.
  induction l as [|x l IH]; intro I; auto. apply inv_cons in I as (L & I & B).
  specialize (IH I). unfold all_at in *. simpl. rewrite first_at_cons.
  destruct (at_time t x) eqn:E; auto. simpl. rewrite IH. rewrite first_at_none_lt; auto.
  rewrite Forall_forall. intros y Hy. pose proof (B y Hy). apply at_time_spec in E as [E1 E2].
  unfold before in *. ord.
Qed.

End NonOverlapping.
