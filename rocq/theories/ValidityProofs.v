(** Proofs about the constructors of composed and combined coefficients. *)

From Coq Require Import Bool List Arith Lia Permutation Sorting.Sorted.
From Verif Require Import Ord IntervalsModel IntervalsSpec IntervalsProofs AggregateProofs
  CoefModel CoefSpec CoefProofs.
Import ListNotations.

Section Proofs.
Context {T : Type} {OT : TOrd T} {OI : TInf T} {V : Type} {MV : CMon V} {P : Type}.
Notation coef := (coeffs T V P).
Notation vs c := (fst (validity c)).
Notation ve c := (snd (validity c)).

Lemma ninf_le (a : T) : le ninf a.
Proof. apply leb_le, ninf_least. Qed.
Lemma le_pinf (a : T) : le a pinf.
Proof. apply leb_le, pinf_greatest. Qed.

(** ** The order of the items *)

Lemma validity_leb_spec (x y : coef) :
  validity_leb x y = true <-> lt (vs x) (vs y) \/ (le (vs x) (vs y) /\ le (ve x) (ve y)).
Proof.
  unfold validity_leb. destruct (validity x) as [s1 e1], (validity y) as [s2 e2]. cbn [fst snd].
  destruct (ltb s1 s2) eqn:E1.
  - ord_bool. split; auto.
  - destruct (ltb s2 s1) eqn:E2.
    + split; [discriminate|]. intros [H|[H _]]; ord.
    + rewrite leb_le. ord_bool. split; [auto|]. intros [H|[_ H]]; [ord|auto].
Qed.

Lemma validity_leb_total (x y : coef) : validity_leb x y = true \/ validity_leb y x = true.
Proof.
  rewrite !validity_leb_spec.
  destruct (le_or_lt (vs x) (vs y)), (le_or_lt (vs y) (vs x)),
    (le_or_lt (ve x) (ve y)), (le_or_lt (ve y) (ve x)); auto;
    try (left; right; split; ord); try (right; right; split; ord).
Qed.

Lemma validity_leb_trans (x y z : coef) :
  validity_leb x y = true -> validity_leb y z = true -> validity_leb x z = true.
Proof.
  rewrite !validity_leb_spec. intros [H1|[H1 H2]] [H3|[H3 H4]].
  - left; ord.
  - left; ord.
  - left; ord.
  - right; split; ord.
Qed.

Lemma sorted_items (items : list coef) :
  StronglySorted (fun x y => validity_leb x y = true) (sort_by validity_leb items).
Proof.
  apply sort_by_sorted; [apply validity_leb_total|apply validity_leb_trans].
Qed.

Lemma sort_nil (items : list coef) x : In x items -> sort_by validity_leb items = [] -> False.
Proof. intros H E. apply (sort_by_in validity_leb) in H. rewrite E in H. destruct H. Qed.

Lemma validity_leb_start (x y : coef) : validity_leb x y = true -> le (vs x) (vs y).
Proof. rewrite validity_leb_spec. intros [H|[H _]]; ord. Qed.

(** ** The checks of the composed coefficients *)

(* each item starts no later than the previous one ends *)
Fixpoint chained (last : T) (l : list coef) : Prop :=
  match l with
  | [] => True
  | x :: l' => le (vs x) last /\ chained (ve x) l'
  end.

Fixpoint fold_deg (d : option nat) (l : list coef) : option nat :=
  match l with [] => d | x :: l' => fold_deg (Some (omax d (degree x))) l' end.
Fixpoint fold_mdeg (d : option nat) (l : list coef) : option nat :=
  match l with [] => d | x :: l' => fold_mdeg (Some (omin d (min_degree x))) l' end.

Lemma composed_loop_ok internal (l : list coef) : forall last s e d m,
  l <> [] \/ (d <> None /\ m <> None) ->
  (exists a, composed_loop internal l last s e d m = Ok a) <->
  chained last l /\ (forall x, In x l -> is_internal x = internal).
Proof.
  induction l as [|x l IH]; intros last s e d m Hne; simpl.
  - destruct Hne as [Hne|[Hd Hm]]; [congruence|].
    destruct d, m; try congruence. split; [intros _; split; [auto|tauto]|eauto].
  - destruct (validity x) as [xs xe] eqn:Ex. cbn [fst snd].
    destruct (ltb last xs) eqn:E1.
    + split; [intros [a Ha]; discriminate|]. intros [[Hc _] _]. ord.
    + destruct (Bool.eqb internal (is_internal x)) eqn:E2; simpl.
      * apply eqb_prop in E2. rewrite IH by (right; split; discriminate).
        ord_bool. split.
        -- intros [Hc Hi]. split; [auto|]. intros y [<-|Hy]; auto.
        -- intros [[_ Hc] Hi]. split; auto.
      * split; [intros [a Ha]; discriminate|]. intros [_ Hi].
        rewrite (Hi x (or_introl eq_refl)) in E2. rewrite eqb_reflx in E2. discriminate.
Qed.

Lemma composed_loop_err internal (l : list coef) : forall last s e d m,
  l <> [] \/ (d <> None /\ m <> None) ->
  ~ (chained last l /\ (forall x, In x l -> is_internal x = internal)) ->
  composed_loop internal l last s e d m = Err ValueError.
Proof.
  induction l as [|x l IH]; intros last s e d m Hne Hn; simpl.
  - exfalso. apply Hn. simpl. tauto.
  - destruct (validity x) as [xs xe] eqn:Ex.
    destruct (ltb last xs) eqn:E1; auto.
    destruct (Bool.eqb internal (is_internal x)) eqn:E2; simpl; auto.
    apply IH; [right; split; discriminate|]. intros [Hc Hi]. apply Hn.
    apply eqb_prop in E2. simpl. rewrite Ex. cbn [fst snd]. ord_bool.
    split; [auto|]. intros y [<-|Hy]; auto.
Qed.

Definition teq (a b : T) : Prop := le a b /\ le b a.

(* coverage of the validity range and its bounds *)
Lemma composed_loop_validity internal (all : list coef) (l : list coef) : forall last s e d m a,
  composed_loop internal l last s e d m = Ok a ->
  StronglySorted (fun x y => validity_leb x y = true) l ->
  (forall x, In x l -> In x all) ->
  (forall x, In x l -> le s (vs x)) ->
  le last e ->
  (forall t, le s t -> le t e -> exists x, In x all /\ valid_at x t) ->
  (forall t, le (fst (a_validity a)) t -> le t (snd (a_validity a)) ->
     exists x, In x all /\ valid_at x t).
Proof.
  induction l as [|x l IH]; intros last s e d m a E S Hin Hs Hl Hc t H1 H2; simpl in E.
  - destruct d, m; try discriminate. injection E as <-. simpl in *. auto.
  - destruct (validity x) as [xs xe] eqn:Ex. destruct (ltb last xs) eqn:E1; [discriminate|].
    destruct (negb _) eqn:E2; [discriminate|].
    inversion S as [|? ? S' F]; subst.
    pose proof (Hs x (or_introl eq_refl)) as Hsx. rewrite Ex in Hsx. simpl in Hsx.
    refine (IH _ _ _ _ _ _ E S' _ _ _ _ t H1 H2).
    + intros y Hy. apply Hin. simpl; auto.
    + intros y Hy. pose proof (tmin_le_l s xs). pose proof (Hs y (or_intror Hy)). ord.
    + apply tmax_ge_r.
    + intros u Hu1 Hu2. ord_bool.
      assert (Hsu : le s u).
      { unfold tmin in Hu1. destruct (ltb xs s) eqn:Eq; ord. }
      destruct (le_or_lt u e) as [Hue|Hue]; [auto|].
      exists x. split; [apply Hin; simpl; auto|]. unfold valid_at. rewrite Ex. simpl.
      split; [ord|]. unfold tmax in Hu2. destruct (ltb e xe) eqn:Eq; ord_bool; ord.
Qed.

Lemma composed_loop_bounds internal (l : list coef) : forall last s e d m a,
  composed_loop internal l last s e d m = Ok a ->
  (forall t, le (fst (a_validity a)) t <-> le s t \/ exists x, In x l /\ le (vs x) t) /\
  (forall t, le t (snd (a_validity a)) <-> le t e \/ exists x, In x l /\ le t (ve x)) /\
  a_internal a = internal /\
  fold_deg d l = Some (a_degree a) /\ fold_mdeg m l = Some (a_min_degree a).
Proof.
  induction l as [|x l IH]; intros last s e d m a E; simpl in E.
  - destruct d, m; try discriminate. injection E as <-. simpl.
    repeat split; try tauto; try (intros [H|(x & [] & _)]; auto).
  - destruct (validity x) as [xs xe] eqn:Ex. destruct (ltb last xs) eqn:E1; [discriminate|].
    destruct (negb _) eqn:E2; [discriminate|].
    apply IH in E as (B1 & B2 & B3 & B4 & B5).
    split; [|split; [|auto]].
    + intro t. rewrite B1. split.
      * intros [H|(y & Hy & H)].
        -- destruct (tmin_cases s xs) as [Eq|Eq]; rewrite Eq in H; auto.
           right. exists x. rewrite Ex. simpl. auto.
        -- right. exists y. simpl. auto.
      * intros [H|(y & [<-|Hy] & H)].
        -- left. eapply le_trans; [apply tmin_le_l|exact H].
        -- left. rewrite Ex in H. simpl in H. eapply le_trans; [apply tmin_le_r|exact H].
        -- right. exists y. auto.
    + intro t. rewrite B2. split.
      * intros [H|(y & Hy & H)].
        -- destruct (tmax_cases e xe) as [Eq|Eq]; rewrite Eq in H; auto.
           right. exists x. rewrite Ex. simpl. auto.
        -- right. exists y. simpl. auto.
      * intros [H|(y & [<-|Hy] & H)].
        -- left. eapply le_trans; [exact H|apply tmax_ge_l].
        -- left. rewrite Ex in H. simpl in H. eapply le_trans; [exact H|apply tmax_ge_r].
        -- right. exists y. auto.
Qed.

Lemma composed_covered (items : list coef) c t :
  mk_composed items = Ok c -> valid_at c t -> exists x, In x items /\ valid_at x t.
Proof.
  intros E Hv. apply mk_composed_cases in E as [->|(a & first & rest & -> & Hi & Hr & E)].
  - exists c. simpl; auto.
  - unfold valid_at in Hv. simpl in Hv.
    pose proof (sorted_items items) as S.
    assert (Hin : forall x, In x (sort_by validity_leb items) -> In x items)
      by (intros x; apply sort_by_in).
    destruct (sort_by validity_leb items) as [|x l] eqn:Es.
    { pose proof (proj2 (sort_by_in validity_leb items first)) as Hf. rewrite Es, Hi in Hf.
      simpl in Hf. exfalso. apply Hf. auto. }
    simpl in E. destruct (validity x) as [xs xe] eqn:Ex.
    destruct (ltb pinf xs); [discriminate|]. destruct (negb _); [discriminate|].
    inversion S as [|? ? S' F]; subst.
    refine (composed_loop_validity _ (first :: rest) l _ _ _ _ _ _ E S' _ _ _ _ t (proj1 Hv) (proj2 Hv)).
    + intros y Hy. apply Hin. simpl; auto.
    + intros y Hy. rewrite Forall_forall in F. pose proof (validity_leb_start _ _ (F y Hy)) as Hxy.
      rewrite Ex in Hxy. simpl in Hxy. pose proof (tmin_le_r pinf xs). ord.
    + apply tmax_ge_r.
    + intros u H1 H2. exists x. split; [apply Hin; simpl; auto|]. unfold valid_at. rewrite Ex. simpl.
      pose proof (le_pinf xs). pose proof (ninf_le xe).
      pose proof (le_pinf u). pose proof (ninf_le u).
      split.
      * unfold tmin in H1. destruct (ltb xs pinf) eqn:Eq; ord.
      * unfold tmax in H2. destruct (ltb ninf xe) eqn:Eq; ord.
Qed.

Lemma fold_deg_max (l : list coef) : forall d, fold_deg (Some d) l
  = Some (fold_left Nat.max (map degree l) d).
Proof. induction l as [|x l IH]; intro d; simpl; auto. Qed.
Lemma fold_mdeg_min (l : list coef) : forall d, fold_mdeg (Some d) l
  = Some (fold_left Nat.min (map min_degree l) d).
Proof. induction l as [|x l IH]; intro d; simpl; auto. Qed.

Lemma fold_max_spec (l : list nat) : forall d,
  (forall x, In x (d :: l) -> x <= fold_left Nat.max l d) /\
  In (fold_left Nat.max l d) (d :: l).
Proof.
  induction l as [|y l IH]; intro d; simpl.
  - split; [intros x [->|[]]; lia|auto].
  - destruct (IH (Nat.max d y)) as [I1 I2]. split.
    + intros x [->|[->|Hx]].
      * specialize (I1 (Nat.max x y) (or_introl eq_refl)). lia.
      * specialize (I1 (Nat.max d x) (or_introl eq_refl)). lia.
      * apply I1. simpl; auto.
    + destruct I2 as [I2|I2]; [|auto].
      destruct (Nat.max_spec d y) as [[? Em]|[? Em]]; rewrite Em in *; auto.
Qed.
Lemma fold_min_spec (l : list nat) : forall d,
  (forall x, In x (d :: l) -> fold_left Nat.min l d <= x) /\
  In (fold_left Nat.min l d) (d :: l).
Proof.
  induction l as [|y l IH]; intro d; simpl.
  - split; [intros x [->|[]]; lia|auto].
  - destruct (IH (Nat.min d y)) as [I1 I2]. split.
    + intros x [->|[->|Hx]].
      * specialize (I1 (Nat.min x y) (or_introl eq_refl)). lia.
      * specialize (I1 (Nat.min d x) (or_introl eq_refl)). lia.
      * apply I1. simpl; auto.
    + destruct I2 as [I2|I2]; [|auto].
      destruct (Nat.min_spec d y) as [[? Em]|[? Em]]; rewrite Em in *; auto.
Qed.

Lemma is_max_perm d l l' : Permutation l l' -> is_max d l -> is_max d l'.
Proof.
  intros H [H1 H2]. split; [eapply Permutation_in; eauto|].
  intros x Hx. apply H2. eapply Permutation_in; [apply Permutation_sym|]; eauto.
Qed.
Lemma is_min_perm d l l' : Permutation l l' -> is_min d l -> is_min d l'.
Proof.
  intros H [H1 H2]. split; [eapply Permutation_in; eauto|].
  intros x Hx. apply H2. eapply Permutation_in; [apply Permutation_sym|]; eauto.
Qed.
Lemma is_max_unique d d' l : is_max d l -> is_max d' l -> d = d'.
Proof. intros [H1 H2] [H3 H4]. specialize (H2 d' H3). specialize (H4 d H1). lia. Qed.
Lemma is_min_unique d d' l : is_min d l -> is_min d' l -> d = d'.
Proof. intros [H1 H2] [H3 H4]. specialize (H2 d' H3). specialize (H4 d H1). lia. Qed.

Lemma composed_attrs (items : list coef) c : mk_composed items = Ok c ->
  (forall t, le (vs c) t <-> exists x, In x items /\ le (vs x) t) /\
  (forall t, le t (ve c) <-> exists x, In x items /\ le t (ve x)) /\
  (forall x, In x items -> is_internal x = is_internal c) /\
  is_max (degree c) (map degree items) /\ is_min (min_degree c) (map min_degree items).
Proof.
  intros E. apply mk_composed_cases in E as [->|(a & first & rest & -> & Hi & Hr & E)].
  - assert (G : forall Q : coef -> Prop, Q c <-> exists x, In x [c] /\ Q x).
    { intro Q. split; [intro; exists c; simpl; auto|intros (x & [<-|[]] & H); auto]. }
    split; [intro t; apply (G (fun x => le (vs x) t))|].
    split; [intro t; apply (G (fun x => le t (ve x)))|].
    split; [intros x [<-|[]]; auto|].
    split; (split; [simpl; auto|intros x [<-|[]]; auto]).
  - pose proof (sort_by_in validity_leb items) as Hin.
    pose proof (sort_by_perm validity_leb items) as Hp.
    assert (Hne : sort_by validity_leb items <> []).
    { intro En. rewrite En in Hin. apply (Hin first). rewrite Hi. simpl; auto. }
    assert (Hok : exists a, composed_loop (is_internal first) (sort_by validity_leb items)
               pinf pinf ninf None None = Ok a) by eauto.
    apply composed_loop_ok in Hok as [_ Hint]; [|auto].
    pose proof E as E'. apply composed_loop_bounds in E' as (B1 & B2 & B3 & B4 & B5).
    cbn [validity is_internal degree min_degree].
    split; [|split; [|split; [|split]]].
    + intro t. rewrite B1. split.
      * intros [H|(x & Hx & H)].
        -- destruct (sort_by validity_leb items) as [|x l]; [congruence|].
           exists x. split; [apply Hin; simpl; auto|].
           pose proof (le_pinf (vs x)). ord.
        -- exists x. split; [apply Hin; auto|auto].
      * intros (x & Hx & H). right. exists x. split; [apply Hin; auto|auto].
    + intro t. rewrite B2. split.
      * intros [H|(x & Hx & H)].
        -- destruct (sort_by validity_leb items) as [|x l]; [congruence|].
           exists x. split; [apply Hin; simpl; auto|].
           pose proof (ninf_le (ve x)). ord.
        -- exists x. split; [apply Hin; auto|auto].
      * intros (x & Hx & H). right. exists x. split; [apply Hin; auto|auto].
    + intros x Hx. rewrite B3. apply Hint. apply Hin. exact Hx.
    + apply (is_max_perm _ (map degree (sort_by validity_leb items))).
      { apply Permutation_map, Permutation_sym, Hp. }
      destruct (sort_by validity_leb items) as [|x l]; [congruence|].
      simpl in B4. rewrite fold_deg_max in B4. injection B4 as <-. simpl.
      destruct (fold_max_spec (map degree l) (degree x)) as [S1 S2]. split; auto.
    + apply (is_min_perm _ (map min_degree (sort_by validity_leb items))).
      { apply Permutation_map, Permutation_sym, Hp. }
      destruct (sort_by validity_leb items) as [|x l]; [congruence|].
      simpl in B5. rewrite fold_mdeg_min in B5. injection B5 as <-. simpl.
      destruct (fold_min_spec (map min_degree l) (min_degree x)) as [S1 S2]. split; auto.
Qed.

(** ** Gaps *)

Lemma chained_app l1 : forall last l2 x, chained last (l1 ++ x :: l2) ->
  match rev l1 with [] => le (vs x) last | y :: _ => le (vs x) (ve y) end.
Proof.
  induction l1 as [|z l1 IH]; intros last l2 x H; simpl in *; [tauto|].
  destruct H as [_ H]. specialize (IH _ _ _ H).
  destruct (rev l1) as [|y r]; simpl; auto.
Qed.

Lemma gap_rejected (items : list coef) : has_gap items ->
  (forall x, In x items -> le (vs x) (ve x)) ->
  mk_composed items = Err ValueError.
Proof.
  intros (early & (x0 & Hx0 & Ex0) & (y0 & Hy0 & Ey0) & Hg) Hp.
  assert (Hn : forall first : coef, ~ (chained pinf (sort_by validity_leb items) /\
             (forall x, In x (sort_by validity_leb items) -> is_internal x = is_internal first))).
  { intros first [Hc _].
    pose proof (sorted_items items) as S. pose proof (sort_by_in validity_leb items) as Hin.
    set (l := sort_by validity_leb items) in *.
    (* split at the first late item *)
    assert (Sp : exists l1 y l2, l = l1 ++ y :: l2 /\ early y = false /\
                  forall x, In x l1 -> early x = true).
    { assert (Hy : In y0 l) by (apply Hin; auto). clearbody l. clear -Hy Ey0.
      induction l as [|z l IH]; [destruct Hy|].
      destruct (early z) eqn:Ez.
      - destruct Hy as [->|Hy]; [congruence|].
        destruct (IH Hy) as (l1 & y & l2 & -> & H1 & H2).
        exists (z :: l1), y, l2. split; [reflexivity|]. split; [auto|].
        intros x [<-|Hx]; auto.
      - exists [], z, l. split; [reflexivity|]. split; [auto|intros x []]. }
    destruct Sp as (l1 & y & l2 & El & Ey & H1).
    assert (Hy : In y items) by (apply Hin; rewrite El; apply in_app_iff; simpl; auto).
    rewrite El in Hc. apply chained_app in Hc.
    destruct (rev l1) as [|z r] eqn:Er.
    - assert (l1 = []) as -> by (rewrite <- (rev_involutive l1), Er; reflexivity).
      (* the first item is late, but an early one must come before *)
      assert (Hx : In x0 l) by (apply Hin; auto). rewrite El in Hx. simpl in Hx.
      destruct Hx as [->|Hx]; [congruence|].
      rewrite El in S. simpl in S. inversion S as [|? ? S' F]; subst.
      rewrite Forall_forall in F. pose proof (validity_leb_start _ _ (F x0 Hx)).
      pose proof (Hg x0 y Hx0 Hy Ex0 Ey). pose proof (Hp x0 Hx0). ord.
    - assert (Hz : In z l1) by (apply in_rev; rewrite Er; simpl; auto).
      assert (Hzi : In z items) by (apply Hin; rewrite El; apply in_app_iff; auto).
      pose proof (Hg z y Hzi Hy (H1 z Hz) Ey). ord. }
  unfold mk_composed. destruct items as [|first rest]; [destruct Hx0|].
  destruct rest as [|second rest].
  - destruct Hx0 as [<-|[]]. destruct Hy0 as [<-|[]]. congruence.
  - rewrite composed_loop_err; [destruct first; reflexivity| |apply Hn].
    left. intro En.
    exact (sort_nil _ _ (in_eq _ _) En).
Qed.

(** without nested items the check is exact *)
Lemma nogap_accepted (items : list coef) internal : items <> [] ->
  (forall x, In x items -> is_internal x = internal) ->
  (forall x, In x items -> le (vs x) (ve x)) ->
  (forall x y, In x items -> In y items -> lt (vs x) (vs y) -> le (ve x) (ve y)) ->
  (forall a i, items <> [Composed a i]) ->
  ~ has_gap items -> exists c, mk_composed items = Ok c.
Proof.
  intros Hne Hint Hp Hnest Hself Hg.
  assert (Hc : chained pinf (sort_by validity_leb items)).
  { pose proof (sorted_items items) as S. pose proof (sort_by_in validity_leb items) as Hin.
    set (l := sort_by validity_leb items) in *.
    assert (Gen : forall l2 l1 last, l = l1 ++ l2 ->
       (forall x, In x l1 -> le (ve x) last) ->
       (l1 = [] -> last = pinf) ->
       (l1 <> [] -> exists z, In z l1 /\ ve z = last) ->
       chained last l2).
    { induction l2 as [|y l2 IH]; intros l1 last El Hl Hnil Hlast; simpl; auto.
      assert (Hyi : In y items) by (apply Hin; rewrite El; apply in_app_iff; simpl; auto).
      assert (Hle : le (vs y) last).
      { destruct (le_or_lt (vs y) last) as [H|H]; auto. exfalso.
        destruct l1 as [|z1 l1'].
        { rewrite (Hnil eq_refl) in H. pose proof (le_pinf (vs y)). ord. }
        apply Hg. exists (fun z => ltb (ve z) (vs y)).
        rewrite El in S. apply SS_app_inv in S as (_ & S2 & _).
        inversion S2 as [|? ? S2' F]; subst. rewrite Forall_forall in F.
        split; [|split].
        - exists z1. split; [apply Hin; rewrite El; simpl; auto|].
          pose proof (Hl z1 (or_introl eq_refl)). ord.
        - exists y. split; auto. pose proof (Hp y Hyi). ord.
        - intros u w Hu Hw Eu Ew. apply Hin in Hw. rewrite El in Hw.
          apply in_app_iff in Hw as [Hw|[<-|Hw]].
          + pose proof (Hl w Hw). ord.
          + ord.
          + pose proof (validity_leb_start _ _ (F w Hw)). ord. }
      split; [exact Hle|].
      apply (IH (l1 ++ [y])).
      - rewrite <- app_assoc. exact El.
      - intros x Hx. apply in_app_iff in Hx as [Hx|[<-|[]]]; [|apply le_refl].
        assert (Hxi : In x items) by (apply Hin; rewrite El; apply in_app_iff; auto).
        rewrite El in S. apply SS_app_inv in S as (_ & _ & Cr).
        pose proof (Cr x y Hx (or_introl eq_refl)) as Hxy.
        apply validity_leb_spec in Hxy as [Hxy|[_ Hxy]]; [apply Hnest; auto|auto].
      - intro En. apply app_eq_nil in En as [_ En]. discriminate.
      - intros _. exists y. rewrite in_app_iff. simpl. auto. }
    apply (Gen l [] pinf); auto; [intros x []|congruence]. }
  destruct items as [|first rest]; [congruence|].
  assert (Hok : exists a, composed_loop (is_internal first)
      (sort_by validity_leb (first :: rest)) pinf pinf ninf None None = Ok a).
  { apply composed_loop_ok.
    - left. intro En.
      exact (sort_nil _ _ (in_eq _ _) En).
    - split; auto. intros x Hx. apply sort_by_in in Hx.
      rewrite (Hint x Hx). symmetry. apply Hint. simpl; auto. }
  destruct Hok as [a Ha]. unfold mk_composed. destruct rest as [|second rest].
  - destruct first as [l|a' i'|a' i']; eauto. exfalso. eapply Hself; eauto.
  - rewrite Ha. destruct first; eauto.
Qed.

(** ** Combined coefficients *)

Lemma combined_loop_spec internal (l : list coef) : forall s e d m a,
  combined_loop internal l s e d m = Ok a ->
  (forall x, In x l -> is_internal x = internal) /\ a_internal a = internal /\
  (forall t, le (fst (a_validity a)) t <-> le s t /\ forall x, In x l -> le (vs x) t) /\
  (forall t, le t (snd (a_validity a)) <-> le t e /\ forall x, In x l -> le t (ve x)) /\
  a_degree a = fold_left Nat.max (map degree l) d /\
  a_min_degree a = fold_left Nat.min (map min_degree l) m.
Proof.
  induction l as [|x l IH]; intros s e d m a E; simpl in E.
  - injection E as <-. simpl. repeat split; try tauto.
  - destruct (Bool.eqb internal (is_internal x)) eqn:E2; simpl in E; [|discriminate].
    apply eqb_prop in E2. apply IH in E as (I1 & I2 & I3 & I4 & I5 & I6).
    split; [intros y [<-|Hy]; auto|]. split; [auto|]. split; [|split; [|auto]].
    + intro t. rewrite I3, le_tmax. split.
      * intros [[H1 H2] H3]. split; auto. intros y [<-|Hy]; auto.
      * intros [H1 H2]. split; [split; [auto|apply H2; simpl; auto]|].
        intros y Hy. apply H2. simpl; auto.
    + intro t. rewrite I4, tmin_le. split.
      * intros [[H1 H2] H3]. split; auto. intros y [<-|Hy]; auto.
      * intros [H1 H2]. split; [split; [auto|apply H2; simpl; auto]|].
        intros y Hy. apply H2. simpl; auto.
Qed.

Lemma combined_loop_ok internal (l : list coef) : forall s e d m,
  (forall x, In x l -> is_internal x = internal) ->
  exists a, combined_loop internal l s e d m = Ok a.
Proof.
  induction l as [|x l IH]; intros s e d m H; simpl; [eauto|].
  rewrite (H x (or_introl eq_refl)), eqb_reflx. simpl. apply IH.
  intros y Hy. apply H. simpl; auto.
Qed.

Lemma combined_loop_err internal (l : list coef) : forall s e d m x,
  In x l -> is_internal x <> internal ->
  combined_loop internal l s e d m = Err ValueError.
Proof.
  induction l as [|y l IH]; intros s e d m x Hx Hd; simpl; [destruct Hx|].
  destruct (Bool.eqb internal (is_internal y)) eqn:E; simpl; auto.
  destruct Hx as [->|Hx]; [|eapply IH; eauto].
  apply eqb_prop in E. congruence.
Qed.

Lemma combined_attrs (items : list coef) c : mk_combined items = Ok c ->
  (forall t, le (vs c) t <-> forall x, In x items -> le (vs x) t) /\
  (forall t, le t (ve c) <-> forall x, In x items -> le t (ve x)) /\
  (forall x, In x items -> is_internal x = is_internal c) /\
  is_max (degree c) (map degree items) /\ is_min (min_degree c) (map min_degree items).
Proof.
  intros E. apply mk_combined_cases in E as [->|(a & first & rest & -> & -> & Hr & E)].
  - assert (G : forall Q : coef -> Prop, Q c <-> forall x, In x [c] -> Q x).
    { intro Q. split; [intros ? x [<-|[]]; auto|intros H; apply H; simpl; auto]. }
    split; [intro t; apply (G (fun x => le (vs x) t))|].
    split; [intro t; apply (G (fun x => le t (ve x)))|].
    split; [intros x [<-|[]]; auto|].
    split; (split; [simpl; auto|intros x [<-|[]]; auto]).
  - apply combined_loop_spec in E as (I1 & I2 & I3 & I4 & I5 & I6).
    cbn [validity is_internal degree min_degree].
    split; [|split; [|split; [|split]]].
    + intro t. rewrite I3. split.
      * intros [H1 H2] x [<-|Hx]; auto.
      * intro H. split; [|intros x Hx]; apply H; simpl; auto.
    + intro t. rewrite I4. split.
      * intros [H1 H2] x [<-|Hx]; auto.
      * intro H. split; [|intros x Hx]; apply H; simpl; auto.
    + intros x [<-|Hx]; rewrite I2; auto.
    + rewrite I5. destruct (fold_max_spec (map degree rest) (degree first)). split; auto.
    + rewrite I6. destruct (fold_min_spec (map min_degree rest) (min_degree first)). split; auto.
Qed.

Lemma combined_loop_end internal (l : list coef) : forall s e d m a,
  combined_loop internal l s e d m = Ok a ->
  le e (snd (a_validity a)) \/ exists x, In x l /\ le (ve x) (snd (a_validity a)).
Proof.
  induction l as [|x l IH]; intros s e d m a E; simpl in E.
  - injection E as <-. left. apply le_refl.
  - destruct (negb _); [discriminate|]. apply IH in E as [E|(y & Hy & E)].
    + destruct (tmin_cases e (ve x)) as [Eq|Eq]; rewrite Eq in E; auto.
      right. exists x. simpl; auto.
    + right. exists y. simpl; auto.
Qed.

Lemma combined_end (items : list coef) c : mk_combined items = Ok c ->
  exists x, In x items /\ le (ve x) (ve c).
Proof.
  intro E. apply mk_combined_cases in E as [->|(a & first & rest & -> & -> & Hr & E)].
  - exists c. split; [simpl; auto|apply le_refl].
  - apply combined_loop_end in E as [E|(x & Hx & E)].
    + exists first. simpl; auto.
    + exists x. simpl; auto.
Qed.

Lemma combined_mixed_rejected (items : list coef) x y :
  In x items -> In y items -> is_internal x <> is_internal y ->
  mk_combined items = Err ValueError.
Proof.
  intros Hx Hy Hd. unfold mk_combined. destruct items as [|first rest]; [destruct Hx|].
  assert (Hz : exists z, In z rest /\ is_internal z <> is_internal first).
  { destruct Hx as [<-|Hx], Hy as [<-|Hy].
    - congruence.
    - exists y. auto.
    - exists x. auto.
    - destruct (Bool.bool_dec (is_internal x) (is_internal first)); [exists y|exists x];
        split; auto; congruence. }
  destruct Hz as (z & Hz & Hzd).
  destruct rest as [|second rest]; [destruct Hz|].
  rewrite (combined_loop_err _ _ _ _ _ _ z Hz Hzd). destruct first; reflexivity.
Qed.

Lemma composed_mixed_rejected (items : list coef) x y :
  In x items -> In y items -> is_internal x <> is_internal y ->
  mk_composed items = Err ValueError.
Proof.
  intros Hx Hy Hd. unfold mk_composed. destruct items as [|first rest]; [destruct Hx|].
  destruct rest as [|second rest].
  { destruct Hx as [<-|[]], Hy as [<-|[]]. congruence. }
  rewrite composed_loop_err; [destruct first; reflexivity| |].
  - left. intro En.
    exact (sort_nil _ _ (in_eq _ _) En).
  - intros [_ H]. apply Hd. rewrite (H x), (H y); auto; apply sort_by_in; auto.
Qed.

Lemma combined_accepted (items : list coef) internal : items <> [] ->
  (forall x, In x items -> is_internal x = internal) ->
  (forall a i, items <> [Combined a i]) -> exists c, mk_combined items = Ok c.
Proof.
  intros Hne Hint Hself. destruct items as [|first rest]; [congruence|].
  destruct (combined_loop_ok (is_internal first) rest (vs first) (ve first) (degree first)
    (min_degree first)) as [a Ha].
  { intros x Hx. rewrite (Hint x) by (simpl; auto). symmetry. apply Hint. simpl; auto. }
  unfold mk_combined. destruct rest as [|second rest].
  - destruct first as [l|a' i'|a' i']; eauto. exfalso. eapply Hself; eauto.
  - rewrite Ha. destruct first; eauto.
Qed.

Lemma combined_perm (items items' : list coef) c : Permutation items items' ->
  mk_combined items = Ok c -> exists c', mk_combined items' = Ok c' /\
    degree c' = degree c /\ min_degree c' = min_degree c /\ is_internal c' = is_internal c /\
    (forall t, valid_at c' t <-> valid_at c t).
Proof.
  intros Hp E. pose proof (combined_attrs _ _ E) as (A1 & A2 & A3 & A4 & A5).
  destruct (combined_accepted items' (is_internal c)) as [c' E'].
  - intros ->. apply Permutation_sym, Permutation_nil in Hp. subst. discriminate.
  - intros x Hx. apply A3. eapply Permutation_in; [apply Permutation_sym|]; eauto.
  - intros a i ->. apply Permutation_sym, Permutation_length_1_inv in Hp. subst. discriminate.
  - exists c'. split; [exact E'|].
    pose proof (combined_attrs _ _ E') as (B1 & B2 & B3 & B4 & B5).
    split; [|split; [|split]].
    + eapply is_max_unique; [exact B4|]. eapply is_max_perm; [|exact A4].
      apply Permutation_map; auto.
    + eapply is_min_unique; [exact B5|]. eapply is_min_perm; [|exact A5].
      apply Permutation_map; auto.
    + destruct items as [|x items0]; [discriminate|].
      rewrite <- (A3 x (or_introl eq_refl)). symmetry. apply B3.
      eapply Permutation_in; [exact Hp|]. simpl; auto.
    + intro t. unfold valid_at. rewrite A1, A2, B1, B2.
      assert (Hi : forall x, In x items <-> In x items').
      { intro x. split; apply Permutation_in; auto using Permutation_sym. }
      split; intros [H1 H2]; split; intros x Hx; (apply H1 || apply H2); apply Hi; exact Hx.
Qed.

(** ** The acceptance of a composition does not depend on the order of the items *)

Definition keq (x y : coef) : Prop := validity_leb x y = true /\ validity_leb y x = true.

Lemma keq_refl x : keq x x.
Proof. unfold keq. destruct (validity_leb_total x x); auto. Qed.
Lemma keq_sym x y : keq x y -> keq y x.
Proof. unfold keq. tauto. Qed.
Lemma keq_leb x x' y y' : keq x x' -> keq y y' -> validity_leb x y = validity_leb x' y'.
Proof.
  intros [H1 H2] [H3 H4]. apply eq_true_iff_eq. split; intro H.
  - eapply validity_leb_trans; [exact H2|]. eapply validity_leb_trans; eauto.
  - eapply validity_leb_trans; [exact H1|]. eapply validity_leb_trans; eauto.
Qed.
Lemma keq_trans x y z : keq x y -> keq y z -> keq x z.
Proof.
  intros [H1 H2] [H3 H4]. split; eapply validity_leb_trans; eauto.
Qed.
Lemma keqs_trans l1 : forall l2 l3, Forall2 keq l1 l2 -> Forall2 keq l2 l3 -> Forall2 keq l1 l3.
Proof.
  induction l1; intros l2 l3 H1 H2; inversion H1; subst; inversion H2; subst; constructor.
  - eapply keq_trans; eauto.
  - eauto.
Qed.
Lemma keqs_refl l : Forall2 keq l l.
Proof. induction l; constructor; auto using keq_refl. Qed.

Lemma insert_keq l : forall l' x x', keq x x' -> Forall2 keq l l' ->
  Forall2 keq (insert_by validity_leb x l) (insert_by validity_leb x' l').
Proof.
  induction l as [|y l IH]; intros l' x x' Hx Hl; inversion Hl as [|? y' ? l0 Hy Hl']; subst; simpl.
  - constructor; auto.
  - rewrite (keq_leb _ _ _ _ Hx Hy). destruct (validity_leb x' y'); constructor; auto.
Qed.

Lemma insert_swap l : forall x y,
  Forall2 keq (insert_by validity_leb x (insert_by validity_leb y l))
              (insert_by validity_leb y (insert_by validity_leb x l)).
Proof.
  induction l as [|z l IH]; intros x y; simpl.
  - destruct (validity_leb x y) eqn:E1, (validity_leb y x) eqn:E2.
    + repeat constructor; auto.
    + apply keqs_refl.
    + apply keqs_refl.
    + destruct (validity_leb_total x y); congruence.
  - destruct (validity_leb y z) eqn:Eyz, (validity_leb x z) eqn:Exz; simpl.
    + destruct (validity_leb x y) eqn:E1, (validity_leb y x) eqn:E2; rewrite ?Eyz, ?Exz.
      * constructor; [split; auto|]. constructor; [split; auto|]. apply keqs_refl.
      * apply keqs_refl.
      * apply keqs_refl.
      * destruct (validity_leb_total x y); congruence.
    + rewrite Exz.
      destruct (validity_leb x y) eqn:E1.
      { rewrite (validity_leb_trans _ _ _ E1 Eyz) in Exz. discriminate. }
      rewrite Eyz. apply keqs_refl.
    + rewrite Exz, Eyz.
      destruct (validity_leb y x) eqn:E1.
      { rewrite (validity_leb_trans _ _ _ E1 Exz) in Eyz. discriminate. }
      apply keqs_refl.
    + rewrite Eyz, Exz. constructor; auto using keq_refl.
Qed.

Lemma sort_keq l l' : Permutation l l' ->
  Forall2 keq (sort_by validity_leb l) (sort_by validity_leb l').
Proof.
  induction 1 as [|x l l' _ IH|x y l|l l' l'' _ IH1 _ IH2]; simpl.
  - constructor.
  - apply insert_keq; auto using keq_refl.
  - apply insert_swap.
  - eapply keqs_trans; eauto.
Qed.

Lemma keq_bounds x y : keq x y -> teq (vs x) (vs y) /\ teq (ve x) (ve y).
Proof.
  unfold keq, teq. rewrite !validity_leb_spec.
  intros [[H1|[H1 H2]] [H3|[H3 H4]]]; try (exfalso; ord); auto.
Qed.

Lemma chained_keq l : forall l' last last', Forall2 keq l l' -> teq last last' ->
  chained last l -> chained last' l'.
Proof.
  induction l as [|x l IH]; intros l' last last' Hl Ht Hc; inversion Hl; subst; simpl in *; auto.
  destruct Hc as [Hc1 Hc2].
  match goal with H : keq x _ |- _ => apply keq_bounds in H as [K1 K2] end.
  destruct Ht, K1. split; [ord|]. eapply IH; eauto.
Qed.

Lemma composed_perm (items items' : list coef) c : Permutation items items' ->
  mk_composed items = Ok c -> exists c', mk_composed items' = Ok c' /\
    degree c' = degree c /\ min_degree c' = min_degree c /\ is_internal c' = is_internal c /\
    (forall t, valid_at c' t <-> valid_at c t).
Proof.
  intros Hp E. pose proof (composed_attrs _ _ E) as (A1 & A2 & A3 & A4 & A5).
  assert (Ex : exists c', mk_composed items' = Ok c').
  { pose proof E as E0.
    apply mk_composed_cases in E0 as [->|(a & first & rest & -> & Hi & Hr & E0)].
    - apply Permutation_length_1_inv in Hp. subst. eauto.
    - assert (Hok : exists a, composed_loop (is_internal first) (sort_by validity_leb items)
                 pinf pinf ninf None None = Ok a) by eauto.
      apply composed_loop_ok in Hok as [Hc Hint].
      2:{ left. intro En. pose proof (proj2 (sort_by_in validity_leb items first)) as Hf.
          rewrite En, Hi in Hf. simpl in Hf. apply Hf. auto. }
      destruct items' as [|f' [|s' r']].
      + apply Permutation_sym, Permutation_nil in Hp. subst. discriminate.
      + apply Permutation_sym, Permutation_length_1_inv in Hp. rewrite Hi in Hp. inversion Hp. subst. congruence.
      + assert (Hok' : exists a, composed_loop (is_internal f')
            (sort_by validity_leb (f' :: s' :: r')) pinf pinf ninf None None = Ok a).
        { apply composed_loop_ok.
          - left. intro En.
            exact (sort_nil _ _ (in_eq _ _) En).
          - split.
            + eapply chained_keq; [apply sort_keq; exact Hp| |exact Hc]. split; apply le_refl.
            + assert (Hall : forall x, In x (f' :: s' :: r') -> is_internal x = is_internal first).
              { intros x Hx. apply Hint. apply sort_by_in.
                eapply Permutation_in; [apply Permutation_sym; exact Hp|exact Hx]. }
              intros x Hx. apply sort_by_in in Hx. rewrite (Hall x Hx). symmetry.
              apply Hall. simpl; auto. }
        destruct Hok' as [a' Ha']. unfold mk_composed. rewrite Ha'. destruct f'; eauto. }
  destruct Ex as [c' E']. exists c'. split; [exact E'|].
  pose proof (composed_attrs _ _ E') as (B1 & B2 & B3 & B4 & B5).
  split; [|split; [|split]].
  + eapply is_max_unique; [exact B4|]. eapply is_max_perm; [|exact A4].
    apply Permutation_map; auto.
  + eapply is_min_unique; [exact B5|]. eapply is_min_perm; [|exact A5].
    apply Permutation_map; auto.
  + destruct items as [|x items0]; [discriminate|].
    rewrite <- (A3 x (or_introl eq_refl)). symmetry. apply B3.
    eapply Permutation_in; [exact Hp|]. simpl; auto.
  + intro t. unfold valid_at. rewrite A1, A2, B1, B2.
    assert (Hi : forall x, In x items <-> In x items').
    { intro x. split; apply Permutation_in; auto using Permutation_sym. }
    split; intros [(x & H1 & H2) (y & H3 & H4)]; split; [exists x|exists y|exists x|exists y];
      split; auto; apply Hi; auto.
Qed.

End Proofs.
