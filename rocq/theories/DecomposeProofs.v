(** Proofs about the decomposition of coefficient trees. *)

From Coq Require Import Bool List Arith Lia Permutation Sorting.Sorted.
From Verif Require Import Ord IntervalsModel IntervalsSpec IntervalsProofs AggregateProofs
  CoefModel CoefSpec CoefProofs ValidityProofs CoefMoreProofs DecomposeSpec.
Import ListNotations.

Section NonOverlapEnds.
Context {T : Type} {OT : TOrd T} {A : Type}.
Variable Q : T -> Prop.
Let QI (x : interval T A) : Prop := Q (istart x) /\ Q (iend x).

Lemma list_insert_in {B} idx (x y : B) l : In y (list_insert idx x l) -> y = x \/ In y l.
Proof.
  unfold list_insert. rewrite in_app_iff. simpl. intros [H|[H|H]]; auto.
  - right. rewrite <- (firstn_skipn idx l). apply in_app_iff. auto.
  - right. rewrite <- (firstn_skipn idx l). apply in_app_iff. auto.
Qed.

Lemma insert_loop_ends fuel : forall s e item (st st' : list (interval T A)),
  insert_loop fuel s e item st = Some st' -> Q s -> Q e ->
  (forall x, In x st -> QI x) -> forall x, In x st' -> QI x.
Proof.
  induction fuel as [|fuel IH]; intros s e item st st' E Hs He Hst x Hx.
  - cbn [insert_loop] in E. destruct (ltb s e); [discriminate|]. injection E as <-. auto.
  - cbn [insert_loop] in E. destruct (ltb s e); [|injection E as <-; auto].
    destruct (py_bisect_right (map iend st) s) as [idx|]; [|discriminate].
    assert (Ins : forall e', Q e' -> forall y, In y (list_insert idx ((s, e'), item) st) -> QI y).
    { intros e' He' y Hy. apply list_insert_in in Hy as [->|Hy]; [split; auto|auto]. }
    destruct (idx =? length st).
    + destruct (idx =? 0).
      * injection E as <-. exact (Ins _ He x Hx).
      * destruct (nth_error st (idx - 1)) as [last|]; [|discriminate].
        destruct (ltb (iend last) e); injection E as <-; [exact (Ins _ He x Hx)|auto].
    + destruct (nth_error st idx) as [cur|] eqn:Ec; [|discriminate].
      apply nth_error_In in Ec. destruct (Hst cur Ec) as [Q1 Q2].
      destruct (ltb s (istart cur)).
      * destruct (leb e (istart cur)).
        -- injection E as <-. exact (Ins _ He x Hx).
        -- cbv zeta in E.
           destruct (nth_error (list_insert idx (s, istart cur, item) st) (idx + 1))
             as [nxt|] eqn:En; [|discriminate].
           apply nth_error_In in En. pose proof (Ins _ Q1 nxt En) as [_ Qn].
           eapply (IH _ _ _ _ _ E Qn He); [|exact Hx]. apply Ins; auto.
      * eapply (IH _ _ _ _ _ E Q2 He); eauto.
Qed.

Lemma nonoverlapping_loop_ends : forall (l st st' : list (interval T A)),
  nonoverlapping_loop l st = Some st' -> (forall x, In x l -> QI x) ->
  (forall x, In x st -> QI x) -> forall x, In x st' -> QI x.
Proof.
  induction l as [|[[s e] item] l IH]; intros st st' E Hl Hst x Hx; cbn [nonoverlapping_loop] in E.
  - injection E as <-. auto.
  - assert (Hl' : forall y, In y l -> QI y) by (intros y Hy; apply Hl; simpl; auto).
    destruct (Hl ((s, e), item) (or_introl eq_refl)) as [Q1 Q2]. simpl in Q1, Q2.
    destruct (ltb e s); [eapply IH; eauto|].
    destruct (insert_loop _ s e item st) as [st1|] eqn:E1; [|discriminate].
    eapply (IH _ _ E Hl'); [|exact Hx].
    eapply insert_loop_ends; eauto.
Qed.

Lemma nonoverlapping_ends (l r : list (interval T A)) :
  get_nonoverlapping_intervals l = Some r -> (forall x, In x l -> QI x) ->
  forall x, In x r -> QI x.
Proof. intros E Hl. eapply nonoverlapping_loop_ends; eauto. intros x []. Qed.
End NonOverlapEnds.

Section NonOverlapWithin.
Context {T : Type} {OT : TOrd T} {A : Type}.

Lemma first_at_some t (l : list (interval T A)) o : first_at t l = Some o ->
  exists x, In x l /\ iobj x = o /\ le (istart x) t /\ lt t (iend x).
Proof.
  unfold first_at. destruct (find (at_time t) l) as [x|] eqn:E; [|discriminate].
  apply find_some in E as [E1 E2]. apply at_time_spec in E2 as [E2 E3].
  intro H. injection H as <-. eauto.
Qed.

Lemma first_at_ex t (l : list (interval T A)) x : In x l -> le (istart x) t -> lt t (iend x) ->
  exists o, first_at t l = Some o.
Proof.
  intros Hx H1 H2. unfold first_at. destruct (find (at_time t) l) eqn:E; [simpl; eauto|].
  pose proof (find_none _ _ E x Hx) as H. assert (at_time t x = true) by (apply at_time_spec; auto).
  congruence.
Qed.

Lemma first_at_inv t (l : list (interval T A)) x : inv l -> In x l ->
  le (istart x) t -> lt t (iend x) -> first_at t l = Some (iobj x).
Proof.
  intros I Hx H1 H2. pose proof (all_at_first_at t l I) as E.
  destruct (first_at_ex t l x Hx H1 H2) as [o Ho]. rewrite Ho in E |- *.
  assert (H : In (iobj x) (all_at t l)).
  { unfold all_at. apply in_map, filter_In. split; auto. apply at_time_spec; auto. }
  rewrite E in H. destruct H as [H|[]]. congruence.
Qed.

Lemma nonoverlapping_within (l r : list (interval T A)) (vs ve : T) :
  get_nonoverlapping_intervals l = Some r ->
  (forall x, In x l -> le vs (istart x) /\ le (iend x) ve) ->
  inv r /\ (forall t, first_at t r = first_at t l) /\
  (forall x, In x r -> le vs (istart x) /\ le (iend x) ve /\
     exists y, In y l /\ iobj y = iobj x).
Proof.
  intros E W. destruct (get_nonoverlapping_correct l) as (r' & E' & O & Pr & F).
  rewrite E in E'. injection E' as <-.
  assert (I : inv r) by (apply inv_iff; auto).
  split; [exact I|]. split; [exact F|]. intros x Hx.
  pose proof (Pr x Hx) as Px.
  assert (G : forall t, le (istart x) t -> lt t (iend x) ->
            exists y, In y l /\ iobj y = iobj x /\ le (istart y) t /\ lt t (iend y)).
  { intros t H1 H2. pose proof (first_at_inv t r x I Hx H1 H2) as H. rewrite F in H.
    apply first_at_some in H. exact H. }
  split; [|split].
  - destruct (G (istart x) (le_refl _) Px) as (y & Hy & _ & H1 & _). destruct (W y Hy). ord.
  - destruct (le_or_lt (iend x) ve) as [H|H]; auto. exfalso.
    destruct (G (tmax (istart x) ve)) as (y & Hy & _ & H1 & H2).
    + apply tmax_ge_l.
    + destruct (tmax_cases (istart x) ve) as [->| ->]; ord.
    + destruct (W y Hy). pose proof (tmax_ge_r (istart x) ve). ord.
  - destruct (G (istart x) (le_refl _) Px) as (y & Hy & Ho & _). eauto.
Qed.
End NonOverlapWithin.

Section Proofs.
Context {T : Type} {OT : TOrd T} {OI : TInf T} {V : Type} {MV : CMon V} {P : Type}.
Notation coef := (coeffs T V P).
Notation vs c := (fst (validity c)).
Notation ve c := (snd (validity c)).

(** ** Half-open coverage of composed sets *)

Lemma composed_loop_ho internal (all : list coef) (l : list coef) : forall last s e d m a,
  composed_loop internal l last s e d m = Ok a ->
  StronglySorted (fun x y => validity_leb x y = true) l ->
  (forall x, In x l -> In x all) ->
  (forall x, In x l -> le s (vs x)) ->
  le last e ->
  (forall t, le s t -> lt t e -> exists x, In x all /\ le (vs x) t /\ lt t (ve x)) ->
  (forall t, le (fst (a_validity a)) t -> lt t (snd (a_validity a)) ->
     exists x, In x all /\ le (vs x) t /\ lt t (ve x)).
Proof.
  induction l as [|x l IH]; intros last s e d m a E S Hin Hs Hl Hc t H1 H2; simpl in E.
  - destruct d, m; try discriminate. injection E as <-. simpl in *. auto.
  - destruct (validity x) as [xs xe] eqn:Ex. destruct (ltb last xs) eqn:E1; [discriminate|].
    destruct (negb _) eqn:E2; [discriminate|].
    inversion S as [|? ? S' F]; subst.
    pose proof (Hs x (or_introl eq_refl)) as Hsx. rewrite Ex in Hsx. simpl in Hsx.
    refine (IH _ _ _ _ _ _ E S' _ _ _ _ t H1 H2).
    + intros y Hy. apply Hin. simpl; auto.
    + intros y Hy. pose proof (tmin_le_l s xs). pose proof (Hs y (or_intror Hy)). ord.
    + apply tmax_ge_r.
    + intros u Hu1 Hu2. ord_bool.
      assert (Hsu : le s u).
      { unfold tmin in Hu1. destruct (ltb xs s) eqn:Eq; ord. }
      destruct (le_or_lt e u) as [Hue|Hue]; [|auto].
      exists x. split; [apply Hin; simpl; auto|]. rewrite Ex. simpl.
      split; [ord|]. unfold tmax in Hu2. destruct (ltb e xe) eqn:Eq; ord_bool; ord.
Qed.

Lemma composed_covered_ho (items : list coef) c t :
  mk_composed items = Ok c -> le (vs c) t -> lt t (ve c) ->
  exists x, In x items /\ le (vs x) t /\ lt t (ve x).
Proof.
  intros E Hv1 Hv2. apply mk_composed_cases in E as [->|(a & first & rest & -> & Hi & Hr & E)].
  - exists c. simpl; auto.
  - simpl in Hv1, Hv2.
    pose proof (sorted_items items) as S.
    assert (Hin : forall x, In x (sort_by validity_leb items) -> In x items)
      by (intros x; apply sort_by_in).
    destruct (sort_by validity_leb items) as [|x l] eqn:Es.
    { pose proof (proj2 (sort_by_in validity_leb items first)) as Hf. rewrite Es, Hi in Hf.
      simpl in Hf. exfalso. apply Hf. auto. }
    simpl in E. destruct (validity x) as [xs xe] eqn:Ex.
    destruct (ltb pinf xs); [discriminate|]. destruct (negb _); [discriminate|].
    inversion S as [|? ? S' F]; subst.
    refine (composed_loop_ho _ (first :: rest) l _ _ _ _ _ _ E S' _ _ _ _ t Hv1 Hv2).
    + intros y Hy. apply Hin. simpl; auto.
    + intros y Hy. rewrite Forall_forall in F. pose proof (validity_leb_start _ _ (F y Hy)) as Hxy.
      rewrite Ex in Hxy. simpl in Hxy. pose proof (tmin_le_r pinf xs). ord.
    + apply tmax_ge_r.
    + intros u H1 H2. exists x. split; [apply Hin; simpl; auto|]. rewrite Ex. simpl.
      pose proof (le_pinf xs). pose proof (ninf_le xe).
      pose proof (le_pinf u). pose proof (ninf_le u).
      split.
      * unfold tmin in H1. destruct (ltb xs pinf) eqn:Eq; ord.
      * unfold tmax in H2. destruct (ltb ninf xe) eqn:Eq; ord.
Qed.

(** ** Facts about a decomposition *)

Definition avoids {B} (t : T) (x : interval T B) : Prop :=
  ~ teq t (istart x) /\ ~ teq t (iend x).

Record facts (c : coef) (d : list (interval T coef)) : Prop := {
  f_dec : decompose c = Ok d;
  f_within : forall x, In x d -> le (vs c) (istart x) /\ le (istart x) (iend x) /\
    le (iend x) (ve c) /\ is_internal (iobj x) = is_internal c /\ wf (iobj x);
  f_cover : forall t, (exists o, first_at t d = Some o) <-> le (vs c) t /\ lt t (ve c);
  f_ends : forall t, inner_instant c t -> forall x, In x d -> avoids t x;
  f_call : forall t, inner_instant c t -> forall o p, first_at t d = Some o ->
    same_cells (fst (call_scalar p (Some t) o)) (fst (call_scalar p (Some t) c))
}.

Definition ho_valid (t : T) (c : coef) : bool := leb (vs c) t && ltb t (ve c).

Lemma ho_valid_spec t c : ho_valid t c = true <-> le (vs c) t /\ lt t (ve c).
Proof. unfold ho_valid. rewrite andb_true_iff, leb_le, ltb_lt. tauto. Qed.

Lemma is_valid_spec (c : coef) t : is_valid c (Some t) = true <-> le (vs c) t /\ le t (ve c).
Proof. unfold is_valid. simpl. rewrite andb_true_iff, !leb_le. tauto. Qed.

Lemma same_cells_trans (r1 r2 r3 : list V) : same_cells r1 r2 -> same_cells r2 r3 -> same_cells r1 r3.
Proof. unfold same_cells. intros H1 H2 k. rewrite H1. apply H2. Qed.

Lemma nodes_self (c : coef) : In c (nodes c).
Proof. destruct c; simpl; auto. Qed.

Lemma time_ordered_cons (x : coef) l : time_ordered (x :: l) ->
  (forall y, In y l -> le (ve x) (vs y)) /\ time_ordered l.
Proof.
  intro H. split.
  - intros y Hy. apply In_nth_error in Hy as [n Hn]. apply (H 0 (S n)); auto. lia.
  - intros i j a b Hij Ha Hb. apply (H (S i) (S j)); auto. lia.
Qed.

(** ** Composed sets *)

Definition dec_item (item : coef) : result (list (interval T coef)) :=
  bind (decompose item) (fun d => of_option (get_nonoverlapping_intervals d)).

Lemma composed_list (its : list coef) : (forall x, In x its -> exists d, facts x d) ->
  exists ds, map_result dec_item its = Ok ds /\
  (forall r, In r (concat ds) -> exists it, In it its /\ le (vs it) (istart r) /\
     lt (istart r) (iend r) /\ le (iend r) (ve it) /\
     is_internal (iobj r) = is_internal it /\ wf (iobj r)) /\
  (forall t, match find (ho_valid t) its with
             | None => first_at t (concat ds) = None
             | Some it => exists o, first_at t (concat ds) = Some o /\
                 (inner_instant it t -> forall p,
                    same_cells (fst (call_scalar p (Some t) o)) (fst (call_scalar p (Some t) it)))
             end) /\
  (forall t, (forall x, In x its -> inner_instant x t) ->
     forall r, In r (concat ds) -> avoids t r) /\
  (time_ordered its -> inv (concat ds)).
Proof.
  induction its as [|it its IH]; intro H.
  - exists []. simpl. split; [reflexivity|].
    split; [intros r []|]. split; [auto|]. split; [intros t _ r []|]. intros _. apply inv_nil.
  - destruct IH as (ds & E & W & F & Q & O); [intros x Hx; apply H; simpl; auto|].
    destruct (H it (or_introl eq_refl)) as (d & [D1 D2 D3 D4 D5]).
    destruct (get_nonoverlapping_correct d) as (r & Er & _).
    destruct (nonoverlapping_within d r (vs it) (ve it) Er) as (I & Fr & Wr).
    { intros x Hx. destruct (D2 x Hx) as (? & ? & ? & _). auto. }
    exists (r :: ds). split; [|split; [|split; [|split]]].
    + change (map_result dec_item (it :: its)) with
        (bind (dec_item it) (fun y => bind (map_result dec_item its) (fun r => Ok (y :: r)))).
      rewrite E. unfold dec_item. rewrite D1. simpl. rewrite Er. reflexivity.
    + intros x Hx. simpl in Hx. apply in_app_iff in Hx as [Hx|Hx].
      * exists it. destruct (Wr x Hx) as (W1 & W2 & y & Hy & Eo).
        destruct (D2 y Hy) as (_ & _ & _ & Hi & Hw). rewrite Eo in Hi, Hw.
        apply inv_iff in I as [_ Pr]. pose proof (Pr x Hx). split; [simpl; auto|].
        repeat split; auto.
      * destruct (W x Hx) as (it' & Hit & R). exists it'. split; [simpl; auto|exact R].
    + intro t. simpl concat. rewrite first_at_app, Fr.
      specialize (F t). simpl find. destruct (ho_valid t it) eqn:Hv.
      * apply ho_valid_spec in Hv. apply D3 in Hv as [o Ho]. exists o. rewrite Ho.
        split; [reflexivity|]. intros Hin p. apply (D5 t Hin o p Ho).
      * assert (first_at t d = None) as ->; [|exact F].
        destruct (first_at t d) eqn:Hd; auto.
        assert (ho_valid t it = true) by (apply ho_valid_spec, D3; eauto). congruence.
    + intros t Ht x Hx. simpl in Hx. apply in_app_iff in Hx as [Hx|Hx].
      * refine (nonoverlapping_ends (fun u => ~ teq t u) d r Er _ x Hx).
        intros y Hy. apply (D4 t); [apply Ht; simpl; auto|exact Hy].
      * apply (Q t); [|exact Hx]. intros y Hy. apply Ht. simpl; auto.
    + intro To. apply time_ordered_cons in To as [To1 To2]. simpl. apply inv_app.
      split; [exact I|]. split; [auto|]. intros x y Hx Hy.
      destruct (Wr x Hx) as (_ & W2 & _). destruct (W y Hy) as (it' & Hit & W3 & _).
      pose proof (To1 it' Hit). unfold before. ord.
Qed.

Lemma inner_composed a (items : list coef) (x : coef) t : In x items ->
  inner_instant (Composed a items) t -> inner_instant x t.
Proof. intros Hx H n Hn. apply H. simpl. right. apply in_flat_map. eauto. Qed.
Lemma inner_combined a (items : list coef) (x : coef) t : In x items ->
  inner_instant (Combined a items) t -> inner_instant x t.
Proof. intros Hx H n Hn. apply H. simpl. right. apply in_flat_map. eauto. Qed.

Lemma facts_composed a (items : list coef) : mk_composed items = Ok (Composed a items) ->
  (forall x, In x items -> exists d, facts x d) -> (forall x, In x items -> wf x) ->
  exists d, facts (Composed a items) d /\ (time_ordered items -> inv d).
Proof.
  intros E H Hwf. destruct (composed_list items H) as (ds & Ed & W & F & Q & O).
  pose proof (composed_attrs _ _ E) as (A1 & A2 & A3 & _).
  assert (Hne : items <> []) by (intros ->; discriminate).
  exists (concat ds). split; [|exact O]. constructor.
  - change (decompose (Composed a items)) with
      (bind (map_result dec_item items) (fun ds => Ok (concat ds))).
    rewrite Ed. reflexivity.
  - intros x Hx. destruct (W x Hx) as (it & Hit & W1 & W2 & W3 & W4 & W5).
    split; [apply A1; eauto|]. split; [ord|]. split; [apply A2; eauto|].
    split; [rewrite W4; apply A3; auto|exact W5].
  - intro t. specialize (F t). split.
    + intros [o Ho]. destruct (find (ho_valid t) items) as [it|] eqn:Ef; [|congruence].
      apply find_some in Ef as [Hit Hv]. apply ho_valid_spec in Hv as [Hv1 Hv2].
      split; [apply A1; eauto|].
      assert (le (ve it) (ve (Composed a items))).
      { apply (A2 (ve it)). exists it. split; [auto|apply le_refl]. }
      ord.
    + intros [Hv1 Hv2].
      destruct (composed_covered_ho items _ t E Hv1 Hv2) as (it & Hit & Hv3 & Hv4).
      destruct (find (ho_valid t) items) as [it'|] eqn:Ef.
      * destruct F as (o & Ho & _). eauto.
      * pose proof (find_none _ _ Ef it Hit) as Hf.
        assert (ho_valid t it = true) by (apply ho_valid_spec; auto). congruence.
  - intros t Ht x Hx. apply (Q t); [|exact Hx]. intros y Hy.
    exact (inner_composed _ _ y t Hy Ht).
  - intros t Ht o p Ho. specialize (F t).
    destruct (find (ho_valid t) items) as [it|] eqn:Ef; [|congruence].
    destruct F as (o' & Ho' & Hs). rewrite Ho in Ho'. injection Ho' as <-.
    destruct items as [|first rest]; [congruence|].
    rewrite call_scalar_composed.
    assert (Heq : find (fun c => is_valid c (Some t)) (first :: rest)
                  = find (ho_valid t) (first :: rest)).
    { clear -Ht. assert (G : forall l : list coef, incl l (first :: rest) ->
        find (fun c => is_valid c (Some t)) l = find (ho_valid t) l).
      { induction l as [|x l IH]; intro Hl; simpl; auto.
        assert (is_valid x (Some t) = ho_valid t x) as ->.
        { assert (Hx : inner_instant x t).
          { exact (inner_composed _ _ x t (Hl x (or_introl eq_refl)) Ht). }
          destruct (Hx x (nodes_self x)) as [_ Hx2].
          apply eq_true_iff_eq. rewrite is_valid_spec, ho_valid_spec. split.
          - intros [H1 H2]. split; auto. destruct (le_or_lt (ve x) t); [|auto]. tauto.
          - intros [H1 H2]. split; [auto|ord]. }
        destruct (ho_valid t x); auto. apply IH. intros y Hy. apply Hl. simpl; auto. }
      apply G. apply incl_refl. }
    rewrite Heq, Ef. apply Hs.
    apply find_some in Ef as [Hit _]. exact (inner_composed _ _ it t Hit Ht).
Qed.

(** ** Combined sets *)

Fixpoint collect (t : T) (ds : list (list (interval T coef))) : option (list coef) :=
  match ds with
  | [] => Some []
  | d :: ds' => match first_at t d, collect t ds' with
                | Some o, Some os => Some (o :: os)
                | _, _ => None
                end
  end.

Lemma first_at_hd {B} t (l : list (interval T B)) : first_at t l = hd_error (all_at t l).
Proof.
  unfold first_at, all_at. induction l as [|x l IH]; simpl; auto.
  destruct (at_time t x); simpl; auto.
Qed.

Lemma aggregate_first_at (aggs : list (interval T (list coef))) ints : winv aggs -> winv ints ->
  forall t, first_at t (aggregate_loop aggs ints) =
    match first_at t aggs, first_at t ints with
    | Some l, Some x => Some (l ++ [x])
    | _, _ => None
    end.
Proof.
  intros W1 W2 t. rewrite first_at_hd, aggregate_at by auto.
  destruct (first_at t aggs), (first_at t ints); reflexivity.
Qed.

Definition end_or (t : T) {B} (x : interval T B) : Prop :=
  (~ teq t (istart x) \/ istart x = ninf) /\ (~ teq t (iend x) \/ iend x = pinf).

Lemma aggregate_all_facts : forall (ds : list (list (interval T coef))) aggs,
  winv aggs -> (forall d, In d ds -> winv d) ->
  exists R, aggregate_all ds (Some aggs) = Some R /\ winv R /\
  (forall t, first_at t R = match first_at t aggs, collect t ds with
                            | Some l, Some xs => Some (l ++ xs)
                            | _, _ => None
                            end) /\
  (forall r, In r R -> exists agg os, In agg aggs /\
      le (istart agg) (istart r) /\ le (iend r) (iend agg) /\
      iobj r = iobj agg ++ os /\
      Forall2 (fun o d => exists x, In x d /\ iobj x = o /\
                 le (istart x) (istart r) /\ le (iend r) (iend x)) os ds) /\
  (forall t, (forall d x, In d ds -> In x d -> avoids t x) ->
     (forall x, In x aggs -> end_or t x) ->
     forall r, In r R -> (ds <> [] -> avoids t r) /\ end_or t r).
Proof.
  induction ds as [|d ds IH]; intros aggs Wa Wd.
  - exists aggs. split; [reflexivity|]. split; [auto|]. split; [|split].
    + intro t. simpl. destruct (first_at t aggs); rewrite ?app_nil_r; auto.
    + intros r Hr. exists r, []. rewrite app_nil_r. repeat split; auto; try apply le_refl.
    + intros t _ Ha r Hr. split; [congruence|auto].
  - assert (Wd1 : winv d) by (apply Wd; simpl; auto).
    assert (Wn : winv (aggregate_loop aggs d)) by (apply aggregate_winv; auto).
    destruct (IH (aggregate_loop aggs d) Wn) as (R & E & WR & F & S & Q).
    { intros d' Hd. apply Wd. simpl; auto. }
    exists R. split; [exact E|]. split; [auto|]. split; [|split].
    + intro t. rewrite F, aggregate_first_at by auto. simpl.
      destruct (first_at t aggs) as [l|]; auto.
      destruct (first_at t d) as [o|]; auto.
      destruct (collect t ds) as [os|]; auto. rewrite <- app_assoc. reflexivity.
    + intros r Hr. destruct (S r Hr) as (ag & os & Hag & S1 & S2 & S3 & S4).
      destruct (aggregate_sound aggs d ag Hag) as (agg & int & H1 & H2 & H3 & _ & _ & H6 & H7).
      exists agg, (iobj int :: os).
      pose proof (tmax_ge_l (istart agg) (istart int)).
      pose proof (tmax_ge_r (istart agg) (istart int)).
      pose proof (tmin_le_l (iend agg) (iend int)).
      pose proof (tmin_le_r (iend agg) (iend int)).
      rewrite H6 in S1. rewrite H7 in S2.
      split; [auto|]. split; [ord|]. split; [ord|].
      split; [rewrite S3, H3, <- app_assoc; reflexivity|].
      constructor; [|exact S4]. exists int. repeat split; auto; ord.
    + intros t Hd Ha r Hr.
      assert (Hn : forall x, In x (aggregate_loop aggs d) -> avoids t x).
      { intros x Hx.
        destruct (aggregate_sound aggs d x Hx) as (agg & int & H1 & H2 & _ & _ & _ & H6 & H7).
        destruct (Hd d int (or_introl eq_refl) H2) as [Hi1 Hi2].
        destruct (Ha agg H1) as [Ha1 Ha2]. unfold avoids. rewrite H6, H7. unfold tmax, tmin.
        split.
        - destruct (ltb (istart agg) (istart int)) eqn:El; auto.
          destruct Ha1 as [Ha1|Ha1]; auto. intros [U1 U2]. apply Hi1.
          rewrite Ha1 in *. pose proof (ninf_le (istart int)). split; ord.
        - destruct (ltb (iend int) (iend agg)) eqn:El; auto.
          destruct Ha2 as [Ha2|Ha2]; auto. intros [U1 U2]. apply Hi2.
          rewrite Ha2 in *. pose proof (le_pinf (iend int)). split; ord. }
      assert (Hn' : forall x, In x (aggregate_loop aggs d) -> end_or t x).
      { intros x Hx. destruct (Hn x Hx). split; auto. }
      assert (Hd' : forall d' x, In d' ds -> In x d' -> avoids t x).
      { intros d' x Hd1 Hx. apply (Hd d'); simpl; auto. }
      destruct (Q t Hd' Hn' r Hr) as [Q1 Q2]. split; [|exact Q2]. intros _.
      destruct ds as [|d2 ds2]; [|apply Q1; discriminate].
      simpl in E. injection E as <-. auto.
Qed.

Lemma map_result_ok {A B} (f : A -> result B) (l : list A) :
  (forall x, In x l -> exists y, f x = Ok y) ->
  exists r, map_result f l = Ok r /\ Forall2 (fun x y => f x = Ok y) l r.
Proof.
  induction l as [|x l IH]; intro H.
  - exists []. split; [reflexivity|constructor].
  - destruct IH as (r & E & F); [intros; apply H; simpl; auto|].
    destruct (H x (or_introl eq_refl)) as [y Hy].
    exists (y :: r). split; [|constructor; auto].
    change (map_result f (x :: l)) with
      (bind (f x) (fun y => bind (map_result f l) (fun r => Ok (y :: r)))).
    rewrite Hy, E. reflexivity.
Qed.

Lemma Forall2_length {A B} {R : A -> B -> Prop} {l l'} : Forall2 R l l' -> length l = length l'.
Proof. induction 1; simpl; auto. Qed.
Lemma Forall2_in_l {A B} (R : A -> B -> Prop) l l' x : Forall2 R l l' -> In x l ->
  exists y, In y l' /\ R x y.
Proof.
  induction 1 as [|a b l l' Hab _ IH]; [intros []|].
  intros [<-|Hx]; [exists b; simpl; auto|]. destruct (IH Hx) as (y & ? & ?). exists y; simpl; auto.
Qed.
Lemma Forall2_in_r {A B} (R : A -> B -> Prop) l l' y : Forall2 R l l' -> In y l' ->
  exists x, In x l /\ R x y.
Proof.
  induction 1 as [|a b l l' Hab _ IH]; [intros []|].
  intros [<-|Hx]; [exists a; simpl; auto|]. destruct (IH Hx) as (x & ? & ?). exists x; simpl; auto.
Qed.

Lemma collect_some t (ds : list (list (interval T coef))) os : collect t ds = Some os ->
  Forall2 (fun o d => first_at t d = Some o) os ds.
Proof.
  revert os. induction ds as [|d ds IH]; intros os E; simpl in E.
  - injection E as <-. constructor.
  - destruct (first_at t d) eqn:E1; [|discriminate].
    destruct (collect t ds) eqn:E2; [|discriminate]. injection E as <-. constructor; auto.
Qed.

Lemma combined_ok_len (os : list coef) internal : 2 <= length os ->
  (forall o, In o os -> is_internal o = internal) -> exists a, mk_combined os = Ok (Combined a os).
Proof.
  intros Hl Hi. destruct (combined_accepted os internal) as [c Hc]; auto.
  - intros ->. simpl in Hl. lia.
  - intros a i ->. simpl in Hl. lia.
  - pose proof Hc as Hc'. apply mk_combined_cases in Hc' as [->|(a & f & r & -> & -> & _)].
    + simpl in Hl. lia.
    + eauto.
Qed.

Lemma combined_not_self (c : coef) : forall a l, c = Combined a l -> ~ In c l.
Proof.
  induction c as [l|a0 i IH|a0 i IH] using coeffs_ind'; intros a l' Ec Hc; try discriminate.
  injection Ec as _ <-. exact (IH (Combined a0 i) Hc a0 i eq_refl Hc).
Qed.

Lemma facts_combined a (items : list coef) : mk_combined items = Ok (Combined a items) ->
  (forall x, In x items -> exists d, facts x d /\ winv d) -> (forall x, In x items -> wf x) ->
  exists d, facts (Combined a items) d /\ winv d.
Proof.
  intros E H Hwf.
  assert (Hlen : 2 <= length items).
  { apply mk_combined_cases in E as [E|(a' & f & r & _ & -> & Hr & _)].
    - exfalso. apply (combined_not_self (Combined a items) a items); auto.
      rewrite E at 2. simpl. auto.
    - destruct r; [congruence|simpl; lia]. }
  pose proof (combined_attrs _ _ E) as (A1 & A2 & A3 & _).
  assert (Hds : exists ds, map_result decompose items = Ok ds /\
            Forall2 (fun x d => facts x d /\ winv d) items ds).
  { clear -H. induction items as [|x items IH].
    - exists []. split; [reflexivity|constructor].
    - destruct IH as (ds & E & F); [intros; apply H; simpl; auto|].
      destruct (H x (or_introl eq_refl)) as (d & Hd & Wd). exists (d :: ds).
      split; [|constructor; auto].
      change (map_result decompose (x :: items)) with
        (bind (decompose x) (fun y => bind (map_result decompose items) (fun r => Ok (y :: r)))).
      rewrite (f_dec _ _ Hd), E. reflexivity. }
  destruct Hds as (ds & Eds & Fds).
  destruct (aggregate_all_facts ds [((ninf, pinf), [])] winv_default) as (R & ER & WR & FR & SR & QR).
  { intros d Hd. destruct (Forall2_in_r _ _ _ _ Fds Hd) as (x & _ & _ & ?). auto. }
  assert (Hne : ds <> []).
  { intros ->. inversion Fds; subst. simpl in Hlen. lia. }
  assert (EN : aggregate_all ds None = Some R).
  { destruct ds as [|d ds]; [congruence|]. exact ER. }
  assert (Hobj : forall r, In r R -> Forall2 (fun o x =>
             is_internal o = is_internal x /\ wf o /\
             le (vs x) (istart r) /\ le (iend r) (ve x)) (iobj r) items).
  { intros r Hr. destruct (SR r Hr) as (agg & os & Hag & _ & _ & Eo & Fo).
    destruct Hag as [<-|[]]. simpl in Eo. rewrite Eo. clear -Fo Fds.
    revert items Fds. induction Fo as [|o d os ds (x & Hx & Ho & H1 & H2) _ IH]; intros items Fds;
      inversion Fds as [|it ? its ? [Hf Hw] Fds']; subst; constructor; auto.
    destruct (f_within _ _ Hf x Hx) as (W1 & W2 & W3 & W4 & W5).
    repeat split; auto; ord. }
  destruct (map_result_ok combine_aggregate R) as (D & ED & FD).
  { intros r Hr. specialize (Hobj r Hr).
    destruct (combined_ok_len (iobj r) (is_internal (Combined a items))) as [a' Ha'].
    - rewrite (Forall2_length Hobj). exact Hlen.
    - intros o Ho. destruct (Forall2_in_l _ _ _ _ Hobj Ho) as (x & Hx & Hi & _).
      rewrite Hi. apply A3; auto.
    - unfold combine_aggregate. rewrite Ha'. simpl. eauto. }
  assert (HD : Forall2 (fun (r : interval T (list coef)) (x : interval T coef) =>
             istart x = istart r /\ iend x = iend r /\ mk_combined (iobj r) = Ok (iobj x)) R D).
  { clear -FD. induction FD as [|r x R D Hrx _ IH]; constructor; auto.
    unfold combine_aggregate in Hrx. destruct (mk_combined (iobj r)) eqn:Em; [|discriminate].
    simpl in Hrx. injection Hrx as <-. auto. }
  assert (HDf : forall t, match first_at t R with
                          | None => first_at t D = None
                          | Some os => exists o, first_at t D = Some o /\ mk_combined os = Ok o
                          end).
  { intro t. clear -HD. induction HD as [|r x R D (H1 & H2 & H3) _ IH]; [reflexivity|].
    rewrite !first_at_cons. unfold at_time in *. rewrite H1, H2.
    destruct (leb (istart r) t && ltb t (iend r)); eauto. }
  assert (Hcov : forall t os, collect t ds = Some os -> lt t pinf).
  { intros t os Hc. destruct ds as [|d ds']; [congruence|]. simpl in Hc.
    destruct (first_at t d) as [o|] eqn:Eo; [|discriminate].
    apply first_at_some in Eo as (x & _ & _ & _ & Hx). pose proof (le_pinf (iend x)). ord. }
  exists D. split; [constructor|].
  - change (decompose (Combined a items)) with
      (bind (map_result decompose items)
           (fun ds => match aggregate_all ds None with
                      | None => Err ValueError
                      | Some aggs => map_result combine_aggregate aggs
                      end)).
    rewrite Eds. simpl. rewrite EN. exact ED.
  - intros x Hx. destruct (Forall2_in_r _ _ _ _ HD Hx) as (r & Hr & H1 & H2 & H3).
    specialize (Hobj r Hr). rewrite H1, H2.
    assert (Hit : forall it, In it items -> le (vs it) (istart r) /\ le (iend r) (ve it)).
    { intros it Hit. destruct (Forall2_in_r _ _ _ _ Hobj Hit) as (o & _ & _ & _ & ?). auto. }
    split; [apply A1; intros; apply Hit; auto|].
    split; [apply winv_iff in WR as [_ WR]; apply WR; auto|].
    split; [apply A2; intros; apply Hit; auto|].
    pose proof H3 as H3'.
    apply mk_combined_cases in H3' as [E1|(a' & f & rr & E1 & E2 & E3 & _)].
    { exfalso. pose proof (Forall2_length Hobj) as HL. rewrite E1 in HL. simpl in HL. lia. }
    pose proof (combined_attrs _ _ H3) as (_ & _ & B3 & _). split.
    + assert (Hf : In f (iobj r)) by (rewrite E2; simpl; auto).
      rewrite <- (B3 f Hf).
      destruct (Forall2_in_l _ _ _ _ Hobj Hf) as (it & Hit' & Hi & _). rewrite Hi. apply A3; auto.
    + rewrite E1. constructor; [rewrite E2; discriminate|].
      intros o Ho. destruct (Forall2_in_l _ _ _ _ Hobj Ho) as (it & _ & _ & ? & _). auto.
  - intro t. specialize (HDf t). specialize (FR t). split.
    + intros [o Ho]. destruct (first_at t R) as [os|] eqn:EfR; [|congruence].
      destruct (first_at t [((ninf, pinf), [])]); [|discriminate].
      destruct (collect t ds) as [xs|] eqn:Ec; [|discriminate].
      apply collect_some in Ec.
      assert (Hall : forall it, In it items -> le (vs it) t /\ lt t (ve it)).
      { intros it Hit. destruct (Forall2_in_l _ _ _ _ Fds Hit) as (d & Hd & Hf & _).
        destruct (Forall2_in_r _ _ _ _ Ec Hd) as (o' & _ & Ho').
        apply (f_cover _ _ Hf). eauto. }
      split; [apply A1; intros; apply Hall; auto|].
      destruct (le_or_lt (ve (Combined a items)) t) as [Hle|]; [|auto]. exfalso.
      destruct (combined_end items _ E) as (it & Hit & Hend).
      destruct (Hall it Hit). ord.
    + intros [H1 H2].
      assert (Hc : exists xs, collect t ds = Some xs).
      { assert (G : forall it, In it items -> le (vs it) t /\ lt t (ve it)).
        { intros it Hit. split; [apply (proj1 (A1 t) H1); auto|].
          pose proof (proj1 (A2 (ve (Combined a items))) (le_refl _) it Hit). ord. }
        clear -Fds G. induction Fds as [|it d its ds [Hf _] _ IH]; simpl; [eauto|].
        destruct IH as [xs ->]; [intros; apply G; simpl; auto|].
        destruct (proj2 (f_cover _ _ Hf t) (G it (or_introl eq_refl))) as [o ->]. eauto. }
      destruct Hc as [xs Hc]. pose proof (Hcov t xs Hc) as Hp.
      rewrite first_at_default in FR by exact Hp. rewrite Hc in FR. rewrite FR in HDf.
      destruct HDf as (o & Ho & _). eauto.
  - intros t Ht x Hx. destruct (Forall2_in_r _ _ _ _ HD Hx) as (r & Hr & H1 & H2 & _).
    destruct (QR t) with (r := r) as [Q1 _]; auto.
    + intros d y Hd Hy. destruct (Forall2_in_r _ _ _ _ Fds Hd) as (it & Hit & Hf & _).
      apply (f_ends _ _ Hf t); [|exact Hy]. exact (inner_combined _ _ it t Hit Ht).
    + intros y [<-|[]]. split; right; reflexivity.
    + destruct (Q1 Hne). split; congruence.
  - intros t Ht o p Ho. specialize (HDf t). specialize (FR t).
    destruct (first_at t R) as [os|] eqn:EfR; [|congruence].
    destruct HDf as (o' & Ho' & Hm). rewrite Ho in Ho'. injection Ho' as <-.
    destruct (first_at t [((ninf, pinf), @nil coef)]) as [l0|] eqn:El0; [|discriminate].
    destruct (collect t ds) as [xs|] eqn:Ec; [|discriminate].
    rewrite first_at_default in El0 by (eapply Hcov; eauto). injection El0 as <-.
    simpl in FR. injection FR as ->. apply collect_some in Ec.
    assert (Hpair : Forall2 (fun o x => wf o /\ same_cells (fst (call_scalar p (Some t) o))
                      (fst (call_scalar p (Some t) x))) xs items).
    { assert (G : forall x, In x items -> inner_instant x t)
        by (intros x Hx; exact (inner_combined _ _ x t Hx Ht)).
      clear -Fds Ec G. revert xs Ec.
      induction Fds as [|it d its ds [Hf _] _ IH]; intros xs Ec; inversion Ec; subst; constructor.
      - split.
        + apply first_at_some in H2 as (y & Hy & <- & _). apply (f_within _ _ Hf y Hy).
        + apply (f_call _ _ Hf t); auto. apply G. simpl; auto.
      - apply IH; auto. intros u Hu. apply G. simpl; auto. }
    pose proof Hm as Hm'.
    apply mk_combined_cases in Hm' as [E1|(a' & f & rr & E1 & E2 & E3 & _)].
    { exfalso. pose proof (Forall2_length Hpair) as HL. rewrite E1 in HL. simpl in HL. lia. }
    rewrite E1. intro k.
    rewrite combined_scalar_sum.
    2:{ intros x Hx. destruct (Forall2_in_l _ _ _ _ Hpair Hx) as (y & _ & Hwx & _). exact Hwx. }
    rewrite combined_scalar_sum by exact Hwf.
    f_equal. clear -Hpair. induction Hpair as [|o1 x1 xs its [_ Hs] _ IH]; simpl; auto.
    rewrite (Hs k), IH. reflexivity.
  - clear -WR HD. revert WR. induction HD as [|r x R D (H1 & H2 & _) HD IH]; intro W; [apply winv_nil|].
    apply winv_cons in W as (W1 & W2 & W3). apply winv_cons. rewrite H1, H2.
    split; [auto|]. split; [auto|]. intros y Hy.
    destruct (Forall2_in_r _ _ _ _ HD Hy) as (r' & Hr' & H1' & H2' & _).
    pose proof (W3 r' Hr'). unfold before in *. rewrite H1', H2. auto.
Qed.

End Proofs.
