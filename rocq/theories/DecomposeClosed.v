(** The decomposition of flat coefficient trees at all times, the ends of the validity
    ranges included; final theorems about decompositions. *)

From Coq Require Import Bool List Arith Lia Permutation Sorting.Sorted.
From Verif Require Import Ord IntervalsModel IntervalsSpec IntervalsProofs AggregateProofs
  CoefModel CoefSpec CoefProofs ValidityProofs CoefMoreProofs DecomposeSpec DecomposeProofs.
Import ListNotations.

Section Proofs.
Context {T : Type} {OT : TOrd T} {OI : TInf T} {V : Type} {MV : CMon V} {P : Type}.
Notation coef := (coeffs T V P).
Notation vs c := (fst (validity c)).
Notation ve c := (snd (validity c)).

Lemma closed_at_spec {B} t (x : interval T B) : closed_at t x = true <-> le (istart x) t /\ le t (iend x).
Proof. unfold closed_at. rewrite andb_true_iff, !leb_le. tauto. Qed.

Lemma first_closed_cons {B} t (x : interval T B) l :
  first_closed_at t (x :: l) = if closed_at t x then Some (iobj x) else first_closed_at t l.
Proof. unfold first_closed_at. simpl. destruct (closed_at t x); auto. Qed.

Lemma first_closed_app {B} t (l1 l2 : list (interval T B)) :
  first_closed_at t (l1 ++ l2) =
  match first_closed_at t l1 with Some x => Some x | None => first_closed_at t l2 end.
Proof.
  induction l1 as [|x l1 IH]; simpl; auto. rewrite !first_closed_cons.
  destruct (closed_at t x); auto.
Qed.

Lemma first_closed_some {B} t (l : list (interval T B)) o : first_closed_at t l = Some o ->
  exists x, In x l /\ iobj x = o /\ le (istart x) t /\ le t (iend x).
Proof.
  unfold first_closed_at. destruct (find (closed_at t) l) as [x|] eqn:E; [|discriminate].
  apply find_some in E as [E1 E2]. apply closed_at_spec in E2 as [E2 E3].
  intro H. injection H as <-. eauto.
Qed.

Lemma first_closed_ex {B} t (l : list (interval T B)) x : In x l -> le (istart x) t ->
  le t (iend x) -> exists o, first_closed_at t l = Some o.
Proof.
  intros Hx H1 H2. unfold first_closed_at. destruct (find (closed_at t) l) eqn:E; [simpl; eauto|].
  pose proof (find_none _ _ E x Hx) as H.
  assert (closed_at t x = true) by (apply closed_at_spec; auto). congruence.
Qed.

Lemma first_closed_none_lt {B} t (l : list (interval T B)) :
  (forall x, In x l -> lt t (istart x)) -> first_closed_at t l = None.
Proof.
  intro H. destruct (first_closed_at t l) eqn:E; auto.
  apply first_closed_some in E as (x & Hx & _ & H1 & _). pose proof (H x Hx). ord.
Qed.

Lemma first_closed_default t : first_closed_at t [((ninf, pinf), @nil coef)] = Some [].
Proof.
  rewrite first_closed_cons. unfold closed_at, istart, iend. simpl.
  rewrite ninf_least, pinf_greatest. reflexivity.
Qed.

(** The first closed match of an aggregation is the combination of the first matches. *)
Lemma aggregate_first_closed {A} (aggs : list (interval T (list A))) (ints : list (interval T A)) :
  winv aggs -> winv ints ->
  forall t, first_closed_at t (aggregate_loop aggs ints) =
    match first_closed_at t aggs, first_closed_at t ints with
    | Some l, Some x => Some (l ++ [x])
    | _, _ => None
    end.
Proof.
  revert aggs ints. apply (agg_ind (fun aggs ints => winv aggs -> winv ints ->
    forall t, first_closed_at t (aggregate_loop aggs ints) =
    match first_closed_at t aggs, first_closed_at t ints with
    | Some l, Some x => Some (l ++ [x])
    | _, _ => None
    end)).
  - intros. reflexivity.
  - intros. rewrite aggregate_loop_nil_r. destruct (first_closed_at t aggs); reflexivity.
  - intros agg aggs int ints IH1 IH2 W1 W2 t. rewrite aggregate_loop_cons.
    pose proof W1 as W1'. pose proof W2 as W2'.
    apply winv_cons in W1' as (La & Wa & Ba). apply winv_cons in W2' as (Li & Wi & Bi).
    assert (Eem : first_closed_at t (emitted agg int) =
      if closed_at t agg && closed_at t int then Some (iobj agg ++ [iobj int]) else None).
    { unfold emitted, intersect.
      destruct (leb (istart agg) (iend int) && leb (istart int) (iend agg)) eqn:E.
      - rewrite first_closed_cons.
        change (closed_at t (tmax (istart agg) (istart int), tmin (iend agg) (iend int),
          iobj agg ++ [iobj int])) with (leb (tmax (istart agg) (istart int)) t &&
            leb t (tmin (iend agg) (iend int))).
        assert (leb (tmax (istart agg) (istart int)) t && leb t (tmin (iend agg) (iend int))
          = closed_at t agg && closed_at t int) as ->; [|reflexivity].
        apply eq_true_iff_eq. rewrite !andb_true_iff, !leb_le, !closed_at_spec, le_tmax, tmin_le. tauto.
      - destruct (closed_at t agg) eqn:E1; destruct (closed_at t int) eqn:E2; try reflexivity.
        apply closed_at_spec in E1 as [? ?]. apply closed_at_spec in E2 as [? ?].
        assert (leb (istart agg) (iend int) && leb (istart int) (iend agg) = true); [|congruence].
        apply andb_true_iff. rewrite !leb_le. split; ord. }
    destruct (ltb (iend int) (iend agg)) eqn:El.
    + rewrite first_closed_app, Eem, IH1 by auto.
      rewrite (first_closed_cons t int), (first_closed_cons t agg).
      destruct (closed_at t agg) eqn:E1; destruct (closed_at t int) eqn:E2; simpl; try reflexivity.
      apply closed_at_spec in E2 as [? ?].
      assert (Hn : first_closed_at t aggs = None).
      { apply first_closed_none_lt. intros y Hy. pose proof (Ba y Hy). unfold before in *. ord. }
      rewrite Hn. reflexivity.
    + rewrite first_closed_app, Eem, IH2 by auto.
      rewrite (first_closed_cons t int), (first_closed_cons t agg).
      destruct (closed_at t agg) eqn:E1; destruct (closed_at t int) eqn:E2; simpl; try reflexivity.
      apply closed_at_spec in E1 as [? ?].
      assert (Hlt : lt t (istart int)).
      { destruct (le_or_lt (istart int) t); auto. exfalso.
        assert (closed_at t int = true) by (apply closed_at_spec; split; ord). congruence. }
      assert (Hn : first_closed_at t ints = None).
      { apply first_closed_none_lt. intros y Hy. pose proof (Bi y Hy). unfold before in *. ord. }
      rewrite Hn. destruct (first_closed_at t aggs); reflexivity.
Qed.

Fixpoint ccollect (t : T) (ds : list (list (interval T coef))) : option (list coef) :=
  match ds with
  | [] => Some []
  | d :: ds' => match first_closed_at t d, ccollect t ds' with
                | Some o, Some os => Some (o :: os)
                | _, _ => None
                end
  end.

Lemma ccollect_some t (ds : list (list (interval T coef))) os : ccollect t ds = Some os ->
  Forall2 (fun o d => first_closed_at t d = Some o) os ds.
Proof.
  revert os. induction ds as [|d ds IH]; intros os E; simpl in E.
  - injection E as <-. constructor.
  - destruct (first_closed_at t d) eqn:E1; [|discriminate].
    destruct (ccollect t ds) eqn:E2; [|discriminate]. injection E as <-. constructor; auto.
Qed.

Lemma aggregate_all_closed : forall (ds : list (list (interval T coef))) aggs,
  winv aggs -> (forall d, In d ds -> winv d) ->
  exists R, aggregate_all ds (Some aggs) = Some R /\ winv R /\
  (forall t, first_closed_at t R = match first_closed_at t aggs, ccollect t ds with
                            | Some l, Some xs => Some (l ++ xs)
                            | _, _ => None
                            end) /\
  (forall r, In r R -> exists agg os, In agg aggs /\
      le (istart agg) (istart r) /\ le (iend r) (iend agg) /\
      iobj r = iobj agg ++ os /\
      Forall2 (fun o d => exists x, In x d /\ iobj x = o /\
                 le (istart x) (istart r) /\ le (iend r) (iend x)) os ds).
Proof.
  intros ds aggs Wa Wd.
  destruct (aggregate_all_facts ds aggs Wa Wd) as (R & E & W & _ & S & _).
  exists R. split; [auto|]. split; [auto|]. split; [|exact S]. clear S W.
  revert aggs Wa E. induction ds as [|d ds IH]; intros aggs Wa E t; simpl in E |- *.
  - injection E as <-. destruct (first_closed_at t aggs); rewrite ?app_nil_r; reflexivity.
  - assert (Wd1 : winv d) by (apply Wd; simpl; auto).
    unfold aggregate_intersected_intervals in E.
    rewrite (IH (fun d' H' => Wd d' (or_intror H')) _ (aggregate_winv aggs d Wa Wd1) E).
    rewrite aggregate_first_closed by auto.
    destruct (first_closed_at t aggs); auto. destruct (first_closed_at t d); auto.
    destruct (ccollect t ds); auto. rewrite <- app_assoc. reflexivity.
Qed.

Record cfacts (c : coef) (d : list (interval T coef)) : Prop := {
  cf_dec : decompose c = Ok d;
  cf_within : forall x, In x d -> le (vs c) (istart x) /\ le (istart x) (iend x) /\
    le (iend x) (ve c) /\ is_internal (iobj x) = is_internal c /\ wf (iobj x);
  cf_cover : forall t, (exists o, first_closed_at t d = Some o) <-> valid_at c t;
  cf_call : forall t o p, first_closed_at t d = Some o ->
    same_cells (fst (call_scalar p (Some t) o)) (fst (call_scalar p (Some t) c))
}.

Lemma cfacts_combined a (items : list coef) : mk_combined items = Ok (Combined a items) ->
  (forall x, In x items -> exists d, cfacts x d /\ winv d) -> (forall x, In x items -> wf x) ->
  exists d, cfacts (Combined a items) d /\ winv d.
Proof.
  intros E H Hwf.
  assert (Hlen : 2 <= length items).
  { apply mk_combined_cases in E as [E|(a' & f & r & _ & -> & Hr & _)].
    - exfalso. apply (combined_not_self (Combined a items) a items); auto.
      rewrite E at 2. simpl. auto.
    - destruct r; [congruence|simpl; lia]. }
  pose proof (combined_attrs _ _ E) as (A1 & A2 & A3 & _).
  assert (Hds : exists ds, map_result decompose items = Ok ds /\
            Forall2 (fun x d => cfacts x d /\ winv d) items ds).
  { clear -H. induction items as [|x items IH].
    - exists []. split; [reflexivity|constructor].
    - destruct IH as (ds & E & F); [intros; apply H; simpl; auto|].
      destruct (H x (or_introl eq_refl)) as (d & Hd & Wd). exists (d :: ds).
      split; [|constructor; auto].
      change (map_result decompose (x :: items)) with
        (bind (decompose x) (fun y => bind (map_result decompose items) (fun r => Ok (y :: r)))).
      rewrite (cf_dec _ _ Hd), E. reflexivity. }
  destruct Hds as (ds & Eds & Fds).
  destruct (aggregate_all_closed ds [((ninf, pinf), [])] winv_default) as (R & ER & WR & FR & SR).
  { intros d Hd. destruct (Forall2_in_r _ _ _ _ Fds Hd) as (x & _ & _ & ?). auto. }
  assert (Hne : ds <> []).
  { intros ->. inversion Fds; subst. simpl in Hlen. lia. }
  assert (EN : aggregate_all ds None = Some R).
  { destruct ds as [|d ds]; [congruence|]. exact ER. }
  assert (Hobj : forall r, In r R -> Forall2 (fun o x =>
             is_internal o = is_internal x /\ wf o /\
             le (vs x) (istart r) /\ le (iend r) (ve x)) (iobj r) items).
  { intros r Hr. destruct (SR r Hr) as (agg & os & Hag & _ & _ & Eo & Fo).
    destruct Hag as [<-|[]]. simpl in Eo. rewrite Eo. clear -Fo Fds.
    revert items Fds. induction Fo as [|o d os ds (x & Hx & Ho & H1 & H2) _ IH]; intros items Fds;
      inversion Fds as [|it ? its ? [Hf Hw] Fds']; subst; constructor; auto.
    destruct (cf_within _ _ Hf x Hx) as (W1 & W2 & W3 & W4 & W5).
    repeat split; auto; ord. }
  destruct (map_result_ok combine_aggregate R) as (D & ED & FD).
  { intros r Hr. specialize (Hobj r Hr).
    destruct (combined_ok_len (iobj r) (is_internal (Combined a items))) as [a' Ha'].
    - rewrite (Forall2_length Hobj). exact Hlen.
    - intros o Ho. destruct (Forall2_in_l _ _ _ _ Hobj Ho) as (x & Hx & Hi & _).
      rewrite Hi. apply A3; auto.
    - unfold combine_aggregate. rewrite Ha'. simpl. eauto. }
  assert (HD : Forall2 (fun (r : interval T (list coef)) (x : interval T coef) =>
             istart x = istart r /\ iend x = iend r /\ mk_combined (iobj r) = Ok (iobj x)) R D).
  { clear -FD. induction FD as [|r x R D Hrx _ IH]; constructor; auto.
    unfold combine_aggregate in Hrx. destruct (mk_combined (iobj r)) eqn:Em; [|discriminate].
    simpl in Hrx. injection Hrx as <-. auto. }
  assert (HDf : forall t, match first_closed_at t R with
                          | None => first_closed_at t D = None
                          | Some os => exists o, first_closed_at t D = Some o /\ mk_combined os = Ok o
                          end).
  { intro t. clear -HD. induction HD as [|r x R D (H1 & H2 & H3) _ IH]; [reflexivity|].
    rewrite !first_closed_cons. unfold closed_at in *. rewrite H1, H2.
    destruct (leb (istart r) t && leb t (iend r)); eauto. }
  exists D. split; [constructor|].
  - change (decompose (Combined a items)) with
      (bind (map_result decompose items)
           (fun ds => match aggregate_all ds None with
                      | None => Err ValueError
                      | Some aggs => map_result combine_aggregate aggs
                      end)).
    rewrite Eds. simpl. rewrite EN. exact ED.
  - intros x Hx. destruct (Forall2_in_r _ _ _ _ HD Hx) as (r & Hr & H1 & H2 & H3).
    specialize (Hobj r Hr). rewrite H1, H2.
    assert (Hit : forall it, In it items -> le (vs it) (istart r) /\ le (iend r) (ve it)).
    { intros it Hit. destruct (Forall2_in_r _ _ _ _ Hobj Hit) as (o & _ & _ & _ & ?). auto. }
    split; [apply A1; intros; apply Hit; auto|].
    split; [apply winv_iff in WR as [_ WR]; apply WR; auto|].
    split; [apply A2; intros; apply Hit; auto|].
    pose proof H3 as H3'.
    apply mk_combined_cases in H3' as [E1|(a' & f & rr & E1 & E2 & E3 & _)].
    { exfalso. pose proof (Forall2_length Hobj) as HL. rewrite E1 in HL. simpl in HL. lia. }
    pose proof (combined_attrs _ _ H3) as (_ & _ & B3 & _). split.
    + assert (Hf : In f (iobj r)) by (rewrite E2; simpl; auto).
      rewrite <- (B3 f Hf).
      destruct (Forall2_in_l _ _ _ _ Hobj Hf) as (it & Hit' & Hi & _). rewrite Hi. apply A3; auto.
    + rewrite E1. constructor; [rewrite E2; discriminate|].
      intros o Ho. destruct (Forall2_in_l _ _ _ _ Hobj Ho) as (it & _ & _ & ? & _). auto.
  - intro t. specialize (HDf t). specialize (FR t). split.
    + intros [o Ho]. destruct (first_closed_at t R) as [os|] eqn:EfR; [|congruence].
      destruct (first_closed_at t [((ninf, pinf), [])]); [|discriminate].
      destruct (ccollect t ds) as [xs|] eqn:Ec; [|discriminate].
      apply ccollect_some in Ec.
      assert (Hall : forall it, In it items -> valid_at it t).
      { intros it Hit. destruct (Forall2_in_l _ _ _ _ Fds Hit) as (d & Hd & Hf & _).
        destruct (Forall2_in_r _ _ _ _ Ec Hd) as (o' & _ & Ho').
        apply (cf_cover _ _ Hf). eauto. }
      split; [apply A1|apply A2]; intros; apply Hall; auto.
    + intros [H1 H2].
      assert (Hc : exists xs, ccollect t ds = Some xs).
      { assert (G : forall it, In it items -> valid_at it t).
        { intros it Hit. split; [apply (proj1 (A1 t) H1)|apply (proj1 (A2 t) H2)]; auto. }
        clear -Fds G. induction Fds as [|it d its ds [Hf _] _ IH]; simpl; [eauto|].
        destruct IH as [xs ->]; [intros; apply G; simpl; auto|].
        destruct (proj2 (cf_cover _ _ Hf t) (G it (or_introl eq_refl))) as [o ->]. eauto. }
      destruct Hc as [xs Hc]. rewrite first_closed_default in FR. rewrite Hc in FR. rewrite FR in HDf.
      destruct HDf as (o & Ho & _). eauto.
  - intros t o p Ho. specialize (HDf t). specialize (FR t).
    destruct (first_closed_at t R) as [os|] eqn:EfR; [|congruence].
    destruct HDf as (o' & Ho' & Hm). rewrite Ho in Ho'. injection Ho' as <-.
    destruct (first_closed_at t [((ninf, pinf), @nil coef)]) as [l0|] eqn:El0; [|discriminate].
    destruct (ccollect t ds) as [xs|] eqn:Ec; [|discriminate].
    rewrite first_closed_default in El0. injection El0 as <-.
    simpl in FR. injection FR as ->. apply ccollect_some in Ec.
    assert (Hpair : Forall2 (fun o x => wf o /\ same_cells (fst (call_scalar p (Some t) o))
                      (fst (call_scalar p (Some t) x))) xs items).
    { clear -Fds Ec. revert xs Ec.
      induction Fds as [|it d its ds [Hf _] _ IH]; intros xs Ec; inversion Ec; subst; constructor.
      - split.
        + apply first_closed_some in H2 as (y & Hy & <- & _). apply (cf_within _ _ Hf y Hy).
        + apply (cf_call _ _ Hf t); auto.
      - apply IH; auto. }
    pose proof Hm as Hm'.
    apply mk_combined_cases in Hm' as [E1|(a' & f & rr & E1 & E2 & E3 & _)].
    { exfalso. pose proof (Forall2_length Hpair) as HL. rewrite E1 in HL. simpl in HL. lia. }
    rewrite E1. intro k.
    rewrite combined_scalar_sum.
    2:{ intros x Hx. destruct (Forall2_in_l _ _ _ _ Hpair Hx) as (y & _ & Hwx & _). exact Hwx. }
    rewrite combined_scalar_sum by exact Hwf.
    f_equal. clear -Hpair. induction Hpair as [|o1 x1 xs its [_ Hs] _ IH]; simpl; auto.
    rewrite (Hs k), IH. reflexivity.
  - clear -WR HD. revert WR. induction HD as [|r x R D (H1 & H2 & _) HD IH]; intro W; [apply winv_nil|].
    apply winv_cons in W as (W1 & W2 & W3). apply winv_cons. rewrite H1, H2.
    split; [auto|]. split; [auto|]. intros y Hy.
    destruct (Forall2_in_r _ _ _ _ HD Hy) as (r' & Hr' & H1' & H2' & _).
    pose proof (W3 r' Hr'). unfold before in *. rewrite H1', H2. auto.
Qed.


(** ** Flat trees *)

Lemma nonoverlapping_single {A} (s e : T) (x : A) : lt s e ->
  get_nonoverlapping_intervals [((s, e), x)] = Some [((s, e), x)].
Proof.
  intro H. unfold get_nonoverlapping_intervals. cbn [nonoverlapping_loop].
  assert (ltb e s = false) as -> by ord. cbn [insert_loop length].
  assert (ltb s e = true) as -> by ord. reflexivity.
Qed.

Definition leaf_interval (c : coef) : interval T coef := (validity c, c).

Lemma leaf_intervals_dec (items : list coef) :
  (forall x, In x items -> exists l, x = Leaf l) ->
  (forall x, In x items -> lt (vs x) (ve x)) ->
  exists ds, map_result dec_item items = Ok ds /\ concat ds = map leaf_interval items.
Proof.
  induction items as [|x items IH]; intros Hl Hp.
  - exists []. split; reflexivity.
  - destruct IH as (ds & E & C); [intros; apply Hl; simpl; auto|intros; apply Hp; simpl; auto|].
    destruct (Hl x (or_introl eq_refl)) as [l ->].
    pose proof (Hp _ (or_introl eq_refl)) as Hlt. simpl in Hlt.
    exists ([leaf_interval (Leaf l)] :: ds). split.
    + change (map_result dec_item (Leaf l :: items)) with
        (bind (dec_item (Leaf l)) (fun y => bind (map_result dec_item items) (fun r => Ok (y :: r)))).
      rewrite E. unfold dec_item. simpl.
      destruct (lf_validity l) as [s e] eqn:Ev. simpl in Hlt.
      rewrite (nonoverlapping_single s e (Leaf l) Hlt). simpl.
      unfold leaf_interval. simpl. rewrite Ev. reflexivity.
    + simpl. rewrite C. reflexivity.
Qed.

Lemma first_closed_leaves t (items : list coef) :
  first_closed_at t (map leaf_interval items) = find (fun c => is_valid c (Some t)) items.
Proof.
  induction items as [|x items IH]; auto. simpl map. rewrite first_closed_cons, IH. simpl.
  unfold closed_at, is_valid, leaf_interval, istart, iend, iobj. simpl. reflexivity.
Qed.

Lemma cfacts_flat_composed a (items : list coef) : mk_composed items = Ok (Composed a items) ->
  (forall x, In x items -> exists l, x = Leaf l /\ leaf_ok l) ->
  (forall x, In x items -> lt (vs x) (ve x)) -> time_ordered items ->
  exists d, cfacts (Composed a items) d /\ winv d.
Proof.
  intros E Hl Hp To.
  destruct (leaf_intervals_dec items) as (ds & Eds & C); [|auto|].
  { intros x Hx. destruct (Hl x Hx) as (l & ? & _). eauto. }
  pose proof (composed_attrs _ _ E) as (A1 & A2 & A3 & _).
  exists (map leaf_interval items). split; [constructor|].
  - change (decompose (Composed a items)) with
      (bind (map_result dec_item items) (fun ds => Ok (concat ds))).
    rewrite Eds. simpl. rewrite C. reflexivity.
  - intros x Hx. apply in_map_iff in Hx as (it & <- & Hit).
    unfold leaf_interval, istart, iend, iobj. cbn [fst snd].
    split; [apply A1; exists it; split; [auto|apply le_refl]|].
    split; [pose proof (Hp it Hit); ord|].
    split; [apply A2; exists it; split; [auto|apply le_refl]|].
    split; [apply A3; auto|]. destruct (Hl it Hit) as (l & -> & Hok). constructor. exact Hok.
  - intro t. rewrite first_closed_leaves. split.
    + intros [o Ho]. apply find_some in Ho as [Ho Hv]. apply is_valid_spec in Hv as [Hv1 Hv2].
      split; [apply A1|apply A2]; eauto.
    + intro Hv. destruct (composed_covered items _ t E Hv) as (x & Hx & Hvx).
      destruct (find (fun c => is_valid c (Some t)) items) eqn:Ef; [eauto|].
      pose proof (find_none _ _ Ef x Hx) as Hn. simpl in Hn.
      assert (is_valid x (Some t) = true) by (apply is_valid_spec; exact Hvx). congruence.
  - intros t o p Ho. rewrite first_closed_leaves in Ho.
    destruct items as [|first rest]; [discriminate|].
    rewrite call_scalar_composed, Ho. intro k. reflexivity.
  - clear -To Hp. induction items as [|x items IH]; [apply winv_nil|].
    apply time_ordered_cons in To as [To1 To2]. simpl. apply winv_cons.
    split; [pose proof (Hp x (or_introl eq_refl)); unfold leaf_interval, istart, iend; cbn [fst snd]; ord|].
    split; [apply IH; auto; intros; apply Hp; simpl; auto|].
    intros y Hy. apply in_map_iff in Hy as (z & <- & Hz).
    unfold before, leaf_interval, istart, iend. cbn [fst snd]. auto.
Qed.

Lemma cfacts_leaf (l : leaf T V P) : leaf_ok l -> lt (fst (lf_validity l)) (snd (lf_validity l)) ->
  exists d, cfacts (Leaf l : coef) d /\ winv d.
Proof.
  intros Hok Hlt. exists [(lf_validity l, Leaf l)]. split; [constructor|].
  - reflexivity.
  - intros x [<-|[]]. unfold istart, iend, iobj. cbn [fst snd validity].
    split; [apply le_refl|]. split; [ord|]. split; [apply le_refl|].
    split; [reflexivity|]. constructor. exact Hok.
  - intro t. rewrite first_closed_cons. unfold valid_at. cbn [validity]. split.
    + intros [o Ho]. destruct (closed_at t _) eqn:E; [|discriminate].
      apply closed_at_spec in E. exact E.
    + intros Hv. assert (closed_at t (lf_validity l, Leaf l) = true) as ->
        by (apply closed_at_spec; exact Hv). eauto.
  - intros t o p Ho. rewrite first_closed_cons in Ho.
    destruct (closed_at t _); [|discriminate]. injection Ho as <-. intro k. reflexivity.
  - apply winv_cons. unfold istart, iend. cbn [fst snd].
    split; [ord|]. split; [apply winv_nil|intros y []].
Qed.

Lemma facts_leaf (l : leaf T V P) : leaf_ok l -> lt (fst (lf_validity l)) (snd (lf_validity l)) ->
  exists d, facts (Leaf l : coef) d /\ winv d.
Proof.
  intros Hok Hlt. destruct (cfacts_leaf l Hok Hlt) as (d & [C1 C2 C3 C4] & W).
  injection C1 as <-. exists [(lf_validity l, Leaf l)]. split; [constructor|exact W].
  - reflexivity.
  - exact C2.
  - intro t. rewrite first_at_cons. cbn [validity]. split.
    + intros [o Ho]. destruct (at_time t _) eqn:E; [|discriminate].
      apply at_time_spec in E. exact E.
    + intros Hv. assert (at_time t (lf_validity l, Leaf l) = true) as ->
        by (apply at_time_spec; exact Hv). eauto.
  - intros t Ht x [<-|[]]. apply (Ht (Leaf l)). simpl; auto.
  - intros t _ o p Ho. rewrite first_at_cons in Ho.
    destruct (at_time t _); [|discriminate]. injection Ho as <-. intro k. reflexivity.
Qed.

Lemma flat_tidy (c : coef) : flat c -> tidy c.
Proof.
  induction 1 as [l Hl|items c Hl To E|items c Hb IH E].
  - constructor; auto.
  - apply (tidy_composed items); auto. intros x Hx. destruct (Hl x Hx) as (l & -> & ?).
    constructor; auto.
  - apply (tidy_combined items); auto.
Qed.

Lemma tidy_built (c : coef) : tidy c -> built c.
Proof.
  induction 1 as [l Hl|items c Hl IH To E|items c Hb IH E].
  - constructor; auto.
  - apply (built_composed items); auto.
  - apply (built_combined items); auto.
Qed.

Lemma layered_built (c : coef) : layered c -> built c.
Proof.
  induction 1 as [c Hc|items c Hl IH E].
  - apply tidy_built; auto.
  - apply (built_composed items); auto.
Qed.

Lemma proper_item (x : coef) items a : In x items ->
  proper_tree (Composed a items) \/ proper_tree (Combined a items) -> proper_tree x.
Proof.
  intros Hx [H|H] n Hn; apply H; simpl; right; apply in_flat_map; eauto.
Qed.

Lemma flat_facts (c : coef) : flat c -> proper_tree c -> exists d, cfacts c d /\ winv d.
Proof.
  induction 1 as [l Hl|items c Hl To E|items c Hb IH E]; intro Hp.
  - apply cfacts_leaf; auto. apply (Hp (Leaf l)). simpl; auto.
  - pose proof E as E'. apply mk_composed_cases in E' as [->|(a & f & r & -> & Ei & _ & _)].
    + destruct (Hl c (or_introl eq_refl)) as (l & -> & Hok).
      apply cfacts_leaf; auto. apply (Hp (Leaf l)). simpl; auto.
    + apply cfacts_flat_composed; auto. intros x Hx.
      apply (proper_item x items a); auto. apply nodes_self.
  - pose proof E as E'. apply mk_combined_cases in E' as [->|(a & f & r & -> & Ei & _ & _)].
    + apply IH; simpl; auto.
    + apply cfacts_combined; auto.
      * intros x Hx. apply IH; auto. eapply proper_item; eauto.
      * intros x Hx. apply built_wf, tidy_built, flat_tidy; auto.
Qed.

Lemma tidy_facts (c : coef) : tidy c -> proper_tree c -> exists d, facts c d /\ winv d.
Proof.
  induction 1 as [l Hl|items c Hl IH To E|items c Hb IH E]; intro Hp.
  - apply facts_leaf; auto. apply (Hp (Leaf l)). simpl; auto.
  - pose proof E as E'. apply mk_composed_cases in E' as [->|(a & f & r & -> & Ei & _ & _)].
    + apply IH; simpl; auto.
    + destruct (facts_composed a items E) as (d & Fd & Id).
      * intros x Hx. destruct (IH x Hx) as (d & ? & _); eauto using proper_item.
      * intros x Hx. apply built_wf, tidy_built; auto.
      * exists d. split; auto. apply inv_winv; auto.
  - pose proof E as E'. apply mk_combined_cases in E' as [->|(a & f & r & -> & Ei & _ & _)].
    + apply IH; simpl; auto.
    + apply facts_combined; auto.
      * intros x Hx. apply IH; auto. eapply proper_item; eauto.
      * intros x Hx. apply built_wf, tidy_built; auto.
Qed.

Lemma layered_facts (c : coef) : layered c -> proper_tree c -> exists d, facts c d.
Proof.
  induction 1 as [c Hc|items c Hl IH E]; intro Hp.
  - destruct (tidy_facts c Hc Hp) as (d & ? & _). eauto.
  - pose proof E as E'. apply mk_composed_cases in E' as [->|(a & f & r & -> & Ei & _ & _)].
    + apply IH; simpl; auto.
    + destruct (facts_composed a items E) as (d & Fd & _).
      * intros x Hx. apply IH; eauto using proper_item.
      * intros x Hx. apply built_wf, layered_built; auto.
      * eauto.
Qed.

(** ** Final forms *)

Lemma exists_max_end {B} (l : list (interval T B)) : l <> [] ->
  exists x, In x l /\ forall y, In y l -> le (iend y) (iend x).
Proof.
  induction l as [|a l IH]; [congruence|]. intros _. destruct l as [|b l].
  - exists a. split; [simpl; auto|]. intros y [<-|[]]. apply le_refl.
  - destruct IH as (x & Hx & Hm); [discriminate|].
    destruct (le_or_lt (iend a) (iend x)) as [H|H].
    + exists x. split; [simpl; auto|]. intros y [<-|Hy]; auto.
    + exists a. split; [simpl; auto|]. intros y [<-|Hy]; [apply le_refl|].
      pose proof (Hm y Hy). ord.
Qed.

Lemma facts_closed_cover (c : coef) d : facts c d -> lt (vs c) (ve c) ->
  forall t, (exists x, In x d /\ at_time_closed t x) <-> valid_at c t.
Proof.
  intros [D1 D2 D3 D4 D5] Hp t. split.
  - intros (x & Hx & H1 & H2). destruct (D2 x Hx) as (W1 & W2 & W3 & _). split; ord.
  - intros [H1 H2]. destruct (le_or_lt (ve c) t) as [H3|H3].
    + (* t is the end of the validity range *)
      assert (Hne : d <> []).
      { intros ->. destruct (proj2 (D3 (vs c)) (conj (le_refl _) Hp)) as [o Ho]. discriminate. }
      destruct (exists_max_end d Hne) as (x & Hx & Hm).
      destruct (D2 x Hx) as (W1 & W2 & W3 & _).
      exists x. split; [auto|]. split; [ord|].
      destruct (le_or_lt (ve c) (iend x)) as [H4|H4]; [ord|]. exfalso.
      destruct (proj2 (D3 (iend x))) as [o Ho]; [split; ord|].
      apply first_at_some in Ho as (y & Hy & _ & Y1 & Y2). pose proof (Hm y Hy). ord.
    + destruct (proj2 (D3 t) (conj H1 H3)) as [o Ho].
      apply first_at_some in Ho as (x & Hx & _ & X1 & X2). exists x. split; [auto|]. split; ord.
Qed.

Lemma facts_first_closed (c : coef) d t : facts c d -> inner_instant c t ->
  first_closed_at t d = first_at t d.
Proof.
  intros F Ht. pose proof (f_ends _ _ F t Ht) as Q. clear F.
  induction d as [|x d IH]; auto. rewrite first_at_cons, first_closed_cons.
  rewrite IH by (intros y Hy; apply Q; simpl; auto).
  destruct (Q x (or_introl eq_refl)) as [Q1 Q2].
  assert (closed_at t x = at_time t x) as ->; [|reflexivity].
  apply eq_true_iff_eq. rewrite closed_at_spec, at_time_spec. split; intros [H1 H2]; split; auto.
  - destruct (le_or_lt (iend x) t); [|auto]. exfalso. apply Q2. split; auto.
  - ord.
Qed.

Lemma decompose_covers (c : coef) : layered c -> proper_tree c ->
  exists d, decompose c = Ok d /\
    forall t, (exists x, In x d /\ at_time_closed t x) <-> valid_at c t.
Proof.
  intros Hl Hp. destruct (layered_facts c Hl Hp) as [d Fd]. exists d.
  split; [apply (f_dec _ _ Fd)|]. apply (facts_closed_cover c d Fd). apply Hp, nodes_self.
Qed.

Lemma decompose_preserves (c : coef) d t : layered c -> proper_tree c -> decompose c = Ok d ->
  inner_instant c t -> valid_at c t ->
  exists o, first_closed_at t d = Some o /\ forall p,
    same_cells (fst (call_scalar p (Some t) o)) (fst (call_scalar p (Some t) c)).
Proof.
  intros Hl Hp E Ht Hv. destruct (layered_facts c Hl Hp) as [d' Fd].
  assert (d' = d) as -> by (pose proof (f_dec _ _ Fd); congruence).
  rewrite (facts_first_closed c d t Fd Ht).
  assert (Hho : le (vs c) t /\ lt t (ve c)).
  { destruct Hv as [H1 H2]. split; auto. destruct (Ht c (nodes_self c)) as [_ Q].
    destruct (le_or_lt (ve c) t); [|auto]. exfalso. apply Q. auto. }
  destruct (proj2 (f_cover _ _ Fd t) Hho) as [o Ho]. exists o. split; auto.
  intro p. apply (f_call _ _ Fd t Ht o p Ho).
Qed.

(** for tidy trees the component is unique *)
Lemma decompose_unique (c : coef) d t : tidy c -> proper_tree c -> decompose c = Ok d ->
  inner_instant c t -> forall x y, In x d -> In y d -> at_time_closed t x -> at_time_closed t y ->
  x = y.
Proof.
  intros Hl Hp E Ht x y Hx Hy [X1 X2] [Y1 Y2]. destruct (tidy_facts c Hl Hp) as (d' & Fd & W).
  assert (d' = d) as -> by (pose proof (f_dec _ _ Fd); congruence).
  pose proof (f_ends _ _ Fd t Ht) as Q.
  destruct (Q x Hx) as [Qx1 Qx2], (Q y Hy) as [Qy1 Qy2].
  apply In_nth_error in Hx as [i Hi]. apply In_nth_error in Hy as [j Hj].
  apply winv_iff in W as [O _].
  destruct (lt_eq_lt_dec i j) as [[L|L]|L].
  - pose proof (O i j x y L Hi Hj). exfalso. apply Qx2. split; ord.
  - subst. congruence.
  - pose proof (O j i y x L Hj Hi). exfalso. apply Qy2. split; ord.
Qed.

Lemma decompose_flat (c : coef) : flat c -> proper_tree c ->
  exists d, decompose c = Ok d /\
    forall t, (valid_at c t <-> exists o, first_closed_at t d = Some o) /\
      (forall o p, first_closed_at t d = Some o ->
         same_cells (fst (call_scalar p (Some t) o)) (fst (call_scalar p (Some t) c))).
Proof.
  intros Hf Hp. destruct (flat_facts c Hf Hp) as (d & F & _). exists d.
  split; [apply (cf_dec _ _ F)|]. intro t. split.
  - rewrite (cf_cover _ _ F t). tauto.
  - intros o p Ho. apply (cf_call _ _ F t o p Ho).
Qed.

End Proofs.
