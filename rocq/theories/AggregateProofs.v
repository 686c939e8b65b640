(** Proofs about aggregate_intersected_intervals. *)

From Coq Require Import Bool List Arith Lia Sorting.Sorted.
From Verif Require Import Ord IntervalsModel IntervalsSpec IntervalsProofs.
Import ListNotations.

Section Aggregate.
Context {T : Type} {OT : TOrd T} {OI : TInf T} {A : Type}.

Definition winv {B} (l : list (interval T B)) : Prop :=
  StronglySorted before l /\ Forall (fun x => le (istart x) (iend x)) l.

Lemma winv_cons {B} (x : interval T B) l :
  winv (x :: l) <-> le (istart x) (iend x) /\ winv l /\ (forall y, In y l -> before x y).
Proof.
  unfold winv. split.
  - intros [S F]. inversion S; inversion F; subst. rewrite <- Forall_forall. tauto.
  - intros (L & [S F] & B'). rewrite <- Forall_forall in B'. split; constructor; auto.
Qed.

Lemma winv_nil {B} : winv (@nil (interval T B)).
Proof. split; constructor. Qed.

Lemma winv_iff {B} (l : list (interval T B)) : winv l <-> ordered l /\ weakly_proper l.
Proof.
  unfold winv, ordered, weakly_proper. rewrite Forall_forall. split.
  - intros [S F]. split; [|exact F]. intros i j x y. apply (SS_nth before l S).
  - intros [S F]. split; [|exact F]. apply nth_SS. exact S.
Qed.

Lemma inv_winv {B} (l : list (interval T B)) : inv l -> winv l.
Proof.
  intros [S F]. split; [exact S|]. eapply Forall_impl; [|exact F]. intros x Hx. ord.
Qed.

Definition emitted (agg : interval T (list A)) (int : interval T A)
  : list (interval T (list A)) :=
  match intersect (istart agg) (iend agg) (istart int) (iend int) with
  | Some se => [(se, iobj agg ++ [iobj int])]
  | None => []
  end.

Lemma aggregate_loop_cons agg aggs int ints :
  aggregate_loop (agg :: aggs) (int :: ints) =
  emitted agg int ++
  (if ltb (iend int) (iend agg) then aggregate_loop (agg :: aggs) ints
   else aggregate_loop aggs (int :: ints)).
Proof. cbn [aggregate_loop]. unfold emitted. destruct (ltb _ _); reflexivity. Qed.

Lemma aggregate_loop_nil_r aggs : aggregate_loop aggs (@nil (interval T A)) = [].
Proof. destruct aggs; reflexivity. Qed.

(** induction principle following the recursion of [aggregate_loop] *)
Lemma agg_ind (P : list (interval T (list A)) -> list (interval T A) -> Prop) :
  (forall ints, P [] ints) -> (forall aggs, P aggs []) ->
  (forall agg aggs int ints,
     P (agg :: aggs) ints -> P aggs (int :: ints) -> P (agg :: aggs) (int :: ints)) ->
  forall aggs ints, P aggs ints.
Proof.
  intros H1 H2 H3. induction aggs as [|agg aggs IHa]; auto.
  induction ints as [|int ints IHi]; auto.
Qed.

Lemma all_at_app {B} t (l1 l2 : list (interval T B)) :
  all_at t (l1 ++ l2) = all_at t l1 ++ all_at t l2.
Proof. unfold all_at. rewrite filter_app, map_app. reflexivity. Qed.

Lemma emitted_in agg int r : In r (emitted agg int) ->
  iobj r = iobj agg ++ [iobj int] /\ istart r = tmax (istart agg) (istart int) /\
  iend r = tmin (iend agg) (iend int) /\
  le (istart agg) (iend int) /\ le (istart int) (iend agg).
Proof.
  unfold emitted, intersect. destruct (leb _ _ && leb _ _) eqn:E; [|intros []].
  apply andb_true_iff in E as [E1 E2].
  intros [<-|[]]. unfold iobj, istart, iend; simpl. repeat split; assumption.
Qed.

Lemma all_at_emitted t agg int :
  all_at t (emitted agg int) =
  if at_time t agg && at_time t int then [iobj agg ++ [iobj int]] else [].
Proof.
  unfold emitted, intersect, all_at, at_time.
  destruct (leb (istart agg) (iend int) && leb (istart int) (iend agg)) eqn:E.
  - simpl. unfold istart at 1, iend at 1. simpl.
    assert (X : (leb (tmax (istart agg) (istart int)) t && ltb t (tmin (iend agg) (iend int)))
      = (leb (istart agg) t && ltb t (iend agg)) && (leb (istart int) t && ltb t (iend int))).
    { apply eq_true_iff_eq. rewrite !andb_true_iff, !ltb_lt, !leb_le, le_tmax, lt_tmin. tauto. }
    unfold istart, iend in *. simpl in *. rewrite X.
    match goal with |- map _ (if ?b then _ else _) = _ => destruct b; reflexivity end.
  - simpl.
    destruct (leb (istart agg) t) eqn:E1; destruct (ltb t (iend agg)) eqn:E2;
    destruct (leb (istart int) t) eqn:E3; destruct (ltb t (iend int)) eqn:E4; simpl; auto.
    apply andb_false_iff in E as [E|E]; ord.
Qed.

Lemma aggregate_at (aggs : list (interval T (list A))) ints : winv aggs -> winv ints ->
  forall t, all_at t (aggregate_loop aggs ints) =
    match first_at t aggs, first_at t ints with
    | Some l, Some x => [l ++ [x]]
    | _, _ => []
    end.
Proof.
  revert aggs ints. apply (agg_ind (fun aggs ints => winv aggs -> winv ints -> forall t,
    all_at t (aggregate_loop aggs ints) =
    match first_at t aggs, first_at t ints with Some l, Some x => [l ++ [x]] | _, _ => [] end)).
  - reflexivity.
  - intros aggs _ _ t. rewrite aggregate_loop_nil_r. simpl. destruct (first_at t aggs); auto.
  - intros agg aggs int ints IH1 IH2 Wa Wi t.
    rewrite aggregate_loop_cons, all_at_app, all_at_emitted.
    pose proof (proj1 (winv_cons _ _) Wa) as (La & Wa' & Ba).
    pose proof (proj1 (winv_cons _ _) Wi) as (Li & Wi' & Bi).
    destruct (ltb (iend int) (iend agg)) eqn:E.
    + rewrite IH1 by assumption. rewrite !first_at_cons.
      destruct (at_time t int) eqn:Ei.
      * apply at_time_spec in Ei as [Ei1 Ei2].
        rewrite (first_at_none_lt t ints).
        2:{ rewrite Forall_forall. intros y Hy. pose proof (Bi y Hy). unfold before in *. ord. }
        rewrite (first_at_none_lt t aggs).
        2:{ rewrite Forall_forall. intros y Hy. pose proof (Ba y Hy). unfold before in *. ord. }
        destruct (at_time t agg); simpl; reflexivity.
      * rewrite andb_false_r. reflexivity.
    + rewrite IH2 by assumption. rewrite !first_at_cons.
      destruct (at_time t agg) eqn:Ea.
      * apply at_time_spec in Ea as [Ea1 Ea2].
        rewrite (first_at_none_lt t aggs).
        2:{ rewrite Forall_forall. intros y Hy. pose proof (Ba y Hy). unfold before in *. ord. }
        rewrite app_nil_r.
        destruct (at_time t int); simpl; auto.
        rewrite (first_at_none_lt t ints); auto.
        rewrite Forall_forall. intros y Hy. pose proof (Bi y Hy). unfold before in *. ord.
      * simpl. reflexivity.
Qed.

(** every result is the closed intersection of an aggregate and an interval *)
Lemma aggregate_sound (aggs : list (interval T (list A))) ints r :
  In r (aggregate_loop aggs ints) ->
  exists agg int, In agg aggs /\ In int ints /\ iobj r = iobj agg ++ [iobj int] /\
    le (istart agg) (iend int) /\ le (istart int) (iend agg) /\
    istart r = tmax (istart agg) (istart int) /\ iend r = tmin (iend agg) (iend int).
Proof.
  revert aggs ints. apply (agg_ind (fun aggs ints => In r (aggregate_loop aggs ints) ->
    exists agg int, In agg aggs /\ In int ints /\ iobj r = iobj agg ++ [iobj int] /\
    le (istart agg) (iend int) /\ le (istart int) (iend agg) /\
    istart r = tmax (istart agg) (istart int) /\ iend r = tmin (iend agg) (iend int))).
  - intros ints [].
  - intros aggs. rewrite aggregate_loop_nil_r. intros [].
  - intros agg aggs int ints IH1 IH2. rewrite aggregate_loop_cons, in_app_iff.
    intros [Hr|Hr].
    + apply emitted_in in Hr as (E1 & E2 & E3 & E4 & E5).
      exists agg, int. simpl. auto 10.
    + destruct (ltb (iend int) (iend agg)).
      * destruct (IH1 Hr) as (a & i & Ha & Hi & R). exists a, i. simpl in *. auto.
      * destruct (IH2 Hr) as (a & i & Ha & Hi & R). exists a, i. simpl in *. auto.
Qed.

(** every instant covered by both inputs is covered by the result *)
Lemma aggregate_complete (aggs : list (interval T (list A))) ints : winv aggs -> winv ints ->
  forall t agg int, In agg aggs -> In int ints -> at_time_closed t agg -> at_time_closed t int ->
  exists r, In r (aggregate_loop aggs ints) /\ at_time_closed t r.
Proof.
  revert aggs ints. apply (agg_ind (fun aggs ints => winv aggs -> winv ints ->
    forall t agg int, In agg aggs -> In int ints -> at_time_closed t agg ->
    at_time_closed t int ->
    exists r, In r (aggregate_loop aggs ints) /\ at_time_closed t r)).
  - intros ints _ _ t agg int [].
  - intros aggs _ _ t agg int _ [].
  - intros agg aggs int ints IH1 IH2 Wa Wi t a i Ha Hi Ca Ci.
    pose proof (proj1 (winv_cons _ _) Wa) as (La & Wa' & Ba).
    pose proof (proj1 (winv_cons _ _) Wi) as (Li & Wi' & Bi).
    rewrite aggregate_loop_cons.
    assert (Em : at_time_closed t agg -> at_time_closed t int ->
      exists r, In r (emitted agg int) /\ at_time_closed t r).
    { intros [C1 C2] [C3 C4]. unfold emitted, intersect.
      assert (leb (istart agg) (iend int) = true) as -> by ord.
      assert (leb (istart int) (iend agg) = true) as -> by ord.
      simpl. eexists. split; [left; reflexivity|].
      unfold at_time_closed, istart, iend; simpl. rewrite le_tmax, tmin_le. auto. }
    assert (Rec : exists r, In r (if ltb (iend int) (iend agg)
         then aggregate_loop (agg :: aggs) ints else aggregate_loop aggs (int :: ints)) /\
         at_time_closed t r \/ In r (emitted agg int) /\ at_time_closed t r).
    { destruct (ltb (iend int) (iend agg)) eqn:E.
      - destruct Hi as [<-|Hi].
        + destruct Ha as [<-|Ha].
          * destruct (Em Ca Ci) as (r & R). exists r. auto.
          * exfalso. pose proof (Ba a Ha). destruct Ca, Ci. unfold before in *. ord.
        + destruct (IH1 Wa Wi' t a i) as (r & R); auto. exists r. auto.
      - destruct Ha as [<-|Ha].
        + destruct Hi as [<-|Hi].
          * destruct (Em Ca Ci) as (r & R). exists r. auto.
          * pose proof (Bi i Hi). destruct Ca as [C1 C2], Ci as [C3 C4]. unfold before in *.
            destruct (Em) as (r & R); [split; assumption|split; ord|]. exists r. auto.
        + destruct (IH2 Wa' Wi t a i) as (r & R); auto. exists r. auto. }
    destruct Rec as (r & [[R1 R2]|[R1 R2]]); exists r; rewrite in_app_iff; auto.
Qed.

Lemma aggregate_winv (aggs : list (interval T (list A))) ints : winv aggs -> winv ints ->
  winv (aggregate_loop aggs ints).
Proof.
  revert aggs ints. apply (agg_ind (fun aggs ints => winv aggs -> winv ints ->
    winv (aggregate_loop aggs ints))).
  - intros. apply winv_nil.
  - intros. rewrite aggregate_loop_nil_r. apply winv_nil.
  - intros agg aggs int ints IH1 IH2 Wa Wi.
    pose proof (proj1 (winv_cons _ _) Wa) as (La & Wa' & Ba).
    pose proof (proj1 (winv_cons _ _) Wi) as (Li & Wi' & Bi).
    rewrite aggregate_loop_cons.
    set (rest := if ltb (iend int) (iend agg) then _ else _).
    assert (Wr : winv rest) by (unfold rest; destruct (ltb _ _); auto).
    assert (Br : forall e, In e (emitted agg int) -> forall r, In r rest -> before e r).
    { intros e He r Hr. apply emitted_in in He as (_ & _ & Ee & _ & _).
      unfold rest in Hr. unfold before. rewrite Ee.
      destruct (ltb (iend int) (iend agg)) eqn:E.
      - apply aggregate_sound in Hr as (a & i & Ha & Hi & _ & _ & _ & Es & _).
        rewrite Es. pose proof (Bi i Hi). unfold before in *.
        pose proof (tmin_le_r (iend agg) (iend int)).
        pose proof (tmax_ge_r (istart a) (istart i)). ord.
      - apply aggregate_sound in Hr as (a & i & Ha & Hi & _ & _ & _ & Es & _).
        rewrite Es. pose proof (Ba a Ha). unfold before in *.
        pose proof (tmin_le_l (iend agg) (iend int)).
        pose proof (tmax_ge_l (istart a) (istart i)). ord. }
    unfold emitted in *. destruct (intersect _ _ _ _) as [se|] eqn:Ei; [|exact Wr].
    simpl. apply winv_cons. split; [|split; [exact Wr|]].
    + unfold intersect in Ei. destruct (leb _ _ && leb _ _) eqn:E; [|discriminate].
      injection Ei as <-. unfold istart, iend. simpl.
      apply le_tmax. rewrite !tmin_le. unfold istart, iend in *. ord_bool. auto.
    + intros y Hy. apply Br; simpl; auto.
Qed.

Lemma winv_default : winv [((ninf, pinf), @nil A)].
Proof.
  apply winv_cons. split; [|split; [apply winv_nil|intros y []]].
  unfold istart, iend; simpl. apply leb_le. apply ninf_least.
Qed.

Lemma first_at_default t : lt t pinf ->
  first_at t [((ninf, pinf), @nil A)] = Some [].
Proof.
  intro Ht. rewrite first_at_cons. unfold at_time, istart, iend. simpl.
  rewrite ninf_least. apply ltb_lt in Ht. rewrite Ht. reflexivity.
Qed.

End Aggregate.
