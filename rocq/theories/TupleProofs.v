(** Proofs about the coefficient sets passed as tuples. *)
From Coq Require Import Bool List Arith ZArith Reals Lia.
From Verif Require Import TupleModel TupleSpec.
Import ListNotations.
Set Bullet Behavior "Strict Subproofs".
Ltac Zify.zify_post_hook ::= Z.to_euclidean_division_equations.

Section TupleProofs.
Context {obj exn A : Type} (py : objects obj exn A).

Lemma in_long z : ((z <? LONG_MIN)%Z || (LONG_MAX <? z)%Z) = false <-> (- 2 ^ 63 <= z < 2 ^ 63)%Z.
Proof. unfold LONG_MIN, LONG_MAX. rewrite orb_false_iff, !Z.ltb_ge. lia. Qed.

Lemma int_cast_small z : (- 2 ^ 31 <= z < 2 ^ 31)%Z -> int_cast z = z.
Proof. intros H. unfold int_cast. rewrite Z.mod_small by lia. lia. Qed.

Lemma int_cast_range z : (- 2 ^ 31 <= int_cast z < 2 ^ 31)%Z.
Proof. unfold int_cast. pose proof (Z.mod_pos_bound (z + 2 ^ 31) (2 ^ 32) ltac:(lia)). lia. Qed.

Lemma four (l : list obj) : length l = 4%nat -> exists a b c d, l = [a; b; c; d].
Proof. destruct l as [|a [|b [|c [|d [|]]]]]; cbn; intros; try lia. eauto. Qed.

Lemma six (l : list obj) : length l = 6%nat -> exists a b c d e f, l = [a; b; c; d; e; f].
Proof. destruct l as [|a [|b [|c [|d [|e [|f [|]]]]]]]; cbn; intros; try lia. do 6 eexists. reflexivity. Qed.

Lemma coefset_cases item :
  match parse_coefset py None item with
  | inl s => loads py item s /\ (forall e, ~ item_error py item e)
  | inr e => (forall e', item_error py item e' <-> e' = e) /\ (forall s, ~ loads py item s)
  end.
Proof.
  unfold parse_coefset. destruct (tuple_items py item) as [items|] eqn:T.
  2:{ split.
      - intros e'. split.
        + intros [[_ E]|(t & gh & nm & so & E & _)]; [exact E|congruence].
        + intros ->. left. split; [|reflexivity]. intros (t & gh & nm & so & E). congruence.
      - intros s (t & gh & nm & so & o & E & _). congruence. }
  destruct (Nat.eqb_spec (length items) 4) as [L|L]; cbn [negb].
  2:{ split.
      - intros e'. split.
        + intros [[_ E]|(t & gh & nm & so & E & _)]; [exact E|]. exfalso. apply L. rewrite T in E. injection E as ->. reflexivity.
        + intros ->. left. split; [|reflexivity]. intros (t & gh & nm & so & E). apply L. rewrite T in E. injection E as ->. reflexivity.
      - intros s (t & gh & nm & so & o & E & _). apply L. rewrite T in E. injection E as ->. reflexivity. }
  destruct (four items L) as (t & gh & nm & so & ->). clear L.
  assert (Er : forall e, item_error py item e <->
    ((int_of py so = None /\ e = value_error py) \/
     exists order, int_of py so = Some order /\
       ((~ (- 2 ^ 63 <= order < 2 ^ 63)%Z /\ e = overflow_error py) \/
        ((- 2 ^ 63 <= order < 2 ^ 63)%Z /\ order <> 1%Z /\ order <> 2%Z /\ e = value_error py) \/
        ((order = 1 \/ order = 2)%Z /\ load_set py t gh nm order = inr e)))).
  { intros e. unfold item_error. split.
    - intros [[N _]|(t' & gh' & nm' & so' & E & H)].
      + exfalso. apply N. exists t, gh, nm, so. exact T.
      + rewrite T in E. injection E as <- <- <- <-. exact H.
    - intros H. right. exists t, gh, nm, so. split; [exact T|exact H]. }
  assert (Lo : forall s, loads py item s <-> exists order, int_of py so = Some order /\ (order = 1 \/ order = 2)%Z /\
                load_set py t gh nm order = inl s).
  { intros s. unfold loads. split.
    - intros (t' & gh' & nm' & so' & o & E & H). rewrite T in E. injection E as <- <- <- <-. exists o. exact H.
    - intros (o & H). exists t, gh, nm, so, o. split; [exact T|exact H]. }
  unfold parse_int_value, parse_long_value. destruct (int_of py so) as [z|] eqn:I.
  2:{ split.
      - intros e'. rewrite Er. split.
        + intros [[_ E]|(o & E & _)]; [exact E|discriminate E].
        + intros ->. left. split; reflexivity.
      - intros s H. apply Lo in H. destruct H as (o & E & _). discriminate E. }
  destruct ((z <? LONG_MIN)%Z || (LONG_MAX <? z)%Z) eqn:LZ.
  { assert (NZ : ~ (- 2 ^ 63 <= z < 2 ^ 63)%Z) by (rewrite <- in_long; congruence). clear LZ. split.
    - intros e'. rewrite Er. split.
      + intros [[E _]|(o & E & [[_ H]|[[H _]|[H _]]])]; [discriminate E|exact H| |]; injection E as <-; lia.
      + intros ->. right. exists z. split; [reflexivity|]. left. split; [exact NZ|reflexivity].
    - intros s H. apply Lo in H. destruct H as (o & E & H & _). injection E as <-. lia. }
  apply in_long in LZ.
  assert (Bad : (z <> 1 /\ z <> 2)%Z ->
    (forall e', item_error py item e' <-> e' = value_error py) /\ (forall s, ~ loads py item s)).
  { intros [N1 N2]. split.
    - intros e'. rewrite Er. split.
      + intros [[E _]|(o & E & [[H _]|[(_ & _ & _ & H)|[H _]]])]; [discriminate E| |exact H|]; injection E as <-; lia.
      + intros ->. right. exists z. split; [reflexivity|]. right. left. repeat split; lia.
    - intros s H. apply Lo in H. destruct H as (o & E & H & _). injection E as <-. lia. }
  destruct (Z.eqb_spec (int_cast z) z) as [C|C]; cbn [negb].
  2:{ apply Bad. split; intros ->; apply C; reflexivity. }
  rewrite C. destruct ((z <? 1)%Z || (2 <? z)%Z) eqn:O.
  { apply Bad. rewrite orb_true_iff, !Z.ltb_lt in O. lia. }
  rewrite orb_false_iff, !Z.ltb_ge in O. assert (O2 : (z = 1 \/ z = 2)%Z) by lia.
  destruct (load_set py t gh nm z) as [s|e] eqn:Ls.
  - split.
    + apply Lo. exists z. split; [reflexivity|]. split; [exact O2|exact Ls].
    + intros e. rewrite Er. intros [[E _]|(o & E & [[H _]|[(_ & H1 & H2 & _)|[_ H]]])]; [discriminate E| | |]; injection E as <-;
        [lia|lia|congruence].
  - split.
    + intros e'. rewrite Er. split.
      * intros [[E _]|(o & E & [[H _]|[(_ & H1 & H2 & _)|[_ H]]])]; [discriminate E| | |]; injection E as <-; [lia|lia|congruence].
      * intros ->. right. exists z. split; [reflexivity|]. right. right. split; [exact O2|exact Ls].
    + intros s H. apply Lo in H. destruct H as (o & E & _ & H). injection E as <-. congruence.
Qed.

Lemma coefset_inl item s : parse_coefset py None item = inl s <-> loads py item s.
Proof.
  pose proof (coefset_cases item) as C. split.
  - intros E. rewrite E in C. exact (proj1 C).
  - intros L. destruct (parse_coefset py None item) as [s'|e].
    + destruct C as [L' _]. destruct L as (t & gh & nm & so & o & T & I & _ & H).
      destruct L' as (t' & gh' & nm' & so' & o' & T' & I' & _ & H').
      rewrite T in T'. injection T' as <- <- <- <-. rewrite I in I'. injection I' as <-. congruence.
    + exfalso. exact (proj2 C s L).
Qed.

Lemma coefset_inr item e : parse_coefset py None item = inr e <-> item_error py item e.
Proof.
  pose proof (coefset_cases item) as C. split.
  - intros E. rewrite E in C. apply C. reflexivity.
  - intros L. destruct (parse_coefset py None item) as [s'|e'].
    + exfalso. exact (proj2 C e L).
    + f_equal. symmetry. apply C. exact L.
Qed.

Lemma coefsets_inl items : forall l, parse_coefsets py None items = inl l <-> Forall2 (loads py) items l.
Proof.
  induction items as [|item items IH]; intros l; cbn [parse_coefsets].
  - split; [intros [= <-]; constructor|]. intros H. inversion H. reflexivity.
  - destruct (parse_coefset py None item) as [s|e] eqn:E.
    + destruct (parse_coefsets py None items) as [l'|e] eqn:E'.
      * split.
        -- intros [= <-]. constructor; [apply coefset_inl; exact E|apply IH; reflexivity].
        -- intros H. inversion H as [|? s' ? l1 L F]; subst. apply coefset_inl in L. apply IH in F. congruence.
      * split; [discriminate|]. intros H. inversion H as [|? s' ? l1 L F]; subst. apply IH in F. congruence.
    + split; [discriminate|]. intros H. inversion H as [|? s' ? l1 L F]; subst. apply coefset_inl in L. congruence.
Qed.

Lemma coefsets_inr items : forall e, parse_coefsets py None items = inr e <->
  exists before item after, items = before ++ item :: after /\ item_error py item e /\
    Forall (fun i => exists s, loads py i s) before.
Proof.
  induction items as [|item items IH]; intros e; cbn [parse_coefsets].
  - split; [discriminate|]. intros (b & i & a & E & _). destruct b; discriminate E.
  - destruct (parse_coefset py None item) as [s|e'] eqn:E.
    + assert (X : (match parse_coefsets py None items with inr e0 => inr e0 | inl l => inl (s :: l) end) = inr e <->
                  parse_coefsets py None items = inr e).
      { destruct (parse_coefsets py None items); split; congruence. }
      rewrite X, IH. split.
      * intros (b & i & a & -> & H & F). exists (item :: b), i, a. split; [reflexivity|]. split; [exact H|].
        constructor; [exists s; apply coefset_inl; exact E|exact F].
      * intros ([|b0 b] & i & a & Eq & H & F); cbn in Eq; injection Eq as -> ->.
        -- apply coefset_inr in H. congruence.
        -- exists b, i, a. split; [reflexivity|]. split; [exact H|]. inversion F; assumption.
    + split.
      * intros [= ->]. exists [], item, items. split; [reflexivity|]. split; [apply coefset_inr; exact E|constructor].
      * intros ([|b0 b] & i & a & Eq & H & F); cbn in Eq; injection Eq as -> ->.
        -- apply coefset_inr in H. congruence.
        -- inversion F as [|? ? [s L] ?]; subst. apply coefset_inl in L. congruence.
Qed.

Lemma list_accepted o l : parse_coef_set_list py None o = inl l <->
  exists items, list_items py o = Some items /\ (1 <= length items <= 16)%nat /\ Forall2 (loads py) items l.
Proof.
  unfold parse_coef_set_list. destruct (list_items py o) as [items|].
  2:{ split; [discriminate|]. intros (i & E & _). discriminate E. }
  destruct (Nat.ltb_spec (length items) 1) as [L|L].
  { split; [discriminate|]. intros (i & [= <-] & L' & _). lia. }
  destruct (Nat.ltb_spec 16 (length items)) as [L2|L2].
  { split; [discriminate|]. intros (i & [= <-] & L' & _). lia. }
  rewrite coefsets_inl. split.
  - intros F. exists items. split; [reflexivity|]. split; [lia|exact F].
  - intros (i & [= <-] & _ & F). exact F.
Qed.

Lemma list_refused o e : parse_coef_set_list py None o = inr e <->
  ((forall items, list_items py o = Some items -> ~ (1 <= length items <= 16)%nat) /\ e = value_error py) \/
  exists before item after, list_items py o = Some (before ++ item :: after) /\
    (length (before ++ item :: after) <= 16)%nat /\
    Forall (fun i => exists s, loads py i s) before /\ item_error py item e.
Proof.
  unfold parse_coef_set_list. destruct (list_items py o) as [items|].
  2:{ split.
      - intros [= <-]. left. split; [intros i E; discriminate E|reflexivity].
      - intros [[_ ->]|(b & i & a & E & _)]; [reflexivity|discriminate E]. }
  destruct (Nat.ltb_spec (length items) 1) as [L|L].
  { split.
    - intros [= <-]. left. split; [intros i [= <-]; lia|reflexivity].
    - intros [[_ ->]|(b & i & a & [= ->] & _)]; [reflexivity|]. rewrite app_length in L. cbn in L. lia. }
  destruct (Nat.ltb_spec 16 (length items)) as [L2|L2].
  { split.
    - intros [= <-]. left. split; [intros i [= <-]; lia|reflexivity].
    - intros [[_ ->]|(b & i & a & [= ->] & L' & _)]; [reflexivity|]. lia. }
  rewrite coefsets_inr. split.
  - intros (b & i & a & -> & H & F). right. exists b, i, a. split; [reflexivity|]. split; [exact L2|]. split; assumption.
  - intros [[N _]|(b & i & a & [= ->] & _ & F & H)]; [exfalso; exact (N items eq_refl ltac:(lia))|].
    exists b, i, a. split; [reflexivity|]. split; assumption.
Qed.

(** An exception set before *)
Lemma coefset_pending e item s : loads py item s -> parse_coefset py (Some e) item = inr e.
Proof.
  intros (t & gh & nm & so & o & T & I & O & _). unfold parse_coefset. rewrite T. cbn [length Nat.eqb negb].
  unfold parse_int_value, parse_long_value. rewrite I.
  assert (L : ((o <? LONG_MIN)%Z || (LONG_MAX <? o)%Z) = false) by (apply in_long; lia).
  rewrite L. reflexivity.
Qed.

Lemma list_pending o l e : parse_coef_set_list py None o = inl l -> parse_coef_set_list py (Some e) o = inr e.
Proof.
  intros H. apply list_accepted in H. destruct H as (items & E & L & F). unfold parse_coef_set_list. rewrite E.
  destruct (Nat.ltb_spec (length items) 1); [lia|]. destruct (Nat.ltb_spec 16 (length items)); [lia|].
  destruct F as [|item s items l Li F]; [cbn in L; lia|]. cbn [parse_coefsets].
  rewrite (coefset_pending e item s Li). reflexivity.
Qed.

(** sheval2dfs *)
Lemma set_2dfs_accepted o s : f2d_coefset_parse py None o = inl s <-> loads_2dfs py o s.
Proof.
  unfold f2d_coefset_parse, loads_2dfs. destruct (tuple_items py o) as [items|] eqn:T.
  2:{ split; [discriminate|]. intros (ab & nm & o1 & o2 & o3 & o4 & m1 & m2 & x1 & x2 & E & _). discriminate E. }
  destruct (Nat.eqb_spec (length items) 6) as [L|L]; cbn [negb].
  2:{ split; [discriminate|]. intros (ab & nm & o1 & o2 & o3 & o4 & m1 & m2 & x1 & x2 & [= ->] & _). exfalso. apply L. reflexivity. }
  destruct (six items L) as (ab & nm & o1 & o2 & o3 & o4 & ->). clear L.
  unfold parse_long_value, parse_double_value. split.
  - intros H. destruct (int_of py o1) as [m1|] eqn:I1; [|discriminate H].
    destruct ((m1 <? LONG_MIN)%Z || (LONG_MAX <? m1)%Z) eqn:L1; [discriminate H|]. apply in_long in L1.
    destruct (int_of py o2) as [m2|] eqn:I2; [|discriminate H].
    destruct ((m2 <? LONG_MIN)%Z || (LONG_MAX <? m2)%Z) eqn:L2; [discriminate H|]. apply in_long in L2.
    destruct (float_of py o3) as [x1|] eqn:F1; [|discriminate H].
    destruct (float_of py o4) as [x2|] eqn:F2; [|discriminate H].
    exists ab, nm, o1, o2, o3, o4, m1, m2, x1, x2. repeat (split; [first [reflexivity|assumption]|]). exact H.
  - intros (ab' & nm' & o1' & o2' & o3' & o4' & m1 & m2 & x1 & x2 & E & I1 & L1 & I2 & L2 & F1 & F2 & H).
    injection E as <- <- <- <- <- <-. rewrite I1, (proj2 (in_long m1) L1), I2, (proj2 (in_long m2) L2), F1, F2. exact H.
Qed.

Lemma long_cases (o : obj) : match parse_long_value py None o with
  | inl z => int_of py o = Some z /\ (- 2 ^ 63 <= z < 2 ^ 63)%Z
  | inr e => int_error py o e end.
Proof.
  unfold parse_long_value, int_error. destruct (int_of py o) as [z|] eqn:I; [|left; split; reflexivity].
  destruct ((z <? LONG_MIN)%Z || (LONG_MAX <? z)%Z) eqn:L.
  - right. exists z. split; [reflexivity|]. split; [rewrite <- in_long; congruence|reflexivity].
  - split; [reflexivity|apply in_long; exact L].
Qed.

Lemma int_error_fun o e e' : int_error py o e -> int_error py o e' -> e = e'.
Proof. intros [[H1 H2]|(z & H1 & H2 & H3)] [[I1 I2]|(z' & I1 & I2 & I3)]; congruence. Qed.
Lemma long_no_error o e : is_long py o -> ~ int_error py o e.
Proof. intros (z & H1 & H2) [[I1 _]|(z' & I1 & I2 & _)]; [congruence|]. apply I2. congruence. Qed.
Lemma float_no_error o e : is_float py o -> ~ float_error py o e.
Proof. intros (z & H1) [H2 _]. congruence. Qed.

Lemma set_2dfs_error o e : f2d_coefset_parse py None o = inr e -> error_2dfs py o e.
Proof.
  unfold f2d_coefset_parse, error_2dfs. destruct (tuple_items py o) as [items|] eqn:T.
  2:{ intros [= <-]. left. split; [intros (a & b & c & d & f & g & E); discriminate E|reflexivity]. }
  destruct (Nat.eqb_spec (length items) 6) as [L|L]; cbn [negb].
  2:{ intros [= <-]. left. split; [intros (a & b & c & d & f & g & [= ->]); apply L; reflexivity|reflexivity]. }
  destruct (six items L) as (ab & nm & o1 & o2 & o3 & o4 & ->). clear L. intros H. right.
  exists ab, nm, o1, o2, o3, o4. split; [reflexivity|].
  pose proof (long_cases o1) as C1. destruct (parse_long_value py None o1) as [m1|e1]; [|left; congruence].
  destruct C1 as [I1 B1]. assert (L1 : is_long py o1) by (exists m1; split; assumption). right.
  pose proof (long_cases o2) as C2. destruct (parse_long_value py None o2) as [m2|e2]; [|left; split; congruence].
  destruct C2 as [I2 B2]. assert (L2 : is_long py o2) by (exists m2; split; assumption). right.
  unfold parse_double_value, float_error, is_float in *.
  destruct (float_of py o3) as [x1|] eqn:F1; [|left; repeat split; congruence]. right.
  destruct (float_of py o4) as [x2|] eqn:F2; [|left; repeat (split; [first [assumption|eauto]|]); congruence]. right.
  exists m1, m2, x1, x2. repeat (split; [first [assumption|reflexivity]|]). exact H.
Qed.

Lemma error_2dfs_loads o e s : error_2dfs py o e -> loads_2dfs py o s -> False.
Proof.
  intros Er (ab & nm & o1 & o2 & o3 & o4 & m1 & m2 & x1 & x2 & T & I1 & B1 & I2 & B2 & F1 & F2 & H).
  destruct Er as [[N _]|(ab' & nm' & o1' & o2' & o3' & o4' & T' & Er)]; [apply N; do 6 eexists; exact T|].
  rewrite T in T'. injection T' as <- <- <- <- <- <-.
  assert (L1 : is_long py o1) by (exists m1; split; assumption). assert (L2 : is_long py o2) by (exists m2; split; assumption).
  destruct Er as [Er|[(_ & Er)|[(_ & _ & [Er _])|[(_ & _ & _ & [Er _])|(m1' & m2' & x1' & x2' & A1 & _ & A2 & _ & A3 & A4 & Er)]]]].
  - exact (long_no_error _ _ L1 Er).
  - exact (long_no_error _ _ L2 Er).
  - congruence.
  - congruence.
  - rewrite I1 in A1. rewrite I2 in A2. rewrite F1 in A3. rewrite F2 in A4.
    injection A1 as <-. injection A2 as <-. injection A3 as <-. injection A4 as <-. congruence.
Qed.

Lemma error_2dfs_fun o e e' : error_2dfs py o e -> error_2dfs py o e' -> e = e'.
Proof.
  intros [[N E]|(ab & nm & o1 & o2 & o3 & o4 & T & H)] [[N' E']|(ab' & nm' & o1' & o2' & o3' & o4' & T' & H')].
  - congruence.
  - exfalso. apply N. do 6 eexists. exact T'.
  - exfalso. apply N'. do 6 eexists. exact T.
  - rewrite T in T'. injection T' as <- <- <- <- <- <-. unfold is_long, is_float, int_error, float_error in *.
    destruct H as [H|[H|[H|[H|H]]]], H' as [H'|[H'|[H'|[H'|H']]]];
      repeat match goal with
        | X : _ /\ _ |- _ => destruct X
        | X : exists _, _ |- _ => destruct X
        | X : _ \/ _ |- _ => destruct X
        end; try congruence;
      repeat match goal with A : ?t = Some ?x, B : ?t = Some ?y |- _ =>
        assert (x = y) by congruence; clear B; subst end; try congruence; exfalso; tauto.
Qed.

Lemma set_2dfs_refused o e : f2d_coefset_parse py None o = inr e <-> error_2dfs py o e.
Proof.
  split; [apply set_2dfs_error|]. intros H. destruct (f2d_coefset_parse py None o) as [s|e'] eqn:E.
  - exfalso. apply set_2dfs_accepted in E. exact (error_2dfs_loads o e s H E).
  - f_equal. apply set_2dfs_error in E. exact (error_2dfs_fun o e' e E H).
Qed.

Lemma five_items o items : tuple_items py o = Some items -> length items = 5%nat ->
  f2d_coefset_parse py None o = inr (value_error py).
Proof. intros T L. unfold f2d_coefset_parse. rewrite T, L. reflexivity. Qed.

Lemma integer_scale o ab nm o1 o2 o3 o4 : tuple_items py o = Some [ab; nm; o1; o2; o3; o4] ->
  float_of py o3 = None \/ float_of py o4 = None -> forall s, f2d_coefset_parse py None o <> inl s.
Proof.
  intros T F s E. apply set_2dfs_accepted in E.
  destruct E as (ab' & nm' & o1' & o2' & o3' & o4' & m1 & m2 & x1 & x2 & E & _ & _ & _ & _ & F1 & F2 & _).
  rewrite T in E. injection E as <- <- <- <- <- <-. destruct F; congruence.
Qed.

End TupleProofs.

(** Concrete objects *)
Inductive tobj := TInt (z : Z) | TFloat (z : Z) | TArray | TTuple (l : list tobj) | TList (l : list tobj).

Definition tpy : objects tobj nat unit := {|
  value_error := 1%nat;
  overflow_error := 2%nat;
  list_items := fun o => match o with TList l => Some l | _ => None end;
  tuple_items := fun o => match o with TTuple l => Some l | _ => None end;
  int_of := fun o => match o with TInt z => Some z | _ => None end;
  float_of := fun o => match o with TFloat z => Some (IZR z) | _ => None end;
  equal_int := fun o => match o with TInt z => Some z | TFloat z => Some z | _ => None end;
  load_set := fun _ _ _ _ => inl tt;
  load_set_2dfs := fun _ _ _ _ _ _ => inl tt |}.

Definition tset (order : tobj) : tobj := TTuple [TArray; TArray; TArray; order].

Lemma ex_list : parse_coef_set_list tpy None (TList [tset (TInt 1); tset (TInt 2)]) = inl [tt; tt] /\
  loads tpy (tset (TInt 2)) tt /\
  parse_coef_set_list tpy None (TList [tset (TInt 2); tset (TInt 3)]) = inr 1%nat /\
  parse_coef_set_list tpy None (TList [tset (TInt (2 ^ 32 + 2))]) = inr 1%nat /\
  parse_coef_set_list tpy None (TList [tset (TInt (2 ^ 64))]) = inr 2%nat /\
  parse_coef_set_list tpy None (TTuple [tset (TInt 2)]) = inr 1%nat /\
  item_error tpy (tset (TInt 3)) 1%nat.
Proof.
  split; [reflexivity|]. split.
  { exists TArray, TArray, TArray, (TInt 2), 2%Z. repeat split. right. reflexivity. }
  repeat (split; [reflexivity|]). right. exists TArray, TArray, TArray, (TInt 3). split; [reflexivity|]. right.
  exists 3%Z. split; [reflexivity|]. right. left. repeat split; lia.
Qed.

Lemma ex_2dfs : f2d_coefset_parse tpy None (TTuple [TArray; TArray; TInt 0; TInt (-2); TFloat 6; TFloat 1]) = inl tt /\
  f2d_coefset_parse tpy None (TTuple [TArray; TArray; TInt 0; TInt (-2); TInt 6; TInt 1]) = inr 1%nat /\
  f2d_coefset_parse tpy None (TTuple [TArray; TArray; TInt 0; TInt (-2); TFloat 6]) = inr 1%nat.
Proof. repeat split; reflexivity. Qed.

Lemma order_refuted :
  ~ (forall obj exn A (py : objects obj exn A) t gh nm so k item s, constructor_order py so = inl k ->
      tuple_items py item = Some [t; gh; nm; so] -> (forall order, load_set py t gh nm order = inl s) ->
      parse_coefset py None item = inl s).
Proof.
  intros H. specialize (H _ _ _ tpy TArray TArray TArray (TFloat 2) 1%Z (tset (TFloat 2)) tt eq_refl eq_refl (fun _ => eq_refl)).
  discriminate H.
Qed.

Lemma order_int {obj exn A} (py : objects obj exn A) t gh nm so z k item s :
  int_of py so = Some z -> equal_int py so = Some z -> constructor_order py so = inl k ->
  tuple_items py item = Some [t; gh; nm; so] -> (forall order, load_set py t gh nm order = inl s) ->
  parse_coefset py None item = inl s.
Proof.
  intros I E K T L. apply coefset_inl. exists t, gh, nm, so, z. split; [exact T|]. split; [exact I|]. split; [|apply L].
  unfold constructor_order in K. rewrite E in K. destruct z as [|[[]|[]|]|]; try discriminate K; [right|left]; reflexivity.
Qed.

Lemma order_kind {obj exn A} (py : objects obj exn A) so :
  (forall k, constructor_order py so = inl k <->
     (equal_int py so = Some 1%Z /\ k = 0x00%Z) \/ (equal_int py so = Some 2%Z /\ k = 0x01%Z)) /\
  (forall e, constructor_order py so = inr e <->
     equal_int py so <> Some 1%Z /\ equal_int py so <> Some 2%Z /\ e = value_error py).
Proof.
  unfold constructor_order.
  destruct (equal_int py so) as [z|]; [destruct z as [|[p|[p|p|]|]|p]|]; split; intros x; split; intros H;
    repeat match goal with X : _ /\ _ |- _ => destruct X | X : _ \/ _ |- _ => destruct X end;
    try congruence; try (repeat split; congruence);
    try (left; split; congruence); try (right; split; congruence).
Qed.
