(** Which calls of sheval, shevaltemp and sheval2dfs are refused. *)

From Coq Require Import Bool List Reals ZArith Lia Lra.
From Verif Require Import ArrModel LegendreModel SizeModel SizeProofs CoefModel ShEvalModel ShEvalSpec ShEvalProofs SpharModel TempModel
  TempSpec TempProofs FourierModel FourierProofs SunModel BisectModel InterpModel ROrd TimeModel CoordModel GeoModel StridedModel
  StridedSpec StridedProofs StridedEvalModel StridedEvalSpec NdModel NdSpec ArgSpec ArgProofs ArgFunProofs.
Import ListNotations.
Open Scope Z_scope.
Set Bullet Behavior "Strict Subproofs".

#[local] Hint Resolve calm_ok calm_oob calm_system calm_load calm_store calm_sheval_rec calm_shevaltemp_rec calm_sheval2dfs_rec : calm.

Ltac codes ci co mode :=
  destruct (check_ct ci) as [[(? & ->) ?]|[-> ?]]; [|cbn [bind]; unfold refused; tauto];
  destruct (check_ct co) as [[(? & ->) ?]|[-> ?]]; [|cbn [bind]; unfold refused; tauto];
  destruct (check_mode mode) as [[(? & ->) ?]|[-> ?]]; [|cbn [bind]; unfold refused; tauto]; cbn [bind].

Lemma agree2_dims a b : let d := if Nat.ltb (length a) (length b) then b else a in
  (compare_dimensions d a || compare_dimensions d b = false <-> agree [a; b]).
Proof.
  intro d. rewrite <- (agree_dims [a; b] d).
  - simpl. now rewrite orb_false_r.
  - intros s [<-|[<-|[]]]; unfold d; destruct (Nat.ltb_spec (length a) (length b)); lia.
  - unfold d. destruct (Nat.ltb _ _); simpl; auto.
Qed.

Lemma sheval_refused m bp bg junk x coef ci co mode internal degree sp scale mem : not_huge coef -> has_strides scale ->
  refused (sheval_array m bp bg junk x coef ci co mode internal degree sp scale mem) <->
  ~ (coord_code ci /\ coord_code co /\ eval_code mode /\ scale_shape scale /\
     exists dx k dc, shape x = dx ++ [k] /\ pairs_shape coef dc /\ agree [dx; dc]).
Proof.
  intros Hc Hs. unfold sheval_array. codes ci co mode.
  destruct (Nat.ltb_spec (length (shape x)) 1) as [L|L].
  { unfold refused. split; [|reflexivity]. intros _ (_ & _ & _ & _ & dx & k & dc & E & _). rewrite E, app_length in L. simpl in L. lia. }
  destruct (Nat.ltb_spec (length (shape coef)) 2) as [L2|L2].
  { unfold refused. split; [|reflexivity]. intros _ (_ & _ & _ & _ & dx & k & dc & _ & (n & E & _) & _). rewrite E, app_length in L2. simpl in L2. lia. }
  destruct (prefix_row x L) as (dx & k & E1 & -> & _). destruct (prefix_pairs coef L2) as (dc & n & k2 & E2 & -> & D2 & _).
  unfold dim_last in D2. rewrite D2. replace (last (shape coef) 0%nat) with k2
    by (rewrite E2; change (dc ++ [n; k2]) with (dc ++ [n] ++ [k2]); rewrite app_assoc, last_last; reflexivity).
  assert (R0 : 0 <= Z.of_nat n < 2 ^ 50) by (eapply (huge_in coef); [assumption|eassumption|left; reflexivity]).
  destruct (size_small _ R0) as [S1 S2]. cbv zeta.
  assert (V : (exists dx0 k0 dc0, shape x = dx0 ++ [k0] /\ pairs_shape coef dc0 /\ agree [dx0; dc0]) <->
              1 <= Z.of_nat n /\ agree [dx; dc] /\ k2 = 2%nat).
  { split.
    - intros (dx0 & k0 & dc0 & F1 & (n0 & F2 & G) & A). rewrite E1 in F1. rewrite E2 in F2. apply app_inj_tail in F1. apply app_inj_2 in F2.
      destruct F1 as (<- & <-), F2 as (<- & <- & ->). split; [lia|auto].
    - intros (G & A & ->). exists dx, k, dc. split; [exact E1|]. split; [exists n; split; [exact E2|lia]|exact A]. }
  rewrite V. clear V. destruct (Z.ltb_spec (size_to_degree (Z.of_nat n)) 0) as [N|N].
  { unfold refused. split; [|reflexivity]. intros _ (_ & _ & _ & _ & G & _). apply S2 in G. lia. }
  apply S2 in N. destruct (Z.ltb_spec 2147483647 (size_to_degree (Z.of_nat n))); [lia|]. cbn [andb].
  pose proof (agree2_dims dx dc) as A. cbv zeta in A. destruct (_ || _) eqn:C in |- *.
  { unfold refused. split; [|reflexivity]. intros _ (_ & _ & _ & _ & _ & G & _). apply A in G. congruence. }
  apply A in C. destruct (Nat.eqb_spec k2 2) as [->|K]; cbn [negb].
  2:{ unfold refused. tauto. }
  destruct (new_outputs _ _ _ _ _ _) as [[m1 pot] grd].
  destruct (scale_iff m1 scale Hs) as [[Q1 Q2]|[-> Q2]]; [|cbn [bind]; unfold refused; tauto].
  apply refused_iff; [|right; tauto]. intros _. apply calm_bind; [exact Q1|]. intro sg.
  destruct (model_init _ _ _ _ _ _ _) as [cfg st]. apply calm_bind; [apply calm_sheval_rec|]. intros [m2 s2]. apply calm_ok.
Qed.

Lemma parse_set_iff s : (exists c, parse_coefset s = Some c) /\ set_sizes s \/ parse_coefset s = None /\ ~ set_sizes s.
Proof.
  destruct s as [[[t gh] nm] o]. unfold parse_coefset, set_sizes.
  destruct (Z.ltb_spec o 1); [right; split; [reflexivity|lia]|]. destruct (Z.ltb_spec 2 o); [right; split; [reflexivity|lia]|]. cbn [orb].
  destruct (Nat.eqb_spec (length gh) (length nm)); cbn [negb]; [|right; split; [reflexivity|tauto]].
  destruct (forallb _ gh) eqn:F; cbn [negb].
  - left. split; [eauto|]. split; [lia|]. split; [assumption|]. apply Forall_forall. rewrite forallb_forall in F. intros r Hr.
    apply Nat.eqb_eq, F, Hr.
  - right. split; [reflexivity|]. intros (_ & _ & K). rewrite Forall_forall in K.
    assert (forallb (fun r => length r =? length t)%nat gh = true); [|congruence]. apply forallb_forall. intros r Hr. apply Nat.eqb_eq, K, Hr.
Qed.
Lemma parse_sets_iff ss : (exists c, parse_coefsets ss = Some c) /\ List.Forall set_sizes ss \/
  parse_coefsets ss = None /\ ~ List.Forall set_sizes ss.
Proof.
  induction ss as [|s ss IH]; cbn [parse_coefsets]; [left; split; [eauto|constructor]|]. rewrite List.Forall_cons_iff.
  destruct (parse_set_iff s) as [[(c & ->) H]|[-> H]]; [|right; tauto].
  destruct IH as [[(cs & ->) K]|[-> K]]; [left; split; [eauto|tauto]|right; tauto].
Qed.
Lemma common_iff a b : common_dims_match a b = true /\ agree [a; b] \/ common_dims_match a b = false /\ ~ agree [a; b].
Proof.
  pose proof (common_match a b) as H. rewrite leading_agree in H. destruct (common_dims_match a b); [left|right]; split; try reflexivity.
  - now apply H.
  - intro K. apply H in K. discriminate.
Qed.
Lemma positions_iff x : (1 <= length (shape x))%nat -> exists dx k, shape x = dx ++ [k] /\ drop_last 1 (shape x) = dx /\ last (shape x) 0%nat = k.
Proof. intro L. destruct (prefix_row x L) as (dx & k & E & D & _). exists dx, k. split; [exact E|]. split; [exact D|]. rewrite E. apply last_last. Qed.

Lemma shevaltemp_refused m bp bg junk t x sets ci co mode internal sp scale mem : has_strides scale ->
  refused (shevaltemp_array m bp bg junk t x sets ci co mode internal sp scale mem) <->
  ~ (coord_code ci /\ coord_code co /\ eval_code mode /\ scale_shape scale /\
     (1 <= length sets <= 16)%nat /\ List.Forall set_sizes sets /\
     exists dx, shape x = dx ++ [3%nat] /\ agree [shape t; dx]).
Proof.
  intro Hs. unfold shevaltemp_array. codes ci co mode.
  destruct (Nat.ltb_spec (length sets) 1); [unfold refused; split; [lia|reflexivity]|].
  destruct (Nat.ltb_spec 16 (length sets)); [unfold refused; split; [lia|reflexivity]|].
  destruct (parse_sets_iff sets) as [[(css & ->) P]|[-> P]]; [|unfold refused; tauto]. cbv zeta.
  destruct (Nat.ltb_spec (length (shape x)) 1) as [L|L].
  { unfold refused. split; [|reflexivity]. intros _ (_ & _ & _ & _ & _ & _ & dx & E & _). rewrite E, app_length in L. simpl in L. lia. }
  destruct (positions_iff x L) as (dx & k & E & -> & ->).
  assert (V : (exists dx0, shape x = dx0 ++ [3%nat] /\ agree [shape t; dx0]) <-> k = 3%nat /\ agree [shape t; dx]).
  { rewrite E. split; [intros (dx0 & F & A); apply app_inj_tail in F; destruct F as (<- & ->); auto|intros (-> & A); eauto]. }
  rewrite V. clear V. destruct (Nat.eqb_spec k 3) as [->|K]; cbn [negb]; [|unfold refused; tauto].
  destruct (common_iff (shape t) dx) as [[-> A]|[-> A]]; cbn [negb]; [|unfold refused; tauto].
  destruct (scale_iff m scale Hs) as [[Q1 Q2]|[-> Q2]]; [|cbn [bind]; unfold refused; tauto].
  apply refused_iff; [|right; tauto]. intros _. apply calm_bind; [exact Q1|]. intro sg.
  destruct (new_outputs _ _ _ _ _ _) as [[m1 pot] grd].
  destruct (model_init _ _ _ _ _ _ _) as [cfg st]. apply calm_bind; [apply calm_shevaltemp_rec|]. intros [m2 s2]. apply calm_ok.
Qed.

Lemma agree3 a b c : agree [a; b; c] <-> agree [a; b] /\ agree [a; c] /\ agree [b; c].
Proof.
  split.
  - intros (D & H). rewrite !List.Forall_cons_iff in H. destruct H as (H1 & H2 & H3 & _).
    repeat split; exists D; repeat (constructor; auto).
  - intros (H1 & H2 & H3). rewrite <- !leading_agree in H1, H2, H3. unfold leading_match in H1, H2, H3.
    assert (T : forall u : list nat, prefix u u) by (intro u; exists []; now rewrite app_nil_r).
    destruct H1 as [H1|H1].
    + destruct H3 as [H3|H3].
      * exists c. repeat (constructor; auto). destruct H1 as (e & ->), H3 as (e' & ->). exists (e ++ e'). now rewrite app_assoc.
      * exists b. repeat (constructor; auto).
    + destruct H2 as [H2|H2].
      * exists c. repeat (constructor; auto). destruct H1 as (e & ->), H2 as (e' & ->). exists (e ++ e'). now rewrite app_assoc.
      * exists a. repeat (constructor; auto).
Qed.

Lemma sheval2dfs_refused m bp bg junk t1 t2 x s ci co mode internal sp scale mem fmem : has_strides scale ->
  refused (sheval2dfs_array m bp bg junk t1 t2 x s ci co mode internal sp scale mem fmem) <->
  ~ (coord_code ci /\ coord_code co /\ eval_code mode /\ scale_shape scale /\
     exists dx, shape x = dx ++ [3%nat] /\ agree [shape t1; shape t2; dx]).
Proof.
  intro Hs. unfold sheval2dfs_array. codes ci co mode.
  destruct (Nat.ltb_spec (length (shape x)) 1) as [L|L].
  { unfold refused. split; [|reflexivity]. intros _ (_ & _ & _ & _ & dx & E & _). rewrite E, app_length in L. simpl in L. lia. }
  cbv zeta. destruct (positions_iff x L) as (dx & k & E & -> & ->).
  assert (V : (exists dx0, shape x = dx0 ++ [3%nat] /\ agree [shape t1; shape t2; dx0]) <-> k = 3%nat /\ agree [shape t1; shape t2; dx]).
  { rewrite E. split; [intros (dx0 & F & A); apply app_inj_tail in F; destruct F as (<- & ->); auto|intros (-> & A); eauto]. }
  rewrite V. clear V. rewrite agree3.
  destruct (common_iff (shape t1) (shape t2)) as [[-> A1]|[-> A1]]; cbn [negb]; [|unfold refused; tauto].
  destruct (common_iff (shape t1) dx) as [[-> A2]|[-> A2]]; cbn [negb]; [|unfold refused; tauto].
  destruct (common_iff (shape t2) dx) as [[-> A3]|[-> A3]]; cbn [negb]; [|unfold refused; tauto].
  destruct (Nat.eqb_spec k 3) as [->|K]; cbn [negb]; [|unfold refused; tauto].
  destruct (scale_iff m scale Hs) as [[Q1 Q2]|[-> Q2]]; [|cbn [bind]; unfold refused; tauto].
  apply refused_iff; [|right; tauto]. intros _. apply calm_bind; [exact Q1|]. intro sg.
  destruct (new_outputs _ _ _ _ _ _) as [[m1 pot] grd].
  destruct (model_init _ _ _ _ _ _ _) as [cfg st]. apply calm_bind; [apply calm_sheval2dfs_rec|]. intros [m2 s2].
  destruct (f2d_coefset_parse s); [apply calm_ok|apply calm_system].
Qed.
