(** Which calls of the functions of the C extension are refused. *)

From Coq Require Import Bool List Reals ZArith Lia Lra.
From Verif Require Import ArrModel LegendreModel SizeModel SizeProofs CoefModel ShEvalModel ShEvalSpec ShEvalProofs SpharModel TempModel
  TempSpec TempProofs FourierModel FourierProofs SunModel SunProofs BisectModel InterpModel ROrd TimeModel CoordModel GeoModel StridedModel
  StridedSpec StridedProofs StridedEvalModel NdModel NdSpec ArgSpec ArgProofs.
Import ListNotations.
Open Scope Z_scope.
Set Bullet Behavior "Strict Subproofs".

#[local] Hint Resolve calm_ok calm_oob calm_system calm_load calm_store calm_fetch calm_put calm_fetch_real calm_fetch_list
  calm_fetch_arr calm_fetch_pairs calm_put_list calm_fetch_args calm_P calm_V calm_set_V calm_get_coefs calm_store_potential
  calm_store_gradient calm_sheval_rec calm_shevaltemp_rec calm_sheval2dfs_rec : calm.

(** the checks which are passed and the one which is not *)
Ltac fails := first [left; reflexivity | right].
Ltac calm_alloc := match goal with |- calm (let '(_, _) := alloc ?m ?b ?j ?d in _) => destruct (alloc m b j d) as [? ?] eqn:? end.

Lemma bisect_refused m base junk v x side :
  refused (bisect_array m base junk v x side) <-> ~ ((side = 0 \/ side = 1) /\ exists n, shape v = [n]).
Proof.
  unfold bisect_array. apply refused_iff.
  - intros [Hs Hv]. apply one_dim in Hv. rewrite Hv.
    replace (negb (side =? 0) && negb (side =? 1)) with false by (destruct Hs as [-> | ->]; reflexivity).
    simpl negb. cbv iota. cbv beta. unfold bisect_item. calm.
  - destruct (Z.eqb_spec side 0), (Z.eqb_spec side 1); cbn [negb andb]; cbv iota; try apply bad;
      (destruct (Nat.eqb_spec (length (shape v)) 1) as [E|E]; cbn [negb]; [|apply bad]); right; (split; [tauto|now apply one_dim]).
Qed.

Lemma interp_refused m base junk t t0 c0 kind extrapolate :
  refused (interp_array m base junk t t0 c0 kind extrapolate) <->
  ~ exists n ds, shape t0 = [n] /\ shape c0 = ds ++ [n] /\ node_code kind n.
Proof.
  unfold interp_array. apply refused_iff.
  - intros (n & ds & E0 & E1 & K). unfold dim0. rewrite E0, E1, last_last, app_length. cbn [length hd]. rewrite !Nat.eqb_refl.
    replace ((length ds + 1 <? 1)%nat) with false by (symmetry; apply Nat.ltb_ge; lia). cbn [negb Nat.eqb].
    assert (C : exists k, check_kind kind = Ok k /\ (n <? min_nt k)%nat = false).
    { unfold node_code in K. unfold check_kind. destruct K as [[-> K]|[[-> | ->] K]]; cbn [Z.eqb Pos.eqb];
        (eexists; split; [reflexivity|apply Nat.ltb_ge; exact K]). }
    destruct C as (k & -> & C). cbn [bind]. rewrite C. unfold interp_item, interp_eval_item, fill_item. calm.
  - assert (C : check_kind kind = Err ValueError \/ exists k, check_kind kind = Ok k /\ forall n, (min_nt k <= n)%nat -> node_code kind n).
    { unfold check_kind, node_code. destruct (Z.eqb_spec kind 0); [right; eexists; split; [reflexivity|simpl; auto]|].
      destruct (Z.eqb_spec kind 1); [right; eexists; split; [reflexivity|simpl; auto]|].
      destruct (Z.eqb_spec kind 17); [right; eexists; split; [reflexivity|simpl; auto]|]. auto. }
    destruct C as [Ek|(k & Ek & Cn)]; rewrite Ek; [apply bad|]. cbn [bind].
    destruct (Nat.eqb_spec (length (shape t0)) 1) as [E0|]; [|apply bad]. apply one_dim in E0. destruct E0 as (n & E0). unfold dim0. rewrite E0.
    destruct (Nat.ltb_spec (length (shape c0)) 1) as [|E1]; [apply bad|]. destruct (last1 _ E1) as (ds & a & E2). rewrite E2, last_last.
    cbn [hd negb]. destruct (Nat.eqb_spec n a) as [<-|]; [|apply bad]. cbn [negb].
    destruct (Nat.ltb_spec n (min_nt k)); [apply bad|]. right. exists n, ds. auto.
Qed.

Lemma legendre_refused m bp bd junk lat degree buf init :
  refused (legendre_array m bp bd junk lat degree buf init) <-> ~ 0 <= degree.
Proof.
  unfold legendre_array. apply refused_iff.
  - intro H. destruct (Z.ltb_spec degree 0); [lia|]. cbv zeta. unfold legendre_item. calm.
  - destruct (Z.ltb_spec degree 0); [apply bad|]. right. lia.
Qed.
Lemma loncossin_refused m base junk lon degree fast init :
  refused (loncossin_array m base junk lon degree fast init) <-> ~ 0 <= degree.
Proof.
  unfold loncossin_array. apply refused_iff.
  - intro H. destruct (Z.ltb_spec degree 0); [lia|]. cbv zeta. unfold loncossin_item. calm.
  - destruct (Z.ltb_spec degree 0); [apply bad|]. right. lia.
Qed.
Lemma relradpow_refused m base junk rad degree reference internal init :
  refused (relradpow_array m base junk rad degree reference internal init) <-> ~ (0 <= degree /\ (0 < reference)%R).
Proof.
  unfold relradpow_array. apply refused_iff.
  - intros [H K]. destruct (Z.ltb_spec degree 0); [lia|]. destruct (Rleb reference 0) eqn:E; [apply Rleb_le in E; lra|].
    cbv zeta. unfold relradpow_item. calm.
  - destruct (Z.ltb_spec degree 0); [apply bad|]. destruct (Rleb reference 0) eqn:E; [apply bad|]. right. split; [lia|].
    apply Rnot_le_lt. intro K. apply Rleb_le in K. congruence.
Qed.

Lemma fourier2d_refused m base junk t1 t2 c0 min1 min2 s1 s2 mem :
  refused (fourier2d_array m base junk t1 t2 c0 min1 min2 s1 s2 mem) <->
  ~ (shape t1 = shape t2 /\ exists ds n1 n2, shape c0 = ds ++ [n1; n2; 2%nat]).
Proof.
  unfold fourier2d_array. apply refused_iff.
  - intros (E & ds & n1 & n2 & E0). rewrite (dimn c0 ds _ 1 2%nat E0) by (simpl; auto). rewrite E0, app_length. cbn [length].
    replace ((length ds + 3 <? 3)%nat) with false by (symmetry; apply Nat.ltb_ge; lia).
    rewrite (proj2 (same_dims_spec _ _) E). cbn [negb Nat.eqb]. cbv zeta. unfold fourier2d_item, single_time_item. calm.
  - destruct (Nat.ltb_spec (length (shape c0)) 3) as [|L]; [apply bad|]. destruct (last3 _ L) as (ds & n1 & n2 & k & E0).
    rewrite (dimn c0 ds _ 1 k E0) by (simpl; auto). destruct (same_dims (shape t1) (shape t2)) eqn:S; [|apply bad]. cbn [negb].
    destruct (Nat.eqb_spec k 2) as [->|]; [|apply bad]. right. split; [now apply same_dims_spec|eauto].
Qed.

(** ** The spherical harmonics *)

Lemma prefix_pairs a : (2 <= length (shape a))%nat -> exists ds n k, shape a = ds ++ [n; k] /\ drop_last 2 (shape a) = ds /\
  dim_last 2 a = n /\ dim_last 1 a = k.
Proof.
  intro L. destruct (last2 _ L) as (ds & n & k & E). exists ds, n, k. split; [exact E|]. split; [rewrite E; apply (dropn ds [n; k])|].
  split; eapply dimn; try exact E; simpl; auto.
Qed.
Lemma prefix_row a : (1 <= length (shape a))%nat -> exists ds n, shape a = ds ++ [n] /\ drop_last 1 (shape a) = ds /\ dim_last 1 a = n.
Proof.
  intro L. destruct (last1 _ L) as (ds & n & E). exists ds, n. split; [exact E|]. split; [rewrite E; apply (dropn ds [n])|].
  eapply dimn; try exact E; simpl; auto.
Qed.
Lemma app_inj_2 (a b : list nat) x y u v : a ++ [x; y] = b ++ [u; v] -> a = b /\ x = u /\ y = v.
Proof.
  intro E. change (a ++ [x; y]) with (a ++ [x] ++ [y]) in E. change (b ++ [u; v]) with (b ++ [u] ++ [v]) in E.
  rewrite !app_assoc in E. apply app_inj_tail in E. destruct E as [E ->]. apply app_inj_tail in E. tauto.
Qed.
Lemma huge_in a ds l n : not_huge a -> shape a = ds ++ l -> In n l -> 0 <= Z.of_nat n < 2 ^ 50.
Proof. intros H E I. split; [lia|]. apply H. rewrite E. apply in_or_app. auto. Qed.

Lemma spharpot_refused m base junk rad coef lp rrp lcs degree : not_huge coef -> not_huge lp ->
  refused (spharpot_array m base junk rad coef lp rrp lcs degree) <->
  ~ exists dc dl dr ds, pairs_shape coef dc /\ row_shape lp dl /\ row_shape rrp dr /\ pairs_shape lcs ds /\
      agree [shape rad; dc; dl; dr; ds].
Proof.
  intros Hc Hl. unfold spharpot_array.
  assert (G : (Nat.ltb (length (shape coef)) 2 || Nat.ltb (length (shape lp)) 1 || Nat.ltb (length (shape rrp)) 1 ||
                Nat.ltb (length (shape lcs)) 2) = true /\
              ~ (2 <= length (shape coef) /\ 1 <= length (shape lp) /\ 1 <= length (shape rrp) /\ 2 <= length (shape lcs))%nat \/
              (Nat.ltb (length (shape coef)) 2 || Nat.ltb (length (shape lp)) 1 || Nat.ltb (length (shape rrp)) 1 ||
                Nat.ltb (length (shape lcs)) 2) = false /\
              (2 <= length (shape coef) /\ 1 <= length (shape lp) /\ 1 <= length (shape rrp) /\ 2 <= length (shape lcs))%nat).
  { destruct (Nat.ltb_spec (length (shape coef)) 2), (Nat.ltb_spec (length (shape lp)) 1), (Nat.ltb_spec (length (shape rrp)) 1),
      (Nat.ltb_spec (length (shape lcs)) 2); simpl; solve [left; split; [reflexivity|lia]|right; split; [reflexivity|lia]]. }
  destruct G as [[-> G]|[-> G]].
  { split; [|reflexivity]. intros _ (dc & dl & dr & ds & (nc & E1 & _) & (nl & E2 & _) & (nr & E3 & _) & (ns & E4 & _) & _).
    apply G. rewrite E1, E2, E3, E4, !app_length. simpl. lia. }
  destruct G as (L1 & L2 & L3 & L4).
  destruct (prefix_pairs coef L1) as (dc & nc & kc & E1 & -> & -> & ->). destruct (prefix_row lp L2) as (dl & nl & E2 & -> & ->).
  destruct (prefix_row rrp L3) as (dr & nr & E3 & -> & ->). destruct (prefix_pairs lcs L4) as (ds & ns & ks & E4 & -> & -> & ->).
  assert (S20 : 0 <= Z.of_nat nc < 2 ^ 50) by (eapply (huge_in coef); [assumption|eassumption|left; reflexivity]).
  destruct (size_small (Z.of_nat nc) S20) as [S1 S2].
  assert (S30 : 0 <= Z.of_nat nl < 2 ^ 50) by (eapply (huge_in lp); [assumption|eassumption|left; reflexivity]).
  destruct (size_small (Z.of_nat nl) S30) as [T1 S3].
  assert (V : (exists dc0 dl0 dr0 ds0, pairs_shape coef dc0 /\ row_shape lp dl0 /\ row_shape rrp dr0 /\ pairs_shape lcs ds0 /\
      agree [shape rad; dc0; dl0; dr0; ds0]) <->
    List.Forall (fun d => 0 <= d) [size_to_degree (Z.of_nat nc); size_to_degree (Z.of_nat nl); Z.of_nat nr - 1; Z.of_nat ns - 1] /\
    agree [shape rad; dc; dl; dr; ds] /\ List.Forall (fun d => d = 2%nat) [kc; ks]).
  { split.
    - intros (dc0 & dl0 & dr0 & ds0 & (nc0 & F1 & G1) & (nl0 & F2 & G2) & (nr0 & F3 & G3) & (ns0 & F4 & G4) & A).
      rewrite E1 in F1. rewrite E2 in F2. rewrite E3 in F3. rewrite E4 in F4. apply app_inj_2 in F1, F4. apply app_inj_tail in F2, F3.
      destruct F1 as (<- & <- & ->), F2 as (<- & <-), F3 as (<- & <-), F4 as (<- & <- & ->).
      split; [|split; [exact A|repeat constructor]]. constructor; [apply S2; lia|constructor; [apply S3; lia|constructor; [lia|constructor; [lia|constructor]]]].
    - intros (F & A & K). rewrite !List.Forall_cons_iff in K. destruct K as (Kc & Ks & _). subst kc ks.
      rewrite !List.Forall_cons_iff in F. destruct F as (F1 & F2 & F3 & F4 & _).
      apply S2 in F1. apply S3 in F2.
      exists dc, dl, dr, ds. split; [exists nc; split; [exact E1|lia]|]. split; [exists nl; split; [exact E2|lia]|].
      split; [exists nr; split; [exact E3|lia]|]. split; [exists ns; split; [exact E4|lia]|]. exact A. }
  rewrite V.
  destruct (applied_iff [size_to_degree (Z.of_nat nc); size_to_degree (Z.of_nat nl); Z.of_nat nr - 1; Z.of_nat ns - 1] degree)
    as [[(d & ->) D]|[-> D]]; [discriminate|exists (size_to_degree (Z.of_nat nc)); split; [left; reflexivity|exact S1]| |].
  - cbn [bind]. destruct (output_shape_iff [shape rad; dc; dl; dr; ds] [kc; ks]) as [[(o & ->) O]|[-> O]]; [discriminate| |].
    + cbn [bind]. apply refused_iff; [|right; tauto]. intros _. unfold spharpot_item. calm.
    + cbn [bind]. unfold refused. tauto.
  - cbn [bind]. unfold refused. tauto.
Qed.

Lemma sphargrd_refused m base junk lat coef lp ldp rrp lcs internal degree : not_huge coef -> not_huge lp -> not_huge ldp ->
  refused (sphargrd_array m base junk lat coef lp ldp rrp lcs internal degree) <->
  ~ exists dc dl dd dr ds, pairs_shape coef dc /\ row_shape lp dl /\ row_shape ldp dd /\ row_shape rrp dr /\ pairs_shape lcs ds /\
      agree [shape lat; dc; dl; dd; dr; ds].
Proof.
  intros Hc Hl Hd. unfold sphargrd_array.
  set (b := Nat.ltb (length (shape coef)) 2 || Nat.ltb (length (shape lp)) 1 || Nat.ltb (length (shape ldp)) 1 ||
              Nat.ltb (length (shape rrp)) 1 || Nat.ltb (length (shape lcs)) 2).
  assert (G : b = true /\
              ~ (2 <= length (shape coef) /\ 1 <= length (shape lp) /\ 1 <= length (shape ldp) /\ 1 <= length (shape rrp) /\ 2 <= length (shape lcs))%nat \/
              b = false /\
              (2 <= length (shape coef) /\ 1 <= length (shape lp) /\ 1 <= length (shape ldp) /\ 1 <= length (shape rrp) /\ 2 <= length (shape lcs))%nat).
  { unfold b. destruct (Nat.ltb_spec (length (shape coef)) 2), (Nat.ltb_spec (length (shape lp)) 1), (Nat.ltb_spec (length (shape ldp)) 1),
      (Nat.ltb_spec (length (shape rrp)) 1), (Nat.ltb_spec (length (shape lcs)) 2); simpl;
      solve [left; split; [reflexivity|lia]|right; split; [reflexivity|lia]]. }
  clearbody b. destruct G as [[-> G]|[-> G]].
  { split; [|reflexivity]. intros _ (dc & dl & dd & dr & ds & (nc & E1 & _) & (nl & E2 & _) & (nd & E5 & _) & (nr & E3 & _) & (ns & E4 & _) & _).
    apply G. rewrite E1, E2, E3, E4, E5, !app_length. simpl. lia. }
  destruct G as (L1 & L2 & L5 & L3 & L4).
  destruct (prefix_pairs coef L1) as (dc & nc & kc & E1 & -> & -> & ->). destruct (prefix_row lp L2) as (dl & nl & E2 & -> & ->).
  destruct (prefix_row ldp L5) as (dd & nd & E5 & -> & ->).
  destruct (prefix_row rrp L3) as (dr & nr & E3 & -> & ->). destruct (prefix_pairs lcs L4) as (ds & ns & ks & E4 & -> & -> & ->).
  assert (S20 : 0 <= Z.of_nat nc < 2 ^ 50) by (eapply (huge_in coef); [assumption|eassumption|left; reflexivity]).
  destruct (size_small (Z.of_nat nc) S20) as [S1 S2].
  assert (S30 : 0 <= Z.of_nat nl < 2 ^ 50) by (eapply (huge_in lp); [assumption|eassumption|left; reflexivity]).
  destruct (size_small (Z.of_nat nl) S30) as [T1 S3].
  assert (S50 : 0 <= Z.of_nat nd < 2 ^ 50) by (eapply (huge_in ldp); [assumption|eassumption|left; reflexivity]).
  destruct (size_small (Z.of_nat nd) S50) as [T2 S5].
  set (degs := [size_to_degree (Z.of_nat nc); size_to_degree (Z.of_nat nl); size_to_degree (Z.of_nat nd); Z.of_nat nr - 1; Z.of_nat ns - 1]).
  assert (V : (exists dc0 dl0 dd0 dr0 ds0, pairs_shape coef dc0 /\ row_shape lp dl0 /\ row_shape ldp dd0 /\ row_shape rrp dr0 /\ pairs_shape lcs ds0 /\
      agree [shape lat; dc0; dl0; dd0; dr0; ds0]) <->
    List.Forall (fun d => 0 <= d) degs /\
    agree [shape lat; dc; dl; dd; dr; ds] /\ List.Forall (fun d => d = 2%nat) [kc; ks]).
  { unfold degs. split.
    - intros (dc0 & dl0 & dd0 & dr0 & ds0 & (nc0 & F1 & G1) & (nl0 & F2 & G2) & (nd0 & F5 & G5) & (nr0 & F3 & G3) & (ns0 & F4 & G4) & A).
      rewrite E1 in F1. rewrite E2 in F2. rewrite E3 in F3. rewrite E4 in F4. rewrite E5 in F5. apply app_inj_2 in F1, F4. apply app_inj_tail in F2, F3, F5.
      destruct F1 as (<- & <- & ->), F2 as (<- & <-), F3 as (<- & <-), F4 as (<- & <- & ->), F5 as (<- & <-).
      split; [|split; [exact A|repeat constructor]]. constructor; [apply S2; lia|constructor; [apply S3; lia|constructor; [apply S5; lia|constructor; [lia|constructor; [lia|constructor]]]]].
    - intros (F & A & K). rewrite !List.Forall_cons_iff in K. destruct K as (Kc & Ks & _). subst kc ks.
      rewrite !List.Forall_cons_iff in F. destruct F as (F1 & F2 & F5 & F3 & F4 & _).
      apply S2 in F1. apply S3 in F2. apply S5 in F5.
      exists dc, dl, dd, dr, ds. split; [exists nc; split; [exact E1|lia]|]. split; [exists nl; split; [exact E2|lia]|].
      split; [exists nd; split; [exact E5|lia]|].
      split; [exists nr; split; [exact E3|lia]|]. split; [exists ns; split; [exact E4|lia]|]. exact A. }
  rewrite V.
  destruct (applied_iff degs degree)
    as [[(d & ->) D]|[-> D]]; [discriminate|exists (size_to_degree (Z.of_nat nc)); split; [left; reflexivity|exact S1]| |].
  - cbn [bind]. destruct (output_shape_iff [shape lat; dc; dl; dd; dr; ds] [kc; ks]) as [[(o & ->) O]|[-> O]]; [discriminate| |].
    + cbn [bind]. apply refused_iff; [|right; tauto]. intros _. unfold sphargrd_item. calm.
    + cbn [bind]. unfold refused. tauto.
  - cbn [bind]. unfold refused. tauto.
Qed.

(** ** The Sun *)

Lemma largest_in : forall arrs s, largest_shape s arrs = s \/ exists a, In a arrs /\ largest_shape s arrs = shape a.
Proof.
  induction arrs as [|a arrs IH]; intro s; [left; reflexivity|]. cbn [largest_shape].
  destruct (IH (if Nat.ltb (length s) (length (shape a)) then shape a else s)) as [E|(a' & I & E)].
  - rewrite E. destruct (Nat.ltb _ _); [right; exists a; simpl; auto|auto].
  - right. exists a'. simpl. auto.
Qed.
Lemma largest_nil : forall arrs, largest_shape [] arrs = [] -> List.Forall (fun a => shape a = []) arrs.
Proof.
  assert (G : forall arrs s, (length s <= length (largest_shape s arrs))%nat).
  { induction arrs as [|a arrs IH]; intro s; [reflexivity|]. cbn [largest_shape].
    destruct (Nat.ltb_spec (length s) (length (shape a))); [transitivity (length (shape a)); [lia|apply IH]|apply IH]. }
  induction arrs as [|a arrs IH]; intro E; [constructor|]. cbn [largest_shape length] in E.
  destruct (shape a) as [|d l] eqn:S; cbn [length Nat.ltb Nat.leb] in E.
  - constructor; auto.
  - pose proof (G arrs (d :: l)) as K. simpl in E, K. rewrite E in K. simpl in K. lia.
Qed.
Lemma largest_scalar_or D : forall arrs s, (s = [] \/ s = D) -> List.Forall (scalar_or D) arrs ->
  largest_shape s arrs = D \/ largest_shape s arrs = [] /\ s = [] /\ List.Forall (fun a => shape a = []) arrs.
Proof.
  induction arrs as [|a arrs IH]; intros s Hs F; [destruct Hs as [-> | ->]; [right|left]; auto|]. cbn [largest_shape].
  inversion F as [|? ? Ha F']; subst. unfold scalar_or in Ha.
  destruct (Nat.ltb_spec (length s) (length (shape a))) as [L|L].
  - destruct (IH (shape a) Ha F') as [E|(E & E' & E'')]; [left; exact E|]. rewrite E' in L. simpl in L. lia.
  - destruct (IH s Hs F') as [E|(E & E' & E'')]; [left; exact E|]. right. repeat split; auto. constructor; auto.
    rewrite E' in L. destruct (shape a); [reflexivity|simpl in L; lia].
Qed.

Lemma sun_refused calc m base junk first others :
  refused (sun_array calc m base junk first others) <->
  ~ exists D, (length D <= 15)%nat /\ List.Forall (scalar_or D) (first :: others).
Proof.
  unfold sun_array. set (dims := largest_shape (shape first) others). apply refused_iff.
  - intros (D & L & F). inversion F as [|? ? Hf Fo]; subst.
    assert (E : dims = D \/ dims = [] /\ List.Forall (fun a => shape a = []) (first :: others)).
    { destruct (largest_scalar_or D others (shape first) Hf Fo) as [E|(E & E' & E'')]; [left; exact E|right; split; [exact E|constructor; auto]]. }
    assert (K : (Nat.ltb (MAX_OUT_ARRAY_NDIM - 1) (length dims)) = false /\
      existsb (fun a => Nat.ltb 0 (length (shape a)) && check_equal_shape (shape a) dims) (first :: others) = false).
    { split.
      - apply Nat.ltb_ge. destruct E as [-> | (-> & _)]; [exact L|simpl; lia].
      - destruct (existsb _ _) eqn:X; [|reflexivity]. apply existsb_exists in X. destruct X as (a & Ia & X). apply andb_true_iff in X.
        destruct X as [X1 X2]. apply Nat.ltb_lt in X1. destruct E as [-> | (_ & E)].
        + rewrite Forall_forall in F. destruct (F a Ia) as [E|E]; [rewrite E in X1; simpl in X1; lia|].
          apply check_shape_spec in E. congruence.
        + rewrite Forall_forall in E. rewrite (E a Ia) in X1. simpl in X1. lia. }
    destruct K as [-> ->]. unfold sun_item, put_sun. calm.
  - destruct (Nat.ltb_spec (MAX_OUT_ARRAY_NDIM - 1) (length dims)) as [|L]; [apply bad|].
    destruct (existsb (fun a => Nat.ltb 0 (length (shape a)) && check_equal_shape (shape a) dims) (first :: others)) eqn:X; [apply bad|].
    right. exists dims. split; [exact L|]. apply Forall_forall. intros a Ia. unfold scalar_or.
    destruct (shape a) as [|d l] eqn:S; [auto|right]. apply check_shape_spec. destruct (check_equal_shape (d :: l) dims) eqn:C; [|reflexivity].
    exfalso. assert (Y : existsb (fun a => Nat.ltb 0 (length (shape a)) && check_equal_shape (shape a) dims) (first :: others) = true).
    { apply existsb_exists. exists a. rewrite S, C. auto. }
    congruence.
Qed.

(** ** The conversions *)

Lemma time_refused f m base junk a : refused (time_array f m base junk a) <-> ~ (length (shape a) <= 15)%nat.
Proof.
  unfold time_array. apply refused_iff.
  - intro H. destruct (Nat.ltb_spec (MAX_OUT_ARRAY_NDIM - 1) (length (shape a))) as [L|_]; [simpl in L; lia|].
    destruct (new_array m base junk (shape a)) as [m1 out]. pose proof (calm_recurse (time_item f)) as C.
    assert (C' : calm (recurse (time_item f) (shape a) [a] out m1)).
    { apply C. intros ins o m'. unfold time_item. destruct ins as [|x [|]]; try apply calm_oob. destruct (load m' (data x)) eqn:E; [apply calm_store|].
      pose proof (calm_load m' (data x)) as K. rewrite E in K. intro X. apply K. congruence. }
    destruct (recurse _ _ _ _ _); [apply calm_ok|]. intro X. apply C'. congruence.
  - destruct (Nat.ltb_spec (MAX_OUT_ARRAY_NDIM - 1) (length (shape a))) as [L|L]; [apply bad|right; exact L].
Qed.

Lemma vectors_iff a : check_vectors a = Ok tt /\ vectors_shape (shape a) \/ check_vectors a = Err ValueError /\ ~ vectors_shape (shape a).
Proof.
  unfold check_vectors. destruct (shape a) as [|d l] eqn:S.
  - right. split; [reflexivity|]. intros (ds & E & _). destruct ds; discriminate.
  - rewrite <- S. destruct (last1 (shape a)) as (ds & n & E); [rewrite S; simpl; lia|]. rewrite E, last_last, app_length. simpl length.
    destruct (Nat.ltb_spec MAX_OUT_ARRAY_NDIM (length ds + 1)) as [L|L].
    + right. split; [reflexivity|]. intros (ds' & E' & L'). apply app_inj_tail in E'. destruct E' as [<- _]. unfold MAX_OUT_ARRAY_NDIM in L. lia.
    + destruct (Nat.eqb_spec n 3) as [->|N]; cbn [negb].
      * left. split; [reflexivity|]. exists ds. split; [reflexivity|unfold MAX_OUT_ARRAY_NDIM in L; lia].
      * right. split; [reflexivity|]. intros (ds' & E' & _). apply app_inj_tail in E'. tauto.
Qed.
Lemma differ_spec : forall a b, length a = length b -> (vrot_dims_differ a b = false <-> a = b).
Proof.
  induction a as [|x a IH]; destruct b as [|y b]; simpl; intro L; try discriminate; [tauto|].
  destruct (Nat.eqb_spec x y) as [->|N]; [rewrite IH by lia; split; congruence|]. split; [discriminate|congruence].
Qed.
Lemma angles_iff a b : vectors_shape (shape a) ->
  vrot_arr_check a b = Ok tt /\ angles_shape (shape b) (shape a) \/
  vrot_arr_check a b = Err ValueError /\ ~ angles_shape (shape b) (shape a).
Proof.
  intros (ds & E & _). unfold vrot_arr_check, angles_shape. rewrite E. rewrite removelast_last, app_length. simpl (length [_]).
  destruct (shape b) as [|d l] eqn:S; [left; split; [reflexivity|auto]|]. rewrite <- S.
  replace ((0 <? length (shape b))%nat) with true by (rewrite S; reflexivity).
  destruct (Nat.eqb_spec (length ds + 1) (length (shape b) + 1)) as [L|L]; cbn [negb].
  - destruct (vrot_dims_differ ds (shape b)) eqn:D.
    + right. split; [reflexivity|]. intros [X|X]; [congruence|]. apply app_inj_tail in X. destruct X as [X _].
      rewrite (proj2 (differ_spec ds (shape b) ltac:(lia))) in D; congruence.
    + left. split; [reflexivity|]. right. apply differ_spec in D; [congruence|lia].
  - right. split; [reflexivity|]. intros [X|X]; [congruence|]. apply app_inj_tail in X. destruct X as [X _]. rewrite X in L. lia.
Qed.
Lemma new_double m base junk dims : vectors_shape dims -> exists r, get_new_double_array m base junk dims 3 = Ok r.
Proof.
  intros (ds & -> & L). unfold get_new_double_array. rewrite app_length. simpl length.
  destruct (Nat.ltb_spec MAX_OUT_ARRAY_NDIM (length ds + 1)); [unfold MAX_OUT_ARRAY_NDIM in *; lia|].
  destruct (ds ++ [3%nat]) eqn:E; eauto.
Qed.

Lemma convert_refused m base junk a ci co :
  refused (convert_array m base junk a ci co) <-> ~ (coord_code ci /\ coord_code co /\ vectors_shape (shape a)).
Proof.
  unfold convert_array.
  destruct (check_ct ci) as [[(c1 & ->) H1]|[-> H1]]; [|cbn [bind]; unfold refused; tauto].
  destruct (check_ct co) as [[(c2 & ->) H2]|[-> H2]]; [|cbn [bind]; unfold refused; tauto].
  destruct (vectors_iff a) as [[-> H3]|[-> H3]]; [|cbn [bind]; unfold refused; tauto]. cbn [bind].
  apply refused_iff; [|right; tauto]. intros _. destruct (ct_eqb c1 c2); [apply calm_ok|].
  destruct (new_double m base junk _ H3) as (r & ->). unfold convert_item. cbn [bind]. calm.
Qed.
Lemma sph2geod_refused m base junk a b :
  refused (vrot_sph2geod_array m base junk a b) <-> ~ (vectors_shape (shape a) /\ angles_shape (shape b) (shape a)).
Proof.
  unfold vrot_sph2geod_array.
  destruct (vectors_iff a) as [[-> H3]|[-> H3]]; [|cbn [bind]; unfold refused; tauto].
  destruct (angles_iff a b H3) as [[-> H4]|[-> H4]]; [|cbn [bind]; unfold refused; tauto]. cbn [bind].
  apply refused_iff; [|right; tauto]. intros _.
  destruct (new_double m base junk _ H3) as (r & ->). unfold sph2geod_item. cbn [bind]. calm.
Qed.
Lemma sph2cart_refused m base junk a b c :
  refused (vrot_sph2cart_array m base junk a b c) <->
  ~ (vectors_shape (shape a) /\ angles_shape (shape b) (shape a) /\ angles_shape (shape c) (shape a)).
Proof.
  unfold vrot_sph2cart_array.
  destruct (vectors_iff a) as [[-> H3]|[-> H3]]; [|cbn [bind]; unfold refused; tauto].
  destruct (angles_iff a b H3) as [[-> H4]|[-> H4]]; [|cbn [bind]; unfold refused; tauto].
  destruct (angles_iff a c H3) as [[-> H5]|[-> H5]]; [|cbn [bind]; unfold refused; tauto]. cbn [bind].
  apply refused_iff; [|right; tauto]. intros _.
  destruct (new_double m base junk _ H3) as (r & ->). unfold sph2cart_item. cbn [bind]. calm.
Qed.
Lemma cart2sph_refused m base junk a b c :
  refused (vrot_cart2sph_array m base junk a b c) <->
  ~ (vectors_shape (shape a) /\ angles_shape (shape b) (shape a) /\ angles_shape (shape c) (shape a)).
Proof.
  unfold vrot_cart2sph_array.
  destruct (vectors_iff a) as [[-> H3]|[-> H3]]; [|cbn [bind]; unfold refused; tauto].
  destruct (angles_iff a b H3) as [[-> H4]|[-> H4]]; [|cbn [bind]; unfold refused; tauto].
  destruct (angles_iff a c H3) as [[-> H5]|[-> H5]]; [|cbn [bind]; unfold refused; tauto]. cbn [bind].
  apply refused_iff; [|right; tauto]. intros _.
  destruct (new_double m base junk _ H3) as (r & ->). unfold cart2sph_item. cbn [bind]. calm.
Qed.
