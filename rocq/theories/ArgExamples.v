(** Examples and counterexamples of the acceptance of the arguments. *)

From Coq Require Import Bool List Reals ZArith Lia Lra.
From Verif Require Import ArrModel LegendreModel CoefModel ShEvalModel ShEvalSpec TempModel FourierModel StridedModel StridedSpec
  StridedEvalModel StridedEvalSpec NdModel NdSpec ArgSpec ArgProofs ArgFunProofs ArgEvalProofs.
Import ListNotations.
Open Scope Z_scope.
Set Bullet Behavior "Strict Subproofs".

(** a C-contiguous array of the given shape *)
Definition ex_arr (dims : list nat) : arrd := {| data := 0; shape := dims; stride := c_strides dims |}.

Lemma ex_node_code : node_code 17 2 /\ ~ node_code 17 1 /\ ~ node_code 2 5.
Proof. unfold node_code. repeat split; lia. Qed.

Lemma ex_agree : agree [[]; [2%nat; 5%nat]; [2%nat]] /\ ~ agree [[2%nat; 5%nat]; [5%nat]].
Proof.
  split.
  - exists [2%nat; 5%nat]. repeat constructor; [exists [2%nat; 5%nat]|exists []|exists [5%nat]]; reflexivity.
  - intros (D & H). rewrite !List.Forall_cons_iff in H. destruct H as ((c & E) & (c' & E') & _). rewrite E in E'. discriminate.
Qed.

Lemma ex_bisect_arg m base junk : refused (bisect_array m base junk (ex_arr [3%nat; 2%nat]) (ex_arr []) 0) /\
  refused (bisect_array m base junk (ex_arr [3%nat]) (ex_arr []) 2) /\ ~ refused (bisect_array m base junk (ex_arr [3%nat]) (ex_arr []) 1).
Proof.
  rewrite !bisect_refused. repeat split.
  - intros (_ & n & E). discriminate.
  - intros ([E|E] & _); discriminate.
  - intro N. apply N. split; [auto|exists 3%nat; reflexivity].
Qed.

Lemma ex_pairs_shape : pairs_shape (ex_arr [4%nat; 3%nat; 2%nat]) [4%nat] /\ row_shape (ex_arr [4%nat; 3%nat]) [4%nat] /\
  not_huge (ex_arr [4%nat; 3%nat; 2%nat]) /\ ~ (exists ds, pairs_shape (ex_arr [4%nat; 0%nat; 2%nat]) ds).
Proof.
  split; [exists 3%nat; split; [reflexivity|lia]|]. split; [exists 3%nat; split; [reflexivity|lia]|]. split.
  - intros n. simpl. intros [<-|[<-|[<-|[]]]]; reflexivity.
  - intros (ds & n & E & H). change (shape _) with ([4%nat] ++ [0%nat; 2%nat]) in E. apply app_inj_2 in E. lia.
Qed.

Lemma ex_scale : has_strides (Some (ex_arr [3%nat])) /\ scale_shape (Some (ex_arr [3%nat])) /\ ~ scale_shape (Some (ex_arr [2%nat])).
Proof. split; [reflexivity|]. split; [right; reflexivity|]. intros [E|E]; discriminate. Qed.

Lemma ex_sun_arg : (exists D, (length D <= 15)%nat /\ List.Forall (scalar_or D) [ex_arr []; ex_arr [4%nat]; ex_arr []; ex_arr [4%nat]; ex_arr []]) /\
  ~ (exists D, (length D <= 15)%nat /\ List.Forall (scalar_or D) [ex_arr [1%nat]; ex_arr [4%nat]; ex_arr []; ex_arr []; ex_arr []]).
Proof.
  split.
  - exists [4%nat]. split; [simpl; lia|]. unfold scalar_or. repeat (constructor; [solve [left; reflexivity|right; reflexivity]|]). constructor.
  - intros (D & _ & H). rewrite !List.Forall_cons_iff in H. destruct H as ([E|E] & [F|F] & _); simpl in *; congruence.
Qed.

(** ** What is not checked *)

(** the last axis of the positions of sheval *)
Lemma sheval_axis_refuted :
  ~ (forall m bp bg junk x coef ci co mode internal degree sp scale mem, not_huge coef -> has_strides scale ->
     (refused (sheval_array m bp bg junk x coef ci co mode internal degree sp scale mem) <->
      ~ (coord_code ci /\ coord_code co /\ eval_code mode /\ scale_shape scale /\
         exists dx dc, shape x = dx ++ [3%nat] /\ pairs_shape coef dc /\ agree [dx; dc]))).
Proof.
  intro H. set (z := fun _ : nat => 0%R). set (zz := fun _ : nat => (0%R, 0%R)).
  specialize (H (fun _ => None) 0 0 (fun _ => 0%R) (ex_arr [2%nat]) (ex_arr [1%nat; 2%nat]) 1 1 1 true (-1) 1%R None (z, z, zz, z, z, z)).
  assert (N : not_huge (ex_arr [1%nat; 2%nat])) by (intros n; simpl; intros [<-|[<-|[]]]; reflexivity).
  specialize (H N I). rewrite sheval_refused in H by (auto; exact I). destruct H as [_ H]. apply H.
  - intros (_ & _ & _ & _ & dx & dc & E & _). destruct dx as [|a [|]]; discriminate.
  - split; [right; left; reflexivity|]. split; [right; left; reflexivity|]. split; [left; reflexivity|]. split; [exact I|].
    exists [], 2%nat, []. split; [reflexivity|]. split; [exists 1%nat; split; [reflexivity|lia]|].
    exists []. repeat constructor; exists []; reflexivity.
Qed.

(** the orders and the number of times of the coefficients of shevaltemp *)
Lemma shevaltemp_incomplete s m bp bg junk internal sp mem : set_sizes s -> ~ set_complete s ->
  let call := shevaltemp_array m bp bg junk (ex_arr []) (ex_arr [3%nat]) [s] 1 1 1 internal sp None mem in
  ~ refused call.
Proof.
  intros Hs Hn call. unfold call. rewrite shevaltemp_refused by exact I. intro H. apply H.
  split; [right; left; reflexivity|]. split; [right; left; reflexivity|]. split; [left; reflexivity|]. split; [exact I|].
  split; [simpl; lia|]. split; [repeat constructor; exact Hs|]. exists []. split; [reflexivity|]. exists []. repeat constructor; exists []; reflexivity.
Qed.
Lemma shevaltemp_sets_refuted :
  ~ (forall m bp bg junk t x sets ci co mode internal sp scale mem, has_strides scale ->
     (refused (shevaltemp_array m bp bg junk t x sets ci co mode internal sp scale mem) <->
      ~ (coord_code ci /\ coord_code co /\ eval_code mode /\ scale_shape scale /\
         (1 <= length sets <= 16)%nat /\ List.Forall set_sizes sets /\ List.Forall set_complete sets /\
         exists dx, shape x = dx ++ [3%nat] /\ agree [shape t; dx]))).
Proof.
  intro H. set (z := fun _ : nat => 0%R). set (zz := fun _ : nat => (0%R, 0%R)).
  set (s := ([0%R], [[1%R]], [(1, 5)], 1) : set_args).
  specialize (H (fun _ => None) 0 0 (fun _ => 0%R) (ex_arr []) (ex_arr [3%nat]) [s] 1 1 1 true 1%R None (z, z, zz, z, z, z) I).
  assert (N : ~ set_complete s).
  { intros (_ & F). rewrite !List.Forall_cons_iff in F. destruct F as ((_ & F) & _). simpl in F. lia. }
  apply (shevaltemp_incomplete s (fun _ => None) 0 0 (fun _ => 0%R) true 1%R (z, z, zz, z, z, z)); [|exact N|].
  - split; [auto|]. split; [reflexivity|]. repeat constructor.
  - apply H. intros (_ & _ & _ & _ & _ & _ & F & _). rewrite List.Forall_cons_iff in F. tauto.
Qed.
Lemma ex_incomplete : set_sizes ([0%R], [[1%R]], [(1, 5)], 1) /\ ~ set_complete ([0%R], [[1%R]], [(1, 5)], 1) /\
  set_sizes ([0%R], [[1%R]], [(1, 1)], 2) /\ ~ set_complete ([0%R], [[1%R]], [(1, 1)], 2) /\
  set_sizes ([0%R; 1%R], [[1%R; 2%R]], [(1, -1)], 2) /\ set_complete ([0%R; 1%R], [[1%R; 2%R]], [(1, -1)], 2).
Proof.
  repeat split; auto; try (repeat constructor; fail).
  - intros (_ & F). rewrite !List.Forall_cons_iff in F. destruct F as ((_ & F) & _). simpl in F. lia.
  - intros (F & _). simpl in F. lia.
  - simpl. lia.
  - repeat constructor; simpl; lia.
Qed.

(** the numbers of the coefficients of sheval2dfs *)
Lemma sheval2dfs_sizes_refuted :
  ~ (forall m bp bg junk t1 t2 x s ci co mode internal sp scale mem fmem, has_strides scale ->
     (refused (sheval2dfs_array m bp bg junk t1 t2 x s ci co mode internal sp scale mem fmem) <->
      ~ (coord_code ci /\ coord_code co /\ eval_code mode /\ scale_shape scale /\
         length (fs_ab s) = length (fs_nm s) /\
         exists dx, shape x = dx ++ [3%nat] /\ agree [shape t1; shape t2; dx]))).
Proof.
  intro H. set (z := fun _ : nat => 0%R). set (zz := fun _ : nat => (0%R, 0%R)).
  set (s := {| fs_ab := [zz]; fs_nm := []; fs_min1 := 0; fs_size1 := 1%nat; fs_min2 := 0; fs_size2 := 1%nat; fs_scale1 := 1%R; fs_scale2 := 1%R |}).
  specialize (H (fun _ => None) 0 0 (fun _ => 0%R) (ex_arr []) (ex_arr []) (ex_arr [3%nat]) s 1 1 1 true 1%R None (z, z, zz, z, z, z)
               (zz, zz, zz, zz) I).
  rewrite sheval2dfs_refused in H by exact I. destruct H as [_ H]. apply H.
  - intros (_ & _ & _ & _ & E & _). discriminate.
  - split; [right; left; reflexivity|]. split; [right; left; reflexivity|]. split; [left; reflexivity|]. split; [exact I|].
    exists []. split; [reflexivity|]. exists []. repeat constructor; exists []; reflexivity.
Qed.
