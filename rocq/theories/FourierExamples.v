(** Examples for the 2D Fourier series. *)

From Coq Require Import Bool List Reals Arith ZArith Lra Lia.
From Verif Require Import ArrModel LegendreModel GeoModel CoefModel ShEvalModel ShEvalSpec ShEvalProofs
  SparseModel SparseSpec TempModel TempSpec FourierModel FourierSpec FourierProofs FourierEvalProofs.
Import ListNotations.
Open Scope R_scope.

Definition ex_ab : coefs := fun k => (INR k, 1).

(** degrees 0..1 and -1..1 *)
Lemma ex_fit : degrees_fit 2 3 0 (-1) /\
  fourier_value ex_ab 1 2 0 (-1) 1 2 0 5 = 0 * cos (-10) + 1 * sin (-10) + (1 * cos 0 + 1 * sin 0).
Proof.
  split; [left; cbn; lia|]. unfold fourier_value, fsum, ex_ab. cbn [seq map fold_right Nat.mul Nat.add INR].
  change (-1 + Z.of_nat 0)%Z with (-1)%Z. change (-1 + Z.of_nat 1)%Z with 0%Z. change (0 + Z.of_nat 0)%Z with 0%Z.
  replace (0 * (1 * 0) + -1 * (2 * 5)) with (-10) by ring. replace (0 * (1 * 0) + 0 * (2 * 5)) with 0 by ring. ring.
Qed.

Lemma ex_unfit : ~ degrees_fit 1 2 0 (-3).
Proof. unfold degrees_fit. cbn. lia. Qed.

Lemma series_refuted : exists size1 size2 min1 min2, forall t1 t2 c s1 s2 mem,
  fourier2d (nd0 t1) (nd0 t2) (nd0 c) size1 size2 min1 min2 s1 s2 mem = Err OutOfBounds.
Proof.
  exists 1%nat, 2%nat, 0%Z, (-3)%Z. intros t1 t2 c s1 s2 mem.
  apply fourier2d_outside; [exact ex_unfit|reflexivity|discriminate].
Qed.

Definition ex_set : f2d_set :=
  {| fs_ab := [ex_ab; ex_ab; fun _ => (2, 3)]; fs_size1 := 2; fs_size2 := 3; fs_nm := [(1, 0); (1, 1); (2, -1)]%Z;
     fs_min1 := 0; fs_min2 := (-1); fs_scale1 := 1; fs_scale2 := 2 |}.

Lemma ex_set_ok : usable_2dfs ex_set /\
  (forall i j p, nth_error (fs_nm ex_set) i = Some p -> nth_error (fs_nm ex_set) j = Some p -> i = j) /\
  largest_degree (fs_nm ex_set) 2 /\ (2 * 6 = (2 + 1) * (2 + 2))%Z.
Proof.
  split; [|split; [|split]].
  - split; [reflexivity|]. split; [|left; cbn; lia]. cbn [fs_nm ex_set In].
    intros n m [E|[E|[E|[]]]]; unfold valid_nm; assert (n = fst (n, m)) by reflexivity; assert (m = snd (n, m)) by reflexivity;
      rewrite <- E in *; cbn [fst snd] in *; lia.
  - cbn [fs_nm ex_set]. intros [|[|[|i]]] [|[|[|j]]] p; cbn [nth_error]; intros H1 H2; try reflexivity; try congruence;
      try (destruct i; discriminate); try (destruct j; discriminate).
  - split.
    + cbn [fs_nm ex_set In]. intros n m [E|[E|[E|[]]]]; assert (n = fst (n, m)) by reflexivity; rewrite <- E in *; cbn [fst] in *; lia.
    + right. exists (-1)%Z. right. right. left. reflexivity.
  - reflexivity.
Qed.

Definition ex_set_twice : f2d_set :=
  {| fs_ab := [ex_ab; ex_ab; fun _ => (2, 3)]; fs_size1 := 2; fs_size2 := 3; fs_nm := [(2, -1); (1, 1); (2, -1)]%Z;
     fs_min1 := 0; fs_min2 := (-1); fs_scale1 := 1; fs_scale2 := 2 |}.

Lemma ex_set_twice_ok : usable_2dfs ex_set_twice /\ largest_degree (fs_nm ex_set_twice) 2 /\
  nth_error (fs_nm ex_set_twice) 0 = nth_error (fs_nm ex_set_twice) 2 /\
  (forall j, (2 < j)%nat -> nth_error (fs_nm ex_set_twice) j <> Some (2, -1)%Z).
Proof.
  split; [|split; [|split]].
  - split; [reflexivity|]. split; [|left; cbn; lia]. cbn [fs_nm ex_set_twice In].
    intros n m [[= <- <-]|[[= <- <-]|[[= <- <-]|[]]]]; unfold valid_nm; lia.
  - split.
    + cbn [fs_nm ex_set_twice In]. intros n m [[= <- <-]|[[= <- <-]|[[= <- <-]|[]]]]; lia.
    + right. exists (-1)%Z. left. reflexivity.
  - reflexivity.
  - intros [|[|[|[|j]]]] L; try lia; discriminate.
Qed.

Lemma ex_dims : leading_match [2%nat] [2%nat; 3%nat] /\ leading_match [2%nat] [2%nat; 3%nat; 4%nat] /\
  leading_match [2%nat; 3%nat] [2%nat; 3%nat; 4%nat] /\
  longest_of [2%nat; 3%nat; 4%nat] [2%nat] [2%nat; 3%nat] [2%nat; 3%nat; 4%nat].
Proof.
  repeat split; try (left; eexists; reflexivity); try (eexists; reflexivity); try (exists []; reflexivity).
  right. right. reflexivity.
Qed.

(** ** Outside of the buffers *)
Lemma fs_items_scalar cfg nterm rows mode t1 t2 x od st : fs_update nterm rows t1 t2 st = None ->
  sheval2dfs_items cfg nterm rows mode 0 od (nd0 t1) (nd0 t2) x st = None.
Proof. intro H. cbn [sheval2dfs_items dims nd0 get]. now rewrite H. Qed.

Definition short_set : f2d_set :=
  {| fs_ab := [ex_ab]; fs_size1 := 2; fs_size2 := 3; fs_nm := [(1, 0); (1, 1)]%Z;
     fs_min1 := 0; fs_min2 := (-1); fs_scale1 := 1; fs_scale2 := 2 |}.

Lemma short_outside t1 t2 x ci co mode internal sp sg mem fmem :
  sheval2dfs (nd0 t1) (nd0 t2) (nd0 x) short_set ci co mode internal sp sg mem fmem = Err OutOfBounds.
Proof.
  unfold sheval2dfs. cbn [dims nd0 common_dims_match negb]. unfold f2d_coefset_parse. cbn [fs_ab fs_nm short_set length Nat.eqb negb].
  cbv zeta. cbn [fc_degree fc_rows]. destruct (model_init _ _ _ _ _ _ _) as [cfg sh].
  cbn [length Nat.max]. rewrite fs_items_scalar; [reflexivity|].
  unfold fs_update. cbn [fst_last1 fst_last2 neq_last orb fst_f2d]. unfold fourier2d_cossin.
  rewrite cos_sin_none; [reflexivity|]. destruct fmem as [[[m0 m1] m2] m12]. cbn [null_f2d cos_sin_tmp b_size]. lia.
Qed.

Definition unfit_set : f2d_set :=
  {| fs_ab := [ex_ab]; fs_size1 := 1; fs_size2 := 2; fs_nm := [(1, 0)]%Z;
     fs_min1 := 0; fs_min2 := (-3); fs_scale1 := 1; fs_scale2 := 2 |}.

Lemma unfit_outside t1 t2 x ci co mode internal sp sg mem fmem :
  sheval2dfs (nd0 t1) (nd0 t2) (nd0 x) unfit_set ci co mode internal sp sg mem fmem = Err OutOfBounds.
Proof.
  unfold sheval2dfs. cbn [dims nd0 common_dims_match negb]. unfold f2d_coefset_parse. cbn [fs_ab fs_nm unfit_set length Nat.eqb negb].
  cbv zeta. cbn [fc_degree fc_rows]. destruct (model_init _ _ _ _ _ _ _) as [cfg sh].
  cbn [length Nat.max]. rewrite fs_items_scalar; [reflexivity|].
  apply (fs_update_none unfit_set).
  - intros [F _]. exact (ex_unfit F).
  - apply init_sizes.
  - reflexivity.
Qed.

Lemma fs_refuted : exists s s',
  length (fs_ab s) <> length (fs_nm s) /\ (length (fs_ab s') = length (fs_nm s') /\ forall n m, In (n, m) (fs_nm s') -> valid_nm n m) /\
  forall t1 t2 x ci co mode internal sp sg mem fmem,
    sheval2dfs (nd0 t1) (nd0 t2) (nd0 x) s ci co mode internal sp sg mem fmem = Err OutOfBounds /\
    sheval2dfs (nd0 t1) (nd0 t2) (nd0 x) s' ci co mode internal sp sg mem fmem = Err OutOfBounds.
Proof.
  exists short_set, unfit_set. split; [discriminate|]. split.
  - split; [reflexivity|]. intros n m [E|[]]. assert (n = fst (n, m)) by reflexivity. assert (m = snd (n, m)) by reflexivity.
    rewrite <- E in *. cbn [fst snd] in *. unfold valid_nm. lia.
  - intros. split; [apply short_outside|apply unfit_outside].
Qed.
