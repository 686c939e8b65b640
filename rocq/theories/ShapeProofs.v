From Coq Require Import Bool List ZArith Lia.
From Verif Require Import CoefModel ShapeModel ShapeSpec.
Import ListNotations.
Open Scope Z_scope.

Lemma shape_eqb_spec a : forall b, shape_eqb a b = true <-> a = b.
Proof.
  induction a as [|x a IH]; intros [|y b]; cbn [shape_eqb]; try (split; [reflexivity || discriminate|reflexivity || discriminate]).
  rewrite andb_true_iff, Nat.eqb_eq, IH. split; [intros [-> ->]; reflexivity|intro E; injection E; auto].
Qed.
Lemma shape_eqb_false a b : a <> b -> shape_eqb a b = false.
Proof. intro N. destruct (shape_eqb a b) eqn:E; [|reflexivity]. apply shape_eqb_spec in E. contradiction. Qed.

Lemma address_firstn st : forall ix n, (length st <= n)%nat -> address (firstn n ix) st = address ix st.
Proof.
  induction st as [|s st IH]; intros [|i ix] [|n] H; cbn [length] in H; try reflexivity; try lia; cbn [firstn address]; auto.
  now rewrite IH by lia.
Qed.
Lemma address_zeros st k : forall ix, address ix (st ++ repeat 0 k) = address ix st.
Proof.
  induction st as [|s st IH]; intros [|i ix]; cbn [app address]; try reflexivity.
  - revert i ix. induction k as [|k IHk]; intros i ix; cbn [repeat address]; [reflexivity|].
    destruct ix as [|j ix]; cbn [address]; [lia|]. rewrite IHk. lia.
  - now rewrite IH.
Qed.

Lemma slice_pos {B} (l : list B) n : slice_to l (Z.of_nat n) = firstn n l.
Proof. unfold slice_to. destruct (Z.ltb_spec (Z.of_nat n) 0); [lia|]. now rewrite Nat2Z.id. Qed.
Lemma slice_but_last {B} (l : list B) x : slice_to (l ++ [x]) (-1) = l.
Proof.
  unfold slice_to. cbn [Z.ltb Z.compare]. rewrite app_length. cbn [length].
  replace (Z.to_nat _) with (length l) by lia. rewrite firstn_app, firstn_all, Nat.sub_diag. cbn [firstn]. apply app_nil_r.
Qed.

Lemma reshaped {A} (a : sarr A) shape extra b : well_formed a -> shape = s_shape a ++ extra ->
  as_strided a shape (s_strides a ++ repeat 0 (length extra)) = Ok b -> repeats a b shape.
Proof.
  intros W E H. unfold as_strided in H. destruct (Nat.eqb_spec (length shape) (length (s_strides a ++ repeat 0 (length extra)))) as [L|L]; [|discriminate].
  assert (b = {| s_shape := shape; s_strides := s_strides a ++ repeat 0 (length extra); s_mem := s_mem a |}) by congruence. subst b.
  split; [reflexivity|]. split; [symmetry; exact L|]. intros ix Hix. unfold s_get. cbn [s_mem s_strides].
  rewrite address_zeros. f_equal. symmetry. apply address_firstn. unfold well_formed in W. lia.
Qed.

Lemma as_strided_ok {A} (a : sarr A) extra : well_formed a ->
  exists b, as_strided a (s_shape a ++ extra) (s_strides a ++ repeat 0 (length extra)) = Ok b.
Proof.
  intro W. unfold as_strided. rewrite !app_length, repeat_length. unfold well_formed in W. rewrite W, Nat.eqb_refl. eauto.
Qed.

(** time.ndim <= coords.ndim - 1 *)
Lemma reshape_ok {A B} (time : sarr A) (coords : sarr B) leading last extra :
  well_formed time -> s_shape coords = leading ++ [last] -> leading = s_shape time ++ extra ->
  exists time', reshape_times_and_coordinates time coords = Ok (time', coords) /\
    (s_shape time = [] /\ time' = time \/ s_shape time <> [] /\ repeats time time' leading).
Proof.
  intros W Ec El. unfold reshape_times_and_coordinates. cbv zeta.
  assert (Nc : ndim coords - 1 = Z.of_nat (length leading)).
  { unfold ndim. rewrite Ec, app_length. cbn [length]. lia. }
  assert (Lt : (length (s_shape time) <= length leading)%nat) by (rewrite El, app_length; lia).
  rewrite Nc. unfold ndim. rewrite Z.min_l by lia. rewrite Z.max_r by lia. rewrite !slice_pos.
  rewrite firstn_all, Ec, El, <- app_assoc, firstn_app, firstn_all, Nat.sub_diag. cbn [firstn]. rewrite app_nil_r.
  rewrite (proj2 (shape_eqb_spec _ _) eq_refl). cbn [negb]. rewrite <- El, Z.ltb_irrefl. cbn [bind].
  destruct (s_shape time) as [|d ds] eqn:Et.
  - cbn [length Z.of_nat Z.ltb Z.compare andb bind]. exists time. split; [reflexivity|]. left. auto.
  - destruct (Z.ltb_spec 0 (Z.of_nat (length (d :: ds)))) as [_|L]; [|cbn [length] in L; lia]. cbn [andb].
    destruct (Z.ltb_spec (Z.of_nat (length (d :: ds))) (Z.of_nat (length leading))) as [L|L].
    + rewrite Ec, slice_but_last. destruct (as_strided_ok time extra W) as [b Eb].
      assert (Lx : Z.to_nat (Z.of_nat (length leading) - Z.of_nat (length (d :: ds))) = length extra).
      { rewrite El, app_length. lia. }
      rewrite Lx. rewrite Et, <- El in Eb. rewrite Eb. cbn [bind]. exists b. split; [reflexivity|]. right.
      split; [discriminate|]. apply (reshaped time leading extra b W); [now rewrite Et|exact Eb].
    + cbn [bind]. exists time. split; [reflexivity|]. right. split; [discriminate|].
      assert (extra = []) by (destruct extra; [reflexivity|rewrite El, app_length in L; cbn [length] in L; lia]). subst extra.
      rewrite app_nil_r in El. split; [congruence|]. split; [exact W|]. intros ix Hix. unfold s_get. f_equal.
      symmetry. apply address_firstn. unfold well_formed in W. lia.
Qed.

Lemma reshape_mismatch {A B} (time : sarr A) (coords : sarr B) leading last :
  s_shape coords = leading ++ [last] -> ~ agree (s_shape time) leading ->
  reshape_times_and_coordinates time coords = Err ValueError.
Proof.
  intros Ec N. unfold reshape_times_and_coordinates. cbv zeta.
  assert (Nc : ndim coords - 1 = Z.of_nat (length leading)).
  { unfold ndim. rewrite Ec, app_length. cbn [length]. lia. }
  rewrite Nc. unfold ndim. rewrite <- Nat2Z.inj_min, !slice_pos. rewrite shape_eqb_false; [reflexivity|].
  intro E. apply N. rewrite Ec in E. rewrite firstn_app in E.
  replace (Nat.min (length (s_shape time)) (length leading) - length leading)%nat with 0%nat in E by lia. cbn [firstn] in E. rewrite app_nil_r in E.
  destruct (Nat.le_ge_cases (length (s_shape time)) (length leading)) as [L|L].
  - rewrite Nat.min_l in E by exact L. rewrite firstn_all in E. exists (skipn (length (s_shape time)) leading). left.
    transitivity (firstn (length (s_shape time)) leading ++ skipn (length (s_shape time)) leading); [symmetry; apply firstn_skipn|now rewrite <- E].
  - rewrite Nat.min_r in E by exact L. rewrite firstn_all in E. exists (skipn (length leading) (s_shape time)). right.
    transitivity (firstn (length leading) (s_shape time) ++ skipn (length leading) (s_shape time)); [symmetry; apply firstn_skipn|now rewrite E].
Qed.

(** time.ndim > coords.ndim - 1 *)
Lemma reshape_type_error {A B} (time : sarr A) (coords : sarr B) leading last extra :
  s_shape coords = leading ++ [last] -> s_shape time = leading ++ extra -> extra <> [] ->
  reshape_times_and_coordinates time coords = Err TypeError.
Proof.
  intros Ec Et Nx. unfold reshape_times_and_coordinates. cbv zeta.
  assert (Nc : ndim coords - 1 = Z.of_nat (length leading)).
  { unfold ndim. rewrite Ec, app_length. cbn [length]. lia. }
  assert (Lt : (length leading < length (s_shape time))%nat).
  { rewrite Et, app_length. destruct extra; [contradiction|cbn [length]; lia]. }
  rewrite Nc. unfold ndim. rewrite Z.min_r by lia. rewrite Z.max_l by lia. rewrite !slice_pos.
  rewrite Ec, Et, !firstn_app, !firstn_all, Nat.sub_diag. cbn [firstn]. rewrite (proj2 (shape_eqb_spec _ _) eq_refl). cbn [negb].
  rewrite <- Et. destruct (Z.ltb_spec (Z.of_nat (length leading)) (Z.of_nat (length (s_shape time)))) as [_|L]; [|lia].
  unfold shape_last. rewrite rev_app_distr. reflexivity.
Qed.

Lemma reshape_array_ok {A} shape (array : sarr A) : well_formed array ->
  (forall extra, shape = s_shape array ++ extra ->
     exists b, reshape_array shape array = Ok b /\ repeats array b shape) /\
  ((forall extra, shape <> s_shape array ++ extra) -> reshape_array shape array = Err ValueError).
Proof.
  intro W. unfold reshape_array. cbv zeta. split.
  - intros extra E. unfold ndim. assert (L : (length (s_shape array) <= length shape)%nat) by (rewrite E, app_length; lia).
    rewrite Z.min_r by lia. rewrite !slice_pos, firstn_all.
    assert (Ef : firstn (length (s_shape array)) shape = s_shape array) by (rewrite E, firstn_app, firstn_all, Nat.sub_diag; cbn [firstn]; apply app_nil_r). rewrite Ef.
    rewrite (proj2 (shape_eqb_spec _ _) eq_refl). cbn [negb orb].
    destruct (Z.ltb_spec (Z.of_nat (length shape)) (Z.of_nat (length (s_shape array)))) as [Lt|_]; [lia|].
    destruct (Z.ltb_spec (Z.of_nat (length (s_shape array))) (Z.of_nat (length shape))) as [Lt|Lt].
    + destruct (as_strided_ok array extra W) as [b Eb].
      assert (Lx : Z.to_nat (Z.of_nat (length shape) - Z.of_nat (length (s_shape array))) = length extra).
      { rewrite E, app_length. lia. }
      rewrite Lx. rewrite <- E in Eb. exists b. split; [exact Eb|]. exact (reshaped array shape extra b W E Eb).
    + exists array. split; [reflexivity|].
      assert (extra = []) by (destruct extra; [reflexivity|rewrite E, app_length in Lt; cbn [length] in Lt; lia]). subst extra.
      rewrite app_nil_r in E. split; [congruence|]. split; [exact W|]. intros ix Hix. unfold s_get. f_equal.
      symmetry. apply address_firstn. unfold well_formed in W. lia.
  - intro N. unfold ndim.
    destruct (Z.ltb_spec (Z.of_nat (length shape)) (Z.of_nat (length (s_shape array)))) as [L|L]; [now rewrite orb_true_r|].
    rewrite Z.min_r by lia. rewrite !slice_pos, firstn_all, shape_eqb_false; [reflexivity|].
    intro E. apply (N (skipn (length (s_shape array)) shape)). rewrite <- E at 1. symmetry. apply firstn_skipn.
Qed.

(** ** Example: times of the shape (2) and locations of the shape (2, 2, 3) *)
Definition ex_time : sarr Z := {| s_shape := [2%nat]; s_strides := [8]; s_mem := fun a => a / 8 + 100 |}.
Definition ex_coords : sarr Z := {| s_shape := [2; 2; 3]%nat; s_strides := [48; 24; 8]; s_mem := fun a => a / 8 |}.
Lemma ex_reshape : well_formed ex_time /\ s_shape ex_coords = [2; 2]%nat ++ [3%nat] /\ [2; 2]%nat = s_shape ex_time ++ [2%nat] /\
  exists t, reshape_times_and_coordinates ex_time ex_coords = Ok (t, ex_coords) /\
    map (s_get t) [[0; 0]; [0; 1]; [1; 0]; [1; 1]]%nat = [100; 100; 101; 101].
Proof. repeat split; try reflexivity. eexists. split; reflexivity. Qed.
Lemma ex_disagree : ~ agree [2; 3]%nat [3]%nat.
Proof. intros [c [E|E]]; cbn [app] in E; discriminate. Qed.
Lemma ex_array : well_formed ex_time /\
  (exists b, reshape_array [2; 3]%nat ex_time = Ok b /\ s_get b [1; 2]%nat = 101) /\
  reshape_array [3; 2]%nat ex_time = Err ValueError /\ reshape_array [] ex_time = Err ValueError.
Proof. repeat split; try reflexivity. eexists. split; reflexivity. Qed.
