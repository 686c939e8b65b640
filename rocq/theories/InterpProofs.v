(** Proofs about the interpolation. *)

From Coq Require Import Bool List Arith ZArith Reals Lra Lia.
From Coquelicot Require Import Coquelicot.
From Verif Require Import Ord ROrd BisectModel BisectSpec BisectProofs InterpModel InterpSpec.
Import ListNotations.
Open Scope R_scope.

Lemma increasing_sorted v : increasing v -> sorted_nodes v.
Proof. intros H i j a b Hij Hi Hj. apply le_R. left. eapply H; eauto. Qed.

Lemma clip_bounds v lo hi : (lo <= hi)%Z -> (lo <= clip v lo hi <= hi)%Z.
Proof. unfold clip. destruct (Z.ltb_spec v lo); [lia|]. destruct (Z.ltb_spec hi v); lia. Qed.

Lemma bisect_R t0 t : sorted_nodes t0 -> exists i, bisect_right (Some t) t0 = Some i /\
  (-1 <= i < Z.of_nat (length t0))%Z /\
  forall k a, nth_error t0 k = Some a -> (a <= t <-> (Z.of_nat k <= i)%Z).
Proof.
  intro S. destruct (bisect_right_pos t t0 S) as (i & E & [B H]). exists i.
  split; auto. split; auto. intros k a Hk. rewrite <- le_R. apply (H k a Hk).
Qed.

Lemma nth_ex {A} (v : list A) k : (k < length v)%nat -> exists a, nth_error v k = Some a.
Proof. intro H. destruct (nth_error v k) eqn:E; eauto. apply nth_error_None in E. lia. Qed.

Lemma is_last_R t0 t : t0 <> [] -> exists a, nth_error t0 (length t0 - 1) = Some a /\
  is_last (Some t) t0 = Some (Reqb t a).
Proof.
  intro Hne. assert (0 < length t0)%nat by (destruct t0; [congruence|simpl; lia]).
  destruct (nth_ex t0 (length t0 - 1)) as [a Ha]; [lia|]. exists a. split; auto.
  unfold is_last. replace (Z.of_nat (length t0) - 1)%Z with (Z.of_nat (length t0 - 1)) by lia.
  rewrite aread_of_nat, Ha. reflexivity.
Qed.

Lemma is_last_nan t0 : t0 <> [] -> is_last None t0 = Some false.
Proof.
  intro Hne. assert (0 < length t0)%nat by (destruct t0; [congruence|simpl; lia]).
  destruct (nth_ex t0 (length t0 - 1)) as [a Ha]; [lia|].
  unfold is_last. replace (Z.of_nat (length t0) - 1)%Z with (Z.of_nat (length t0 - 1)) by lia.
  rewrite aread_of_nat, Ha. reflexivity.
Qed.

Lemma segment_ex t0 c0 k : length c0 = length t0 -> (S k < length t0)%nat ->
  exists ta ca tb cb, segment t0 c0 k ta ca tb cb.
Proof.
  intros L H. destruct (nth_ex t0 k) as [ta ?]; [lia|]. destruct (nth_ex c0 k) as [ca ?]; [lia|].
  destruct (nth_ex t0 (S k)) as [tb ?]; [lia|]. destruct (nth_ex c0 (S k)) as [cb ?]; [lia|].
  exists ta, ca, tb, cb. repeat split; auto.
Qed.

(** The linear kinds: value on the clipped segment *)
Lemma interp1_seg t0 c0 t i k ta ca tb cb extrapolate last :
  bisect_right (Some t) t0 = Some i -> clip i 0 (Z.of_nat (length t0) - 2) = Z.of_nat k ->
  segment t0 c0 k ta ca tb cb -> is_last (Some t) t0 = Some last ->
  interp_one t0 c0 INTERP_C1 extrapolate (Some t) =
    Some (if extrapolate || (i =? Z.of_nat k)%Z || last
          then Some ((1 - (t - ta) / (tb - ta)) * ca + (t - ta) / (tb - ta) * cb) else None).
Proof.
  intros Eb Ec (S1 & S2 & S3 & S4) El. unfold interp_one, get_interp_basis, get_interp1_basis.
  rewrite Eb, Ec, El. replace (Z.of_nat k + 1)%Z with (Z.of_nat (S k)) by lia.
  rewrite !aread_of_nat, S1, S3. cbn [b_i0 b_i].
  destruct (extrapolate || (i =? Z.of_nat k)%Z || last); [|reflexivity].
  unfold interp_eval, interp1_eval. cbn [b_i b_0 b_1].
  replace (Z.of_nat k + 1)%Z with (Z.of_nat (S k)) by lia.
  rewrite !aread_of_nat, S2, S4. reflexivity.
Qed.

Lemma interp1d1_seg t0 c0 t i k ta ca tb cb extrapolate last :
  bisect_right (Some t) t0 = Some i -> clip i 0 (Z.of_nat (length t0) - 2) = Z.of_nat k ->
  segment t0 c0 k ta ca tb cb -> is_last (Some t) t0 = Some last ->
  interp_one t0 c0 INTERP_C1D1 extrapolate (Some t) =
    Some (if extrapolate || (i =? Z.of_nat k)%Z || last
          then Some (- (1 / (tb - ta)) * ca + 1 / (tb - ta) * cb) else None).
Proof.
  intros Eb Ec (S1 & S2 & S3 & S4) El. unfold interp_one, get_interp_basis, get_interp1d1_basis.
  rewrite Eb, Ec, El. replace (Z.of_nat k + 1)%Z with (Z.of_nat (S k)) by lia.
  rewrite !aread_of_nat, S1, S3. cbn [b_i0 b_i].
  destruct (extrapolate || (i =? Z.of_nat k)%Z || last); [|reflexivity].
  unfold interp_eval, interp1_eval. cbn [b_i b_0 b_1].
  replace (Z.of_nat k + 1)%Z with (Z.of_nat (S k)) by lia.
  rewrite !aread_of_nat, S2, S4. reflexivity.
Qed.

Lemma line_form ta ca tb cb t : ta < tb ->
  (1 - (t - ta) / (tb - ta)) * ca + (t - ta) / (tb - ta) * cb = line ta ca tb cb t.
Proof. intro H. unfold line. field. lra. Qed.

Lemma segment_lt t0 c0 k ta ca tb cb : increasing t0 -> segment t0 c0 k ta ca tb cb -> ta < tb.
Proof. intros I (S1 & _ & S3 & _). apply (I k (S k)); auto. Qed.

(** the clipped index of a time in a segment (the end nodes of which belong to the
    next one) *)
Lemma seg_index t0 t i k ta tb : (forall k a, nth_error t0 k = Some a -> (a <= t <-> (Z.of_nat k <= i)%Z)) ->
  nth_error t0 k = Some ta -> nth_error t0 (S k) = Some tb ->
  ta <= t < tb -> (-1 <= i < Z.of_nat (length t0))%Z -> i = Z.of_nat k.
Proof.
  intros H Ha Hb [T1 T2] B. apply (H k ta Ha) in T1.
  assert (~ (Z.of_nat (S k) <= i)%Z) by (rewrite <- (H _ _ Hb); lra). lia.
Qed.

Lemma seg_len (t0 : list R) k tb : nth_error t0 (S k) = Some tb -> (S k < length t0)%nat.
Proof. intro H. apply nth_error_Some. congruence. Qed.

Lemma last_seg_time t0 k tb t i : increasing t0 -> nth_error t0 (S k) = Some tb -> t = tb ->
  (forall k a, nth_error t0 k = Some a -> (a <= t <-> (Z.of_nat k <= i)%Z)) ->
  (-1 <= i < Z.of_nat (length t0))%Z -> i = Z.of_nat (S k).
Proof.
  intros I Hb -> H B. assert ((Z.of_nat (S k) <= i)%Z) by (apply (H _ _ Hb); lra).
  destruct (Z.eq_dec i (Z.of_nat (S k))); auto. exfalso.
  destruct (nth_ex t0 (S (S k))) as [tc Hc]; [lia|].
  pose proof (I _ _ _ _ (Nat.lt_succ_diag_r (S k)) Hb Hc).
  assert (tc <= tb) by (apply (H _ _ Hc); lia). lra.
Qed.

Lemma linear_between t0 c0 extrapolate t k ta ca tb cb :
  increasing t0 -> length c0 = length t0 -> segment t0 c0 k ta ca tb cb -> ta <= t <= tb ->
  interp_one t0 c0 INTERP_C1 extrapolate (Some t) = Some (Some (line ta ca tb cb t)).
Proof.
  intros I L S T. pose proof (segment_lt _ _ _ _ _ _ _ I S) as Lt.
  pose proof S as (S1 & S2 & S3 & S4). pose proof (seg_len _ _ _ S3) as Hk.
  destruct (bisect_R t0 t (increasing_sorted _ I)) as (i & Eb & B & H).
  destruct (is_last_R t0 t) as (z & Hz & El); [intros ->; destruct k; discriminate|].
  destruct (Rlt_dec t tb) as [T2|T2].
  - assert (i = Z.of_nat k) as -> by (apply (seg_index t0 t i k ta tb); auto; lra).
    rewrite (interp1_seg t0 c0 t _ k ta ca tb cb extrapolate (Reqb t z) Eb); auto.
    + rewrite Z.eqb_refl, orb_true_r. simpl. rewrite line_form; auto.
    + unfold clip. destruct (Z.ltb_spec (Z.of_nat k) 0); [lia|].
      destruct (Z.ltb_spec (Z.of_nat (length t0) - 2) (Z.of_nat k)); lia.
  - assert (t = tb) as -> by lra.
    assert (i = Z.of_nat (Datatypes.S k)) as -> by (apply (last_seg_time t0 k tb tb i); auto).
    destruct (Nat.eq_dec (Datatypes.S (Datatypes.S k)) (length t0)) as [Hl|Hl].
    + (* the last node *)
      replace (length t0 - 1)%nat with (Datatypes.S k) in Hz by lia.
      assert (z = tb) as -> by congruence.
      rewrite (interp1_seg t0 c0 tb _ k ta ca tb cb extrapolate (Reqb tb tb) Eb); auto.
      * assert (Reqb tb tb = true) as -> by (apply Reqb_eq; auto). rewrite orb_true_r. simpl.
        rewrite line_form; auto.
      * unfold clip. destruct (Z.ltb_spec (Z.of_nat (Datatypes.S k)) 0); [lia|].
        destruct (Z.ltb_spec (Z.of_nat (length t0) - 2) (Z.of_nat (Datatypes.S k))); lia.
    + destruct (segment_ex t0 c0 (Datatypes.S k) L) as (ta' & ca' & tc & cc & S'); [lia|].
      pose proof S' as (S1' & S2' & S3' & S4').
      assert (ta' = tb) as -> by congruence. assert (ca' = cb) as -> by congruence.
      pose proof (segment_lt _ _ _ _ _ _ _ I S') as Lt'.
      rewrite (interp1_seg t0 c0 tb _ (Datatypes.S k) tb cb tc cc extrapolate (Reqb tb z) Eb); auto.
      * rewrite Z.eqb_refl, orb_true_r. simpl. rewrite line_form by auto. unfold line. do 2 f_equal.
        field. lra.
      * unfold clip. destruct (Z.ltb_spec (Z.of_nat (Datatypes.S k)) 0); [lia|].
        destruct (Z.ltb_spec (Z.of_nat (length t0) - 2) (Z.of_nat (Datatypes.S k))); lia.
Qed.

Lemma linear_node t0 c0 extrapolate k tk ck :
  increasing t0 -> length c0 = length t0 -> (2 <= length t0)%nat ->
  nth_error t0 k = Some tk -> nth_error c0 k = Some ck ->
  interp_one t0 c0 INTERP_C1 extrapolate (Some tk) = Some (Some ck).
Proof.
  intros I L N Ht Hc. assert (k < length t0)%nat by (apply nth_error_Some; congruence).
  destruct (Nat.eq_dec (S k) (length t0)) as [E|E].
  - destruct k as [|k]; [lia|].
    destruct (segment_ex t0 c0 k L) as (ta & ca & tb & cb & S); [lia|].
    pose proof S as (S1 & S2 & S3 & S4). assert (tb = tk) as -> by congruence.
    assert (cb = ck) as -> by congruence. pose proof (segment_lt _ _ _ _ _ _ _ I S).
    rewrite (linear_between t0 c0 extrapolate tk k ta ca tk ck); auto; [|lra].
    unfold line. do 2 f_equal. field. lra.
  - destruct (segment_ex t0 c0 k L) as (ta & ca & tb & cb & S); [lia|].
    pose proof S as (S1 & S2 & S3 & S4). assert (ta = tk) as -> by congruence.
    assert (ca = ck) as -> by congruence. pose proof (segment_lt _ _ _ _ _ _ _ I S).
    rewrite (linear_between t0 c0 extrapolate tk k tk ck tb cb); auto; [|lra].
    unfold line. do 2 f_equal. field. lra.
Qed.

Lemma before_index t0 t i ta : nth_error t0 0 = Some ta -> t < ta -> (-1 <= i)%Z ->
  (forall k a, nth_error t0 k = Some a -> (a <= t <-> (Z.of_nat k <= i)%Z)) -> i = (-1)%Z.
Proof. intros Ha Lt B H. assert (~ (Z.of_nat 0 <= i)%Z) by (rewrite <- (H _ _ Ha); lra). lia. Qed.

Lemma linear_before t0 c0 extrapolate t ta ca tb cb :
  increasing t0 -> length c0 = length t0 -> segment t0 c0 0 ta ca tb cb -> t < ta ->
  interp_one t0 c0 INTERP_C1 extrapolate (Some t) =
    Some (if extrapolate then Some (line ta ca tb cb t) else None).
Proof.
  intros I L S T. pose proof (segment_lt _ _ _ _ _ _ _ I S) as Lt.
  pose proof S as (S1 & S2 & S3 & S4). pose proof (seg_len _ _ _ S3) as Hk.
  destruct (bisect_R t0 t (increasing_sorted _ I)) as (i & Eb & B & H).
  destruct (is_last_R t0 t) as (z & Hz & El); [intros ->; discriminate|].
  assert (i = (-1)%Z) as -> by (apply (before_index t0 t i ta); auto; lia).
  assert (ta < z) by (apply (I 0%nat (length t0 - 1)%nat); auto; lia).
  rewrite (interp1_seg t0 c0 t _ 0 ta ca tb cb extrapolate (Reqb t z) Eb); auto.
  assert (Reqb t z = false) as -> by (apply Reqb_neq; lra). rewrite line_form by auto.
    change (-1 =? Z.of_nat 0)%Z with false. rewrite !orb_false_r. reflexivity.
Qed.

Lemma linear_after t0 c0 extrapolate t k ta ca tb cb :
  increasing t0 -> length c0 = length t0 -> S (S k) = length t0 ->
  segment t0 c0 k ta ca tb cb -> tb < t ->
  interp_one t0 c0 INTERP_C1 extrapolate (Some t) =
    Some (if extrapolate then Some (line ta ca tb cb t) else None).
Proof.
  intros I L Hl S T. pose proof (segment_lt _ _ _ _ _ _ _ I S) as Lt.
  pose proof S as (S1 & S2 & S3 & S4).
  destruct (bisect_R t0 t (increasing_sorted _ I)) as (i & Eb & B & H).
  destruct (is_last_R t0 t) as (z & Hz & El); [intros ->; discriminate|].
  replace (length t0 - 1)%nat with (Datatypes.S k) in Hz by lia. assert (z = tb) as -> by congruence.
  assert (i = Z.of_nat (Datatypes.S k)) as ->.
  { assert ((Z.of_nat (Datatypes.S k) <= i)%Z) by (apply (H _ _ S3); lra). lia. }
  rewrite (interp1_seg t0 c0 t _ k ta ca tb cb extrapolate (Reqb t tb) Eb); auto.
  - assert (Reqb t tb = false) as -> by (apply Reqb_neq; lra). rewrite line_form by auto.
    assert ((Z.of_nat (Datatypes.S k) =? Z.of_nat k)%Z = false) as -> by (apply Z.eqb_neq; lia).
    rewrite !orb_false_r. reflexivity.
  - unfold clip. destruct (Z.ltb_spec (Z.of_nat (Datatypes.S k)) 0); [lia|].
    destruct (Z.ltb_spec (Z.of_nat (length t0) - 2) (Z.of_nat (Datatypes.S k))); lia.
Qed.

Lemma bisect_right_nan (v : list R) : bisect_right None v = Some (-1)%Z.
Proof.
  pose proof (bisect_nan v [None] true 0 eq_refl) as H. simpl in H. congruence.
Qed.

(** NaN times *)
Lemma linear_nan t0 c0 extrapolate : length c0 = length t0 -> (2 <= length t0)%nat ->
  interp_one t0 c0 INTERP_C1 extrapolate None = Some None.
Proof.
  intros L N. unfold interp_one, get_interp_basis, get_interp1_basis. rewrite bisect_right_nan.
  destruct (segment_ex t0 c0 0 L) as (ta & ca & tb & cb & S1 & S2 & S3 & S4); [lia|].
  assert (clip (-1) 0 (Z.of_nat (length t0) - 2) = 0%Z) as -> by reflexivity.
  change (aread t0 0) with (nth_error t0 0). change (aread t0 (0 + 1)) with (nth_error t0 1).
  rewrite S1, S3, is_last_nan by (intros ->; discriminate). cbn [b_i0 b_i].
  destruct (extrapolate || (-1 =? 0)%Z || false); [|reflexivity].
  unfold interp_eval, interp1_eval. cbn [b_i b_0 b_1].
  change (aread c0 0) with (nth_error c0 0). change (aread c0 (0 + 1)) with (nth_error c0 1).
  rewrite S2, S4. reflexivity.
Qed.

(** ** piecewise constant *)

Lemma const_at t0 c0 extrapolate t k ck : sorted_nodes t0 -> length c0 = length t0 ->
  last_index (fun a => le a t) t0 (Z.of_nat k) -> nth_error c0 k = Some ck ->
  interp_one t0 c0 INTERP_C0 extrapolate (Some t) = Some (Some ck).
Proof.
  intros S L H Hc. assert (k < length t0)%nat by (rewrite <- L; apply nth_error_Some; congruence).
  destruct (bisect_right_pos t t0 S) as (i & Eb & H').
  assert (i = Z.of_nat k) as -> by (eapply last_index_unique; eauto).
  destruct (is_last_R t0 t) as (z & Hz & El); [intros ->; simpl in *; lia|].
  unfold interp_one, get_interp_basis, get_interp0_basis. rewrite Eb, El. cbn [b_i0 b_i].
  assert (clip (Z.of_nat k) 0 (Z.of_nat (length t0) - 1) = Z.of_nat k) as ->.
  { unfold clip. destruct (Z.ltb_spec (Z.of_nat k) 0); [lia|].
    destruct (Z.ltb_spec (Z.of_nat (length t0) - 1) (Z.of_nat k)); lia. }
  rewrite Z.eqb_refl, orb_true_r. simpl. unfold interp0_eval. cbn [b_i].
  rewrite aread_of_nat, Hc. reflexivity.
Qed.

Lemma const_before t0 c0 extrapolate t ta ca : sorted_nodes t0 -> length c0 = length t0 ->
  nth_error t0 0 = Some ta -> nth_error c0 0 = Some ca -> t < ta ->
  interp_one t0 c0 INTERP_C0 extrapolate (Some t) = Some (if extrapolate then Some ca else None).
Proof.
  intros S L Ha Hc T. destruct (bisect_R t0 t S) as (i & Eb & B & H).
  assert (i = (-1)%Z) as -> by (apply (before_index t0 t i ta); auto; lia).
  destruct (is_last_R t0 t) as (z & Hz & El); [intros ->; discriminate|].
  assert (ta <= z).
  { apply le_R. apply (sorted_le t0 S 0 (length t0 - 1)); auto. lia. }
  unfold interp_one, get_interp_basis, get_interp0_basis. rewrite Eb, El. cbn [b_i0 b_i].
  assert (Reqb t z = false) as -> by (apply Reqb_neq; lra).
  assert (clip (-1) 0 (Z.of_nat (length t0) - 1) = 0%Z) as -> by reflexivity.
  change (-1 =? 0)%Z with false. rewrite !orb_false_r.
  destruct extrapolate; [|reflexivity]. simpl. unfold interp0_eval. cbn [b_i].
  change (aread c0 0) with (nth_error c0 0). rewrite Hc. reflexivity.
Qed.

(** the last value is returned above the last node also with extrapolate=False *)
Lemma const_after t0 c0 extrapolate t tl cl : sorted_nodes t0 -> length c0 = length t0 ->
  nth_error t0 (length t0 - 1) = Some tl -> nth_error c0 (length t0 - 1) = Some cl -> tl <= t ->
  interp_one t0 c0 INTERP_C0 extrapolate (Some t) = Some (Some cl).
Proof.
  intros S L Ha Hc T. assert (length t0 - 1 < length t0)%nat by (apply nth_error_Some; congruence).
  apply (const_at t0 c0 extrapolate t (length t0 - 1)); auto.
  split; [lia|]. intros k a Hk. assert (k < length t0)%nat by (apply nth_error_Some; congruence).
  split; [lia|]. intros _. apply le_R.
  assert (le a tl) by (apply (sorted_le t0 S k (length t0 - 1)); auto; lia).
  apply le_R in H1. lra.
Qed.

(** ** derivative *)

Lemma derive_segment ta ca tb cb t : ta < tb ->
  is_derive (line ta ca tb cb) t (- (1 / (tb - ta)) * ca + 1 / (tb - ta) * cb).
Proof.
  intro H. unfold line. auto_derive; auto. field. lra.
Qed.

Lemma nodes_below t0 t : increasing t0 -> (2 <= length t0)%nat ->
  (exists ta, nth_error t0 0 = Some ta /\ t < ta) \/
  (exists k ta tb, nth_error t0 k = Some ta /\ nth_error t0 (S k) = Some tb /\ ta <= t < tb) \/
  (exists tl, nth_error t0 (length t0 - 1) = Some tl /\ tl <= t).
Proof.
  intros I N. destruct (bisect_R t0 t (increasing_sorted _ I)) as (i & Eb & B & H).
  destruct (Z.eq_dec i (-1)) as [->|H1].
  - left. destruct (nth_ex t0 0) as [ta Ha]; [lia|]. exists ta. split; auto.
    destruct (Rlt_dec t ta); auto. exfalso. assert (ta <= t) as H2 by lra. apply (H _ _ Ha) in H2. lia.
  - destruct (Z.eq_dec i (Z.of_nat (length t0) - 1)) as [->|H2].
    + right. right. destruct (nth_ex t0 (length t0 - 1)) as [ta Ha]; [lia|]. exists ta. split; auto.
      apply (H _ _ Ha). lia.
    + right. left. exists (Z.to_nat i). destruct (nth_ex t0 (Z.to_nat i)) as [ta Ha]; [lia|].
      destruct (nth_ex t0 (S (Z.to_nat i))) as [tb Hb]; [lia|]. exists ta, tb.
      split; auto. split; auto. split; [apply (H _ _ Ha); lia|].
      destruct (Rlt_dec t tb); auto. exfalso. assert (tb <= t) as H3 by lra. apply (H _ _ Hb) in H3. lia.
Qed.

Lemma derivative_kind t0 c0 t f d :
  increasing t0 -> length c0 = length t0 -> (2 <= length t0)%nat ->
  (forall k tk, nth_error t0 k = Some tk -> t <> tk) ->
  (forall u, interp_one t0 c0 INTERP_C1 true (Some u) = Some (Some (f u))) ->
  interp_one t0 c0 INTERP_C1D1 true (Some t) = Some (Some d) ->
  is_derive f t d.
Proof.
  intros I L N Hn Hf Hd. pose proof (increasing_sorted _ I) as So.
  destruct (bisect_R t0 t So) as (i & Eb & B & H).
  destruct (is_last_R t0 t) as (z & Hz & El); [intros ->; simpl in N; lia|].
  destruct (nodes_below t0 t I N) as [(ta & Ha & T)|[(k & ta & tb & Ha & Hb & T)|(tl & Hl & T)]].
  - assert (i = (-1)%Z) as -> by (apply (before_index t0 t i ta); auto; lia).
    destruct (segment_ex t0 c0 0 L) as (ta' & ca & tb & cb & S); [lia|].
    pose proof S as (S1 & _). assert (ta' = ta) as -> by congruence.
    pose proof (segment_lt _ _ _ _ _ _ _ I S) as Lt.
    rewrite (interp1d1_seg t0 c0 t _ 0 ta ca tb cb true (Reqb t z) Eb) in Hd; auto.
    simpl in Hd. injection Hd as <-.
    apply (is_derive_ext_loc (line ta ca tb cb)); [|apply derive_segment; auto].
    exists (mkposreal (ta - t) ltac:(lra)). intros u Hu. unfold ball in Hu. simpl in Hu.
    unfold AbsRing_ball, abs, minus, plus, opp in Hu. simpl in Hu. apply Rabs_def2 in Hu.
    pose proof (linear_before t0 c0 true u ta ca tb cb I L S ltac:(lra)) as E.
    rewrite Hf in E. injection E as ->. reflexivity.
  - assert (t <> ta) by (apply (Hn k); auto). pose proof (seg_len _ _ _ Hb) as Hk.
    assert (i = Z.of_nat k) as -> by (apply (seg_index t0 t i k ta tb); auto; lra).
    destruct (segment_ex t0 c0 k L Hk) as (ta' & ca & tb' & cb & S).
    pose proof S as (S1 & _ & S3 & _). assert (ta' = ta) as -> by congruence.
    assert (tb' = tb) as -> by congruence.
    pose proof (segment_lt _ _ _ _ _ _ _ I S) as Lt.
    rewrite (interp1d1_seg t0 c0 t _ k ta ca tb cb true (Reqb t z) Eb) in Hd; auto.
    2:{ unfold clip. destruct (Z.ltb_spec (Z.of_nat k) 0); [lia|].
        destruct (Z.ltb_spec (Z.of_nat (length t0) - 2) (Z.of_nat k)); lia. }
    simpl in Hd. injection Hd as <-.
    apply (is_derive_ext_loc (line ta ca tb cb)); [|apply derive_segment; auto].
    assert (0 < Rmin (t - ta) (tb - t)) by (apply Rmin_glb_lt; lra).
    exists (mkposreal (Rmin (t - ta) (tb - t)) ltac:(lra)). intros u Hu. unfold ball in Hu. simpl in Hu.
    unfold AbsRing_ball, abs, minus, plus, opp in Hu. simpl in Hu. apply Rabs_def2 in Hu.
    pose proof (Rmin_l (t - ta) (tb - t)). pose proof (Rmin_r (t - ta) (tb - t)).
    pose proof (linear_between t0 c0 true u k ta ca tb cb I L S ltac:(lra)) as E.
    rewrite Hf in E. injection E as ->. reflexivity.
  - assert (t <> tl) by (apply (Hn (length t0 - 1)%nat); auto).
    destruct (segment_ex t0 c0 (length t0 - 2) L) as (ta & ca & tb & cb & S); [lia|].
    pose proof S as (S1 & _ & S3 & _). pose proof (segment_lt _ _ _ _ _ _ _ I S) as Lt.
    replace (Datatypes.S (length t0 - 2)) with (length t0 - 1)%nat in S3 by lia.
    assert (tb = tl) as -> by congruence.
    assert (i = (Z.of_nat (length t0) - 1)%Z) as ->.
    { assert ((Z.of_nat (length t0 - 1) <= i)%Z) by (apply (H _ _ S3); lra). lia. }
    rewrite (interp1d1_seg t0 c0 t _ (length t0 - 2) ta ca tl cb true (Reqb t z) Eb) in Hd; auto.
    2:{ unfold clip. destruct (Z.ltb_spec (Z.of_nat (length t0) - 1) 0); [lia|].
        destruct (Z.ltb_spec (Z.of_nat (length t0) - 2) (Z.of_nat (length t0) - 1)); lia. }
    simpl in Hd. injection Hd as <-.
    apply (is_derive_ext_loc (line ta ca tl cb)); [|apply derive_segment; auto].
    exists (mkposreal (t - tl) ltac:(lra)). intros u Hu. unfold ball in Hu. simpl in Hu.
    unfold AbsRing_ball, abs, minus, plus, opp in Hu. simpl in Hu. apply Rabs_def2 in Hu.
    pose proof (linear_after t0 c0 true u (length t0 - 2) ta ca tl cb I L ltac:(lia) S ltac:(lra)) as E.
    rewrite Hf in E. injection E as ->. reflexivity.
Qed.

(** totality: inside of the nodes, or with extrapolation, all kinds give a number *)
Lemma interp_total t0 c0 kind t :
  sorted_nodes t0 -> length c0 = length t0 -> (min_nt kind <= length t0)%nat ->
  exists v, interp_one t0 c0 kind true (Some t) = Some (Some v).
Proof.
  intros S L N. destruct (bisect_R t0 t S) as (i & Eb & B & H).
  destruct (is_last_R t0 t) as (z & Hz & El); [intros ->; destruct kind; simpl in N; lia|].
  destruct kind; simpl in N.
  - unfold interp_one, get_interp_basis, get_interp0_basis. rewrite Eb, El. simpl.
    unfold interp0_eval. cbn [b_i].
    destruct (aread_some c0 (clip i 0 (Z.of_nat (length t0) - 1))) as [a ->]; eauto.
    pose proof (clip_bounds i 0 (Z.of_nat (length t0) - 1) ltac:(lia)). lia.
  - pose proof (clip_bounds i 0 (Z.of_nat (length t0) - 2) ltac:(lia)) as C.
    destruct (segment_ex t0 c0 (Z.to_nat (clip i 0 (Z.of_nat (length t0) - 2))) L)
      as (ta & ca & tb & cb & Sg); [lia|].
    eexists. apply (interp1_seg t0 c0 t i _ ta ca tb cb true _ Eb (eq_sym (Z2Nat.id _ (proj1 C))) Sg El).
  - pose proof (clip_bounds i 0 (Z.of_nat (length t0) - 2) ltac:(lia)) as C.
    destruct (segment_ex t0 c0 (Z.to_nat (clip i 0 (Z.of_nat (length t0) - 2))) L)
      as (ta & ca & tb & cb & Sg); [lia|].
    eexists. apply (interp1d1_seg t0 c0 t i _ ta ca tb cb true _ Eb (eq_sym (Z2Nat.id _ (proj1 C))) Sg El).
Qed.

(** no read outside of the arrays, for any nodes (also unsorted) and any time *)
Lemma interp_no_oob t0 c0 kind extrapolate t :
  length c0 = length t0 -> (min_nt kind <= length t0)%nat ->
  exists v, interp_one t0 c0 kind extrapolate t = Some v.
Proof.
  intros L N. destruct (bisect_right_total t t0) as (i & Eb & B).
  assert (exists last, is_last t t0 = Some last) as [last El].
  { unfold is_last. destruct (aread_some t0 (Z.of_nat (length t0) - 1)) as [a ->]; eauto.
    destruct kind; simpl in N; lia. }
  unfold interp_one. destruct kind; simpl in N; unfold get_interp_basis.
  - unfold get_interp0_basis. rewrite Eb, El. cbn [b_i0 b_i].
    destruct (_ || _ || _); eauto. unfold interp_eval, interp0_eval. cbn [b_i].
    pose proof (clip_bounds i 0 (Z.of_nat (length t0) - 1) ltac:(lia)).
    destruct (aread_some c0 (clip i 0 (Z.of_nat (length t0) - 1))) as [a ->]; eauto. lia.
  - unfold get_interp1_basis. rewrite Eb.
    pose proof (clip_bounds i 0 (Z.of_nat (length t0) - 2) ltac:(lia)) as C.
    set (idx := clip i 0 (Z.of_nat (length t0) - 2)) in *.
    destruct (aread_some t0 idx) as [a ->]; [lia|]. destruct (aread_some t0 (idx + 1)) as [b ->]; [lia|].
    rewrite El. destruct (_ || _ || _); eauto. unfold interp_eval, interp1_eval. cbn [b_i].
    destruct (aread_some c0 idx) as [ca ->]; [lia|]. destruct (aread_some c0 (idx + 1)) as [cb ->]; [lia|].
    eauto.
  - unfold get_interp1d1_basis. rewrite Eb.
    pose proof (clip_bounds i 0 (Z.of_nat (length t0) - 2) ltac:(lia)) as C.
    set (idx := clip i 0 (Z.of_nat (length t0) - 2)) in *.
    destruct (aread_some t0 idx) as [a ->]; [lia|]. destruct (aread_some t0 (idx + 1)) as [b ->]; [lia|].
    rewrite El. destruct (_ || _ || _); eauto. unfold interp_eval, interp1_eval. cbn [b_i].
    destruct (aread_some c0 idx) as [ca ->]; [lia|]. destruct (aread_some c0 (idx + 1)) as [cb ->]; [lia|].
    eauto.
Qed.

(** ** the array function *)

Lemma interp_raises time time0 coeff0 kind extrapolate :
  interp time time0 coeff0 kind extrapolate = Raised <->
  (length time0 < min_nt kind)%nat \/ exists c0, In c0 coeff0 /\ length c0 <> length time0.
Proof.
  unfold interp. destruct (forallb _ coeff0) eqn:F; destruct (min_nt kind <=? length time0)%nat eqn:M;
    cbn [andb]; rewrite ?Nat.leb_le, ?Nat.leb_gt in M; split; intro H; try discriminate; auto.
  - exfalso. destruct H as [H|(c0 & Hc & H)]; [lia|]. rewrite forallb_forall in F.
    apply F in Hc. apply Nat.eqb_eq in Hc. auto.
  - right. destruct (forallb_forall (fun c0 => (length c0 =? length time0)%nat) coeff0) as [_ G].
    destruct (existsb (fun c0 => negb (length c0 =? length time0)%nat) coeff0) eqn:X.
    + apply existsb_exists in X as (c0 & Hc & X). exists c0. split; auto.
      apply negb_true_iff, Nat.eqb_neq in X. auto.
    + exfalso. assert (forallb (fun c0 => (length c0 =? length time0)%nat) coeff0 = true); [|congruence].
      apply G. intros x Hx. destruct (length x =? length time0)%nat eqn:Q; auto.
      assert (existsb (fun c0 => negb (length c0 =? length time0)%nat) coeff0 = true); [|congruence].
      apply existsb_exists. exists x. rewrite Q. auto.
Qed.

Lemma interp_element time time0 coeff0 kind extrapolate res i j t c0 :
  interp time time0 coeff0 kind extrapolate = Returned res ->
  nth_error time i = Some t -> nth_error coeff0 j = Some c0 ->
  length c0 = length time0 /\ (min_nt kind <= length time0)%nat /\
  exists row, nth_error res i = Some row /\ length row = length coeff0 /\
    nth_error row j = Some (interp_one time0 c0 kind extrapolate t).
Proof.
  unfold interp. destruct (forallb _ coeff0 && _) eqn:C; [|discriminate].
  apply andb_true_iff in C as [F M]. rewrite forallb_forall in F. apply Nat.leb_le in M.
  intros E Hi Hj. injection E as <-. split; [|split; auto].
  - apply nth_error_In, F, Nat.eqb_eq in Hj. exact Hj.
  - exists (map (fun c0 => interp_one time0 c0 kind extrapolate t) coeff0).
    split; [apply (map_nth_error (fun t => map _ coeff0)); auto|]. split; [apply map_length|].
    apply (map_nth_error (fun c0 => interp_one time0 c0 kind extrapolate t)). exact Hj.
Qed.

(** examples *)
Lemma ex_nodes : increasing [0; 1; 3] /\ segment [0; 1; 3] [5; 7; 1] 1 1 7 3 1.
Proof.
  split; [|repeat split].
  intros i j a b Hij Hi Hj.
  destruct i as [|[|[|i]]]; destruct j as [|[|[|j]]]; simpl in Hi, Hj; try lia;
    try (injection Hi as <-); try (injection Hj as <-); try lra;
    try (destruct i; discriminate); try (destruct j; discriminate).
Qed.

Lemma ex_interp : interp_one [0; 1; 3] [5; 7; 1] INTERP_C1 false (Some 2) = Some (Some 4).
Proof.
  destruct ex_nodes as [I S]. rewrite (linear_between [0; 1; 3] [5; 7; 1] false 2 1 1 7 3 1 I eq_refl S) by lra.
  unfold line. do 2 f_equal. field.
Qed.

Lemma const_no_nan : exists t0 c0 t, increasing t0 /\ length c0 = length t0 /\
  (forall k tk, nth_error t0 k = Some tk -> tk < t) /\
  interp_one t0 c0 INTERP_C0 false (Some t) <> Some None.
Proof.
  exists [0; 1; 3], [5; 7; 1], 9. destruct ex_nodes as [I _]. split; auto. split; auto. split.
  - intros k tk H. destruct k as [|[|[|k]]]; simpl in H; try (injection H as <-; lra).
    destruct k; discriminate.
  - rewrite (const_after [0; 1; 3] [5; 7; 1] false 9 3 1 (increasing_sorted _ I)); auto; try lra. discriminate.
Qed.
