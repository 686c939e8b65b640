(** Proofs about the interval search. *)

From Coq Require Import Bool List Arith ZArith Lia.
From Verif Require Import Ord BisectModel BisectSpec.
Import ListNotations.
Open Scope Z_scope.

Lemma aread_some {A} (v : list A) i : 0 <= i < Z.of_nat (length v) -> exists a, aread v i = Some a.
Proof.
  intros H. unfold aread. destruct (Z.ltb_spec i 0); [lia|].
  destruct (nth_error v (Z.to_nat i)) eqn:E; eauto.
  apply nth_error_None in E. lia.
Qed.

Lemma aread_nth {A} (v : list A) i a : aread v i = Some a ->
  nth_error v (Z.to_nat i) = Some a /\ 0 <= i < Z.of_nat (length v).
Proof.
  unfold aread. destruct (Z.ltb_spec i 0); [discriminate|]. intro E. split; auto.
  assert (Z.to_nat i < length v)%nat by (apply nth_error_Some; congruence). lia.
Qed.

Lemma aread_of_nat {A} (v : list A) k : aread v (Z.of_nat k) = nth_error v k.
Proof. unfold aread. destruct (Z.ltb_spec (Z.of_nat k) 0); [lia|]. rewrite Nat2Z.id. reflexivity. Qed.

Lemma mid_bounds lo hi : lo < hi -> lo + 1 <= lo + 1 + Z.quot (hi - lo) 2 <= hi.
Proof.
  intro H. rewrite Z.quot_div_nonneg by lia.
  pose proof (Z.div_mod (hi - lo) 2 ltac:(lia)). pose proof (Z.mod_pos_bound (hi - lo) 2 ltac:(lia)).
  lia.
Qed.

Section Proofs.
Context {T : Type} {OT : TOrd T}.

(** Bounds, for any array *)
Lemma right_loop_total x (v : list T) : forall fuel lo hi,
  0 <= lo <= hi -> hi <= Z.of_nat (length v) - 2 -> hi - lo <= Z.of_nat fuel ->
  exists i, right_loop fuel x v lo hi = Some i /\ lo <= i <= hi.
Proof.
  induction fuel as [|fuel IH]; intros lo hi H1 H2 H3; cbn [right_loop];
    destruct (Z.ltb_spec lo hi) as [L|L]; try lia; try (exists lo; split; [reflexivity|lia]).
  pose proof (mid_bounds lo hi L) as M. cbv zeta. set (i := lo + 1 + Z.quot (hi - lo) 2) in *.
  destruct (aread_some v i) as [a ->]; [lia|].
  destruct (x_ge x a).
  - destruct (IH i hi) as (r & E & B); try lia. exists r. split; [exact E|lia].
  - destruct (IH lo (i - 1)) as (r & E & B); try lia. exists r. split; [exact E|lia].
Qed.

Lemma left_loop_total x (v : list T) : forall fuel lo hi,
  0 <= lo <= hi -> hi <= Z.of_nat (length v) - 2 -> hi - lo <= Z.of_nat fuel ->
  exists i, left_loop fuel x v lo hi = Some i /\ lo <= i <= hi.
Proof.
  induction fuel as [|fuel IH]; intros lo hi H1 H2 H3; cbn [left_loop];
    destruct (Z.ltb_spec lo hi) as [L|L]; try lia; try (exists hi; split; [reflexivity|lia]).
  pose proof (mid_bounds lo hi L) as M. cbv zeta. set (i := lo + 1 + Z.quot (hi - lo) 2) in *.
  destruct (aread_some v i) as [a ->]; [lia|].
  destruct (x_le x a).
  - destruct (IH lo (i - 1)) as (r & E & B); try lia. exists r. split; [exact E|lia].
  - destruct (IH i hi) as (r & E & B); try lia. exists r. split; [exact E|lia].
Qed.

Lemma length_two (v : list T) (f : T -> bool) a0 a1 : v <> [] ->
  aread v 0 = Some a0 -> aread v (Z.of_nat (length v) - 1) = Some a1 ->
  f a0 = true -> f a1 = false -> 2 <= Z.of_nat (length v).
Proof.
  intros Hn E0 E1 F0 F1. destruct v as [|b [|c v]]; [congruence| |simpl length; lia].
  change (Z.of_nat (length [b]) - 1) with 0 in E1. congruence.
Qed.

Lemma bisect_right_total x (v : list T) :
  exists i, bisect_right x v = Some i /\ -1 <= i < Z.max 1 (Z.of_nat (length v)).
Proof.
  unfold bisect_right. destruct (Z.ltb_spec (Z.of_nat (length v)) 1) as [L|L].
  - exists (-1). split; [reflexivity|lia].
  - destruct (aread_some v 0) as [a0 E0]; [lia|]. rewrite E0.
    destruct (x_ge x a0) eqn:X0; cbn [negb]; [|exists (-1); split; [reflexivity|lia]].
    destruct (aread_some v (Z.of_nat (length v) - 1)) as [a1 E1]; [lia|]. rewrite E1.
    destruct (x_ge x a1) eqn:X1; [eexists; split; [reflexivity|lia]|].
    assert (2 <= Z.of_nat (length v)).
    { apply (length_two v (x_ge x) a0 a1); auto. intros ->. simpl in L. lia. }
    destruct (right_loop_total x v (length v) 0 (Z.of_nat (length v) - 2)) as (i & E & B); try lia.
    exists i. split; [exact E|lia].
Qed.

Lemma bisect_left_total x (v : list T) :
  exists i, bisect_left x v = Some i /\ -1 <= i < Z.max 1 (Z.of_nat (length v)).
Proof.
  unfold bisect_left. destruct (Z.ltb_spec (Z.of_nat (length v)) 1) as [L|L].
  - exists (-1). split; [reflexivity|lia].
  - destruct (aread_some v 0) as [a0 E0]; [lia|]. rewrite E0.
    destruct (x_gt x a0) eqn:X0; cbn [negb]; [|exists (-1); split; [reflexivity|lia]].
    destruct (aread_some v (Z.of_nat (length v) - 1)) as [a1 E1]; [lia|]. rewrite E1.
    destruct (x_gt x a1) eqn:X1; [eexists; split; [reflexivity|lia]|].
    assert (2 <= Z.of_nat (length v)).
    { apply (length_two v (x_gt x) a0 a1); auto. intros ->. simpl in L. lia. }
    destruct (left_loop_total x v (length v) 0 (Z.of_nat (length v) - 2)) as (i & E & B); try lia.
    exists i. split; [exact E|lia].
Qed.

(** Position, for sorted arrays *)
Lemma right_loop_pos x (v : list T) : forall fuel lo hi i,
  right_loop fuel (Some x) v lo hi = Some i -> lo <= hi ->
  (forall a, aread v lo = Some a -> le a x) ->
  (forall a, aread v (hi + 1) = Some a -> lt x a) ->
  (forall a, aread v i = Some a -> le a x) /\ (forall a, aread v (i + 1) = Some a -> lt x a).
Proof.
  induction fuel as [|fuel IH]; intros lo hi i; cbn [right_loop];
    destruct (Z.ltb_spec lo hi) as [L|L]; try discriminate;
    try (intros E Hle H1 H2; injection E as <-; replace (lo + 1) with (hi + 1) by lia; auto; fail).
  cbv zeta. pose proof (mid_bounds lo hi L) as M. set (k := lo + 1 + Z.quot (hi - lo) 2) in *.
  destruct (aread v k) as [a|] eqn:Ek; [|discriminate]. cbn [x_ge].
  destruct (leb a x) eqn:C; intros E Hle H1 H2.
  - apply (IH _ _ _ E); [lia| |auto]. intros b Hb. rewrite Ek in Hb. injection Hb as <-. ord.
  - apply (IH _ _ _ E); [lia|auto|]. replace (k - 1 + 1) with k by lia.
    intros b Hb. rewrite Ek in Hb. injection Hb as <-. ord.
Qed.

Lemma left_loop_pos x (v : list T) : forall fuel lo hi i,
  left_loop fuel (Some x) v lo hi = Some i -> lo <= hi ->
  (forall a, aread v lo = Some a -> lt a x) ->
  (forall a, aread v (hi + 1) = Some a -> le x a) ->
  (forall a, aread v i = Some a -> lt a x) /\ (forall a, aread v (i + 1) = Some a -> le x a).
Proof.
  induction fuel as [|fuel IH]; intros lo hi i; cbn [left_loop];
    destruct (Z.ltb_spec lo hi) as [L|L]; try discriminate;
    try (intros E Hle H1 H2; injection E as <-; assert (lo = hi) as -> by lia; auto; fail).
  cbv zeta. pose proof (mid_bounds lo hi L) as M. set (k := lo + 1 + Z.quot (hi - lo) 2) in *.
  destruct (aread v k) as [a|] eqn:Ek; [|discriminate]. cbn [x_le].
  destruct (leb x a) eqn:C; intros E Hle H1 H2.
  - apply (IH _ _ _ E); [lia|auto|]. replace (k - 1 + 1) with k by lia.
    intros b Hb. rewrite Ek in Hb. injection Hb as <-. ord.
  - apply (IH _ _ _ E); [lia| |auto]. intros b Hb. rewrite Ek in Hb. injection Hb as <-. ord.
Qed.

Lemma sorted_le (v : list T) : sorted_nodes v -> forall i j a b, (i <= j)%nat ->
  nth_error v i = Some a -> nth_error v j = Some b -> le a b.
Proof.
  intros S i j a b Hij Hi Hj. destruct (Nat.eq_dec i j) as [->|].
  - assert (a = b) as -> by congruence. apply le_refl.
  - apply (S i j a b); auto. lia.
Qed.

(** From the two neighbours to all nodes *)
Lemma right_neighbours (v : list T) x i : sorted_nodes v -> -1 <= i < Z.of_nat (length v) ->
  (forall a, aread v i = Some a -> le a x) -> (forall a, aread v (i + 1) = Some a -> lt x a) ->
  last_index (fun a => le a x) v i.
Proof.
  intros S B H1 H2. split; auto. intros k a Hk. split; intro H.
  - destruct (Z.le_gt_cases (Z.of_nat k) i); auto. exfalso.
    assert (k < length v)%nat by (apply nth_error_Some; congruence).
    destruct (aread_some v (i + 1)) as [b Hb]; [lia|]. pose proof (H2 b Hb).
    apply aread_nth in Hb as [Hb _].
    assert (le b a) by (apply (sorted_le v S (Z.to_nat (i + 1)) k); auto; lia). ord.
  - destruct (aread_some v i) as [b Hb]; [lia|]. pose proof (H1 b Hb).
    apply aread_nth in Hb as [Hb _].
    assert (le a b) by (apply (sorted_le v S k (Z.to_nat i)); auto; lia). ord.
Qed.

Lemma left_neighbours (v : list T) x i : sorted_nodes v -> -1 <= i < Z.of_nat (length v) ->
  (forall a, aread v i = Some a -> lt a x) -> (forall a, aread v (i + 1) = Some a -> le x a) ->
  last_index (fun a => lt a x) v i.
Proof.
  intros S B H1 H2. split; auto. intros k a Hk. split; intro H.
  - destruct (Z.le_gt_cases (Z.of_nat k) i); auto. exfalso.
    assert (k < length v)%nat by (apply nth_error_Some; congruence).
    destruct (aread_some v (i + 1)) as [b Hb]; [lia|]. pose proof (H2 b Hb).
    apply aread_nth in Hb as [Hb _].
    assert (le b a) by (apply (sorted_le v S (Z.to_nat (i + 1)) k); auto; lia). ord.
  - destruct (aread_some v i) as [b Hb]; [lia|]. pose proof (H1 b Hb).
    apply aread_nth in Hb as [Hb _].
    assert (le a b) by (apply (sorted_le v S k (Z.to_nat i)); auto; lia). ord.
Qed.

Lemma aread_neg {A} (v : list A) a : aread v (-1) = Some a -> False.
Proof. discriminate. Qed.

Lemma aread_end {A} (v : list A) i a : Z.of_nat (length v) <= i -> aread v i = Some a -> False.
Proof. intros H E. apply aread_nth in E. lia. Qed.

Lemma bisect_right_pos x (v : list T) : sorted_nodes v ->
  exists i, bisect_right (Some x) v = Some i /\ last_index (fun a => le a x) v i.
Proof.
  intro S. destruct (bisect_right_total (Some x) v) as (i & E & B). exists i. split; auto.
  unfold bisect_right in E. destruct (Z.ltb_spec (Z.of_nat (length v)) 1) as [L|L].
  - injection E as <-. apply right_neighbours; auto; try lia.
    + intros a Ha. destruct (aread_neg v a Ha).
    + intros a Ha. destruct (aread_end v (-1 + 1) a ltac:(lia) Ha).
  - destruct (aread_some v 0) as [a0 E0]; [lia|]. rewrite E0 in E. cbn [x_ge] in E.
    destruct (leb a0 x) eqn:X0; cbn [negb] in E.
    + destruct (aread_some v (Z.of_nat (length v) - 1)) as [a1 E1]; [lia|]. rewrite E1 in E.
      destruct (leb a1 x) eqn:X1.
      * injection E as <-. apply right_neighbours; auto; try lia.
        -- intros a Ha. rewrite E1 in Ha. injection Ha as <-. ord.
        -- intros a Ha. destruct (aread_end v (Z.of_nat (length v) - 1 + 1) a ltac:(lia) Ha).
      * assert (2 <= Z.of_nat (length v)).
        { apply (length_two v (x_ge (Some x)) a0 a1); auto. intros ->. simpl in L. lia. }
        apply right_loop_pos in E as [P1 P2]; try lia.
        -- apply right_neighbours; auto; lia.
        -- intros a Ha. rewrite E0 in Ha. injection Ha as <-. ord.
        -- replace (Z.of_nat (length v) - 2 + 1) with (Z.of_nat (length v) - 1) by lia.
           intros a Ha. rewrite E1 in Ha. injection Ha as <-. ord.
    + injection E as <-. apply right_neighbours; auto; try lia.
      * intros a Ha. destruct (aread_neg v a Ha).
      * intros a Ha. change (-1 + 1) with 0 in Ha. rewrite E0 in Ha. injection Ha as <-. ord.
Qed.

Lemma bisect_left_pos x (v : list T) : sorted_nodes v ->
  exists i, bisect_left (Some x) v = Some i /\ last_index (fun a => lt a x) v i.
Proof.
  intro S. destruct (bisect_left_total (Some x) v) as (i & E & B). exists i. split; auto.
  unfold bisect_left in E. destruct (Z.ltb_spec (Z.of_nat (length v)) 1) as [L|L].
  - injection E as <-. apply left_neighbours; auto; try lia.
    + intros a Ha. destruct (aread_neg v a Ha).
    + intros a Ha. destruct (aread_end v (-1 + 1) a ltac:(lia) Ha).
  - destruct (aread_some v 0) as [a0 E0]; [lia|]. rewrite E0 in E. cbn [x_gt] in E.
    destruct (ltb a0 x) eqn:X0; cbn [negb] in E.
    + destruct (aread_some v (Z.of_nat (length v) - 1)) as [a1 E1]; [lia|]. rewrite E1 in E.
      destruct (ltb a1 x) eqn:X1.
      * injection E as <-. apply left_neighbours; auto; try lia.
        -- intros a Ha. rewrite E1 in Ha. injection Ha as <-. ord.
        -- intros a Ha. destruct (aread_end v (Z.of_nat (length v) - 1 + 1) a ltac:(lia) Ha).
      * assert (2 <= Z.of_nat (length v)).
        { apply (length_two v (x_gt (Some x)) a0 a1); auto. intros ->. simpl in L. lia. }
        apply left_loop_pos in E as [P1 P2]; try lia.
        -- apply left_neighbours; auto; lia.
        -- intros a Ha. rewrite E0 in Ha. injection Ha as <-. ord.
        -- replace (Z.of_nat (length v) - 2 + 1) with (Z.of_nat (length v) - 1) by lia.
           intros a Ha. rewrite E1 in Ha. injection Ha as <-. ord.
    + injection E as <-. apply left_neighbours; auto; try lia.
      * intros a Ha. destruct (aread_neg v a Ha).
      * intros a Ha. change (-1 + 1) with 0 in Ha. rewrite E0 in Ha. injection Ha as <-. ord.
Qed.

Lemma last_index_unique (p : T -> Prop) v i j : last_index p v i -> last_index p v j -> i = j.
Proof.
  intros [Bi Hi] [Bj Hj].
  destruct (Z.lt_trichotomy i j) as [L|[L|L]]; auto; exfalso.
  - destruct (nth_error v (Z.to_nat j)) as [a|] eqn:E.
    + pose proof (Hi _ _ E) as X. pose proof (Hj _ _ E) as Y. assert (p a) by (apply Y; lia). apply X in H. lia.
    + apply nth_error_None in E. lia.
  - destruct (nth_error v (Z.to_nat i)) as [a|] eqn:E.
    + pose proof (Hi _ _ E) as X. pose proof (Hj _ _ E) as Y. assert (p a) by (apply X; lia). apply Y in H. lia.
    + apply nth_error_None in E. lia.
Qed.

(** final forms *)

Lemma bisect_in_bounds (v : list T) xs side : 
  length (bisect v xs side) = length xs /\
  forall r, In r (bisect v xs side) -> exists i, r = Some i /\ -1 <= i < Z.max 1 (Z.of_nat (length v)).
Proof.
  unfold bisect. split; [apply map_length|]. intros r Hr. apply in_map_iff in Hr as (x & <- & _).
  destruct side; [apply bisect_right_total|apply bisect_left_total].
Qed.

Lemma bisect_position (v : list T) xs side k x : sorted_nodes v -> nth_error xs k = Some (Some x) ->
  exists i, nth_error (bisect v xs side) k = Some (Some i) /\
    last_index (fun a => if side then le a x else lt a x) v i.
Proof.
  intros S Hk. unfold bisect. rewrite (map_nth_error _ _ _ Hk).
  destruct side.
  - destruct (bisect_right_pos x v S) as (i & -> & H). eauto.
  - destruct (bisect_left_pos x v S) as (i & -> & H). eauto.
Qed.

Lemma bisect_brackets (v : list T) xs side k x : sorted_nodes v -> v <> [] ->
  nth_error xs k = Some (Some x) ->
  exists i, nth_error (bisect v xs side) k = Some (Some i) /\
  (i = -1 <-> exists a, nth_error v 0 = Some a /\ if side then lt x a else le x a) /\
  (i = Z.of_nat (length v) - 1 <-> exists a, nth_error v (length v - 1) = Some a /\
     if side then le a x else lt a x) /\
  (0 <= i < Z.of_nat (length v) - 1 -> exists a b, nth_error v (Z.to_nat i) = Some a /\
     nth_error v (Z.to_nat (i + 1)) = Some b /\ if side then le a x /\ lt x b else lt a x /\ le x b).
Proof.
  intros S Hne Hk. destruct (bisect_position v xs side k x S Hk) as (i & E & [B H]).
  exists i. split; [exact E|].
  assert (Hlen : (0 < length v)%nat) by (destruct v; [congruence|simpl; lia]).
  assert (N : forall j, (j < length v)%nat -> exists a, nth_error v j = Some a).
  { intros j Hj. destruct (nth_error v j) eqn:Ej; eauto. apply nth_error_None in Ej. lia. }
  assert (D : forall a, ~ (if side then le a x else lt a x) <-> (if side then lt x a else le x a)).
  { intro a. destruct side; split; intros; try ord.
    - destruct (le_or_lt a x); [tauto|auto].
    - intro. ord.
    - destruct (le_or_lt x a); [auto|tauto].
    - intro. ord. }
  split; [|split].
  - destruct (N 0%nat Hlen) as [a Ha]. split.
    + intros ->. exists a. split; auto. apply D. rewrite (H _ _ Ha). lia.
    + intros (a' & Ha' & Hx). apply D in Hx. rewrite (H _ _ Ha') in Hx. lia.
  - destruct (N (length v - 1)%nat ltac:(lia)) as [a Ha]. split.
    + intros ->. exists a. split; auto. apply (H _ _ Ha). lia.
    + intros (a' & Ha' & Hx). apply (H _ _ Ha') in Hx. lia.
  - intro Hi. destruct (N (Z.to_nat i) ltac:(lia)) as [a Ha].
    destruct (N (Z.to_nat (i + 1)) ltac:(lia)) as [b Hb].
    exists a, b. split; auto. split; auto.
    assert (Pa : if side then le a x else lt a x) by (apply (H _ _ Ha); lia).
    assert (Pb : if side then lt x b else le x b) by (apply D; rewrite (H _ _ Hb); lia).
    destruct side; auto.
Qed.

Lemma bisect_nan (v : list T) xs side k : nth_error xs k = Some None ->
  nth_error (bisect v xs side) k = Some (Some (-1)).
Proof.
  intro Hk. unfold bisect. rewrite (map_nth_error _ _ _ Hk).
  destruct side.
  - destruct (bisect_right_total None v) as (i & E & B). rewrite E. unfold bisect_right in E.
    destruct (_ <? _); [congruence|]. destruct (aread v 0); [simpl in E|discriminate]. congruence.
  - destruct (bisect_left_total None v) as (i & E & B). rewrite E. unfold bisect_left in E.
    destruct (_ <? _); [congruence|]. destruct (aread v 0); [simpl in E|discriminate]. congruence.
Qed.

End Proofs.

Lemma ex_bisect : sorted_nodes [1; 3; 3; 7; 9] /\
  bisect [1; 3; 3; 7; 9] [Some 0; Some 1; Some 3; Some 5; Some 9; None] true
    = map Some [-1; 0; 2; 2; 4; -1] /\
  bisect [1; 3; 3; 7; 9] [Some 0; Some 1; Some 3; Some 5; Some 9; Some 10; None] false
    = map Some [-1; -1; 0; 2; 3; 4; -1].
Proof.
  split; [|split; vm_compute; reflexivity].
  intros i j a b Hij Hi Hj. apply leb_le.
  destruct i as [|[|[|[|[|i]]]]]; destruct j as [|[|[|[|[|j]]]]]; simpl in Hi, Hj; try lia;
    try (injection Hi as <-); try (injection Hj as <-); try reflexivity;
    try (destruct i; discriminate); try (destruct j; discriminate).
Qed.
