(** legendre, relradpow and loncossin *)

From Coq Require Import Bool List Reals Factorial Arith Lra Lia.
From Coquelicot Require Import Coquelicot.
From Verif Require Import ArrModel LegendreModel LegendreSpec LoopProofs LegendrePoly LegendreGauss LegendreLow LegendreHigh.
Import ListNotations.
Open Scope R_scope.

Lemma tables degree junk1 junk2 : sqrt_table degree (shc_presqrt degree junk1) (shc_prersqrt degree junk2).
Proof. intros k Hk. split; [now apply presqrt_spec|now apply prersqrt_spec]. Qed.

Lemma sqrt_cos x : sqrt ((1 - sin x) * (1 + sin x)) = Rabs (cos x).
Proof.
  replace ((1 - sin x) * (1 + sin x)) with (Rsqr (cos x)) by (pose proof (sin2_cos2 x); unfold Rsqr in *; lra).
  apply sqrt_Rsqr_abs.
Qed.
Lemma cos_abs x : - (PI / 2) <= x <= PI / 2 -> Rabs (cos x) = cos x.
Proof. intro H. apply Rabs_pos_eq. apply cos_ge_0; lra. Qed.

Lemma shc_legendre_cases lp ldp degree elv psqrt prsqrt :
  - (PI / 2) <= elv <= PI / 2 ->
  shc_legendre lp ldp degree elv psqrt prsqrt
    = shc_legendre_low lp ldp degree (sin elv) (cos elv) psqrt prsqrt \/
  (16 < degree)%nat /\ cos elv <> 0 /\
  shc_legendre lp ldp degree elv psqrt prsqrt
    = shc_legendre_high lp ldp degree (sin elv) (cos elv) psqrt prsqrt.
Proof.
  intro H. unfold shc_legendre. rewrite sqrt_cos, (cos_abs elv H).
  destruct (Nat.leb_spec degree 16); cbn [orb]; [left; reflexivity|].
  unfold Rltb. destruct (Rlt_dec (Rabs (cos elv)) (1 / 10 ^ 10)) as [L|L]; [left; reflexivity|].
  right. split; [lia|]. split; [|reflexivity]. intro E. apply L. rewrite E, Rabs_R0.
  apply Rdiv_lt_0_compat; [lra|]. apply pow_lt. lra.
Qed.

Lemma shc_legendre_correct lp ldp degree elv psqrt prsqrt n m :
  sqrt_table degree psqrt prsqrt -> - (PI / 2) <= elv <= PI / 2 -> (m <= n <= degree)%nat ->
  let '(lp', ldp') := shc_legendre lp ldp degree elv psqrt prsqrt in
  lp' (nm_index n m) = schmidt n m elv /\ is_derive (schmidt n m) elv (ldp' (nm_index n m)).
Proof.
  intros Q He Hn. destruct (shc_legendre_cases lp ldp degree elv psqrt prsqrt He) as [E|(D & C & E)]; rewrite E.
  - destruct degree as [|d].
    + assert (n = 0 /\ m = 0)%nat as [-> ->] by lia.
      pose proof (low_zero lp ldp (sin elv) (cos elv) psqrt prsqrt) as Z.
      destruct (shc_legendre_low lp ldp 0 (sin elv) (cos elv) psqrt prsqrt) as [lp' ldp'].
      destruct Z as (Z1 & Z2 & _). change (nm_index 0 0) with 0%nat. rewrite Z1, Z2.
      split; [now rewrite schmidt_00|].
      apply (Rderive_ext (fun _ => 1)); [intro; now rewrite schmidt_00|]. apply @is_derive_const.
    + apply low_correct; auto; lia.
  - apply high_correct; auto; lia.
Qed.

Lemma shc_legendre_frame lp ldp degree elv psqrt prsqrt k :
  sqrt_table degree psqrt prsqrt -> - (PI / 2) <= elv <= PI / 2 -> (1 <= degree)%nat -> (nm_size degree <= k)%nat ->
  let '(lp', ldp') := shc_legendre lp ldp degree elv psqrt prsqrt in
  lp' k = lp k /\ ldp' k = ldp k.
Proof.
  intros Q He Hd Hk. destruct (shc_legendre_cases lp ldp degree elv psqrt prsqrt He) as [E|(D & C & E)]; rewrite E.
  - apply low_frame; auto.
  - apply high_frame; auto.
Qed.

(** only the sine of the latitude matters *)
Lemma shc_legendre_sin lp ldp degree elv psqrt prsqrt :
  shc_legendre lp ldp degree elv psqrt prsqrt = shc_legendre lp ldp degree (asin (sin elv)) psqrt prsqrt.
Proof. unfold shc_legendre. rewrite sin_asin by apply SIN_bound. reflexivity. Qed.

Lemma legendre_pure lp ldp lp' ldp' degree elv psqrt prsqrt n m :
  sqrt_table degree psqrt prsqrt -> (m <= n <= degree)%nat ->
  fst (shc_legendre lp ldp degree elv psqrt prsqrt) (nm_index n m) = schmidt n m (asin (sin elv)) /\
  snd (shc_legendre lp ldp degree elv psqrt prsqrt) (nm_index n m)
    = snd (shc_legendre lp' ldp' degree elv psqrt prsqrt) (nm_index n m).
Proof.
  intros Q Hn. rewrite !(shc_legendre_sin _ _ degree elv).
  assert (B : - (PI / 2) <= asin (sin elv) <= PI / 2) by apply asin_bound.
  pose proof (shc_legendre_correct lp ldp degree _ psqrt prsqrt n m Q B Hn) as A1.
  pose proof (shc_legendre_correct lp' ldp' degree _ psqrt prsqrt n m Q B Hn) as A2.
  destruct (shc_legendre lp ldp degree (asin (sin elv)) psqrt prsqrt) as [a b].
  destruct (shc_legendre lp' ldp' degree (asin (sin elv)) psqrt prsqrt) as [a' b'].
  cbn [fst snd]. destruct A1 as [A1 D1]. destruct A2 as [A2 D2]. split; [exact A1|].
  apply is_derive_unique in D1. apply is_derive_unique in D2. congruence.
Qed.

(** ** Arrays of latitudes *)
Lemma unptr_low {A} (a v : nat -> A) off k : (k < off)%nat -> unptr a off v k = a k.
Proof. intro H. unfold unptr. destruct (Nat.ltb_spec k off); [reflexivity|lia]. Qed.
Lemma unptr_high {A} (a v : nat -> A) off k : unptr a off v (off + k) = v k.
Proof. unfold unptr. destruct (Nat.ltb_spec (off + k) off); [lia|]. f_equal. lia. Qed.

Lemma legendre_items_low lats : forall off size degree psqrt prsqrt p dp k, (k < off)%nat ->
  fst (legendre_items lats off size degree psqrt prsqrt p dp) k = p k /\
  snd (legendre_items lats off size degree psqrt prsqrt p dp) k = dp k.
Proof.
  induction lats as [|lat lats IH]; intros off size degree psqrt prsqrt p dp k Hk; [split; reflexivity|].
  cbn [legendre_items]. destruct (shc_legendre (ptr p off) (ptr dp off) degree (lat * DG2RAD) psqrt prsqrt) as [p' dp'].
  destruct (IH (off + size)%nat size degree psqrt prsqrt (unptr p off p') (unptr dp off dp') k) as [A B]; [lia|].
  rewrite A, B, !unptr_low by lia. auto.
Qed.

Lemma nm_index_size n m degree : (m <= n <= degree)%nat -> (nm_index n m < nm_size degree)%nat.
Proof.
  intro H. rewrite T_index, T_size. pose proof (T_le (S n) (S degree) ltac:(lia)). rewrite T_S in H0 at 1. lia.
Qed.

Lemma legendre_items_correct lats : forall off degree psqrt prsqrt p dp i lat n m,
  sqrt_table degree psqrt prsqrt -> nth_error lats i = Some lat -> -90 <= lat <= 90 -> (m <= n <= degree)%nat ->
  let r := legendre_items lats off (nm_size degree) degree psqrt prsqrt p dp in
  let k := (off + i * nm_size degree + nm_index n m)%nat in
  fst r k = schmidt n m (lat * DG2RAD) /\ is_derive (schmidt n m) (lat * DG2RAD) (snd r k).
Proof.
  induction lats as [|lat0 lats IH]; intros off degree psqrt prsqrt p dp i lat n m Q Hi Hl Hn; [destruct i; discriminate|].
  cbv zeta. cbn [legendre_items].
  destruct (shc_legendre (ptr p off) (ptr dp off) degree (lat0 * DG2RAD) psqrt prsqrt) as [p' dp'] eqn:E.
  destruct i as [|i].
  - cbn [nth_error] in Hi. injection Hi as ->. pose proof (nm_index_size n m degree Hn) as B.
    destruct (legendre_items_low lats (off + nm_size degree) (nm_size degree) degree psqrt prsqrt
      (unptr p off p') (unptr dp off dp') (off + 0 * nm_size degree + nm_index n m)) as [-> ->]; [lia|].
    replace (off + 0 * nm_size degree + nm_index n m)%nat with (off + nm_index n m)%nat by lia.
    rewrite !unptr_high.
    assert (R : - (PI / 2) <= lat * DG2RAD <= PI / 2).
    { unfold DG2RAD. pose proof PI_RGT_0. split; [replace (- (PI / 2)) with (-90 * (PI / 180)) by lra|
        replace (PI / 2) with (90 * (PI / 180)) by lra]; apply Rmult_le_compat_r; lra. }
    pose proof (shc_legendre_correct (ptr p off) (ptr dp off) degree _ psqrt prsqrt n m Q R Hn) as C.
    rewrite E in C. exact C.
  - cbn [nth_error] in Hi.
    pose proof (IH (off + nm_size degree)%nat degree psqrt prsqrt (unptr p off p') (unptr dp off dp') i lat n m Q Hi Hl Hn) as C.
    cbv zeta in C. replace (off + S i * nm_size degree + nm_index n m)%nat
      with (off + nm_size degree + i * nm_size degree + nm_index n m)%nat by lia. exact C.
Qed.

Lemma legendre_value lats degree mem junk i lat n m :
  nth_error lats i = Some lat -> -90 <= lat <= 90 -> (m <= n <= degree)%nat ->
  fst (legendre lats degree mem junk) (i * nm_size degree + nm_index n m)%nat = schmidt n m (lat * PI / 180).
Proof.
  intros Hi Hl Hn. replace (lat * PI / 180) with (lat * DG2RAD) by (unfold DG2RAD; lra).
  apply (legendre_items_correct lats 0 degree _ _ _ _ i lat n m (tables degree junk junk) Hi Hl Hn).
Qed.

Lemma legendre_derivative lats degree mem junk i lat n m :
  nth_error lats i = Some lat -> -90 <= lat <= 90 -> (m <= n <= degree)%nat ->
  is_derive (schmidt n m) (lat * PI / 180)
    (snd (legendre lats degree mem junk) (i * nm_size degree + nm_index n m)%nat).
Proof.
  intros Hi Hl Hn. replace (lat * PI / 180) with (lat * DG2RAD) by (unfold DG2RAD; lra).
  apply (legendre_items_correct lats 0 degree _ _ _ _ i lat n m (tables degree junk junk) Hi Hl Hn).
Qed.

(** the memory behind the arrays *)
Lemma legendre_items_frame lats : forall off degree psqrt prsqrt p dp k,
  sqrt_table degree psqrt prsqrt -> (1 <= degree)%nat -> (forall lat, In lat lats -> -90 <= lat <= 90) ->
  (off + length lats * nm_size degree <= k)%nat ->
  let r := legendre_items lats off (nm_size degree) degree psqrt prsqrt p dp in
  fst r k = p k /\ snd r k = dp k.
Proof.
  induction lats as [|lat lats IH]; intros off degree psqrt prsqrt p dp k Q Hd Hl Hk; [split; reflexivity|].
  cbv zeta. cbn [legendre_items length] in *.
  destruct (shc_legendre (ptr p off) (ptr dp off) degree (lat * DG2RAD) psqrt prsqrt) as [p' dp'] eqn:E.
  destruct (IH (off + nm_size degree)%nat degree psqrt prsqrt (unptr p off p') (unptr dp off dp') k Q Hd) as [-> ->];
    [intros; apply Hl; now right|lia|].
  replace k with (off + (k - off))%nat by lia. rewrite !unptr_high.
  assert (R : - (PI / 2) <= lat * DG2RAD <= PI / 2).
  { specialize (Hl lat (or_introl eq_refl)).
    unfold DG2RAD. pose proof PI_RGT_0. split; [replace (- (PI / 2)) with (-90 * (PI / 180)) by lra|
      replace (PI / 2) with (90 * (PI / 180)) by lra]; apply Rmult_le_compat_r; lra. }
  pose proof (shc_legendre_frame (ptr p off) (ptr dp off) degree _ psqrt prsqrt (k - off) Q R Hd ltac:(lia)) as C.
  rewrite E in C. exact C.
Qed.

Lemma legendre_no_overrun lats degree mem junk k :
  (1 <= degree)%nat -> (forall lat, In lat lats -> -90 <= lat <= 90) ->
  (length lats * nm_size degree <= k)%nat ->
  fst (legendre lats degree mem junk) k = fst mem k /\ snd (legendre lats degree mem junk) k = snd mem k.
Proof.
  intros Hd Hl Hk.
  apply (legendre_items_frame lats 0 degree _ _ _ _ k (tables degree junk junk) Hd Hl). lia.
Qed.

(** degree 0 writes behind the arrays *)
Lemma legendre_overrun : exists mem junk,
  fst (legendre [0] 0 mem junk) (1 * nm_size 0 + 1)%nat <> fst mem (1 * nm_size 0 + 1)%nat.
Proof.
  exists (fun _ => 0, fun _ => 0), (fun _ => 0). unfold legendre. cbn [legendre_items].
  set (q1 := shc_presqrt _ _). set (q2 := shc_prersqrt _ _).
  assert (R : - (PI / 2) <= 0 * DG2RAD <= PI / 2) by (pose proof PI_RGT_0; lra).
  set (a1 := ptr _ 0).
  destruct (shc_legendre_cases a1 a1 0 _ q1 q2 R) as [E|(D & _)]; [|lia].
  rewrite E. rewrite Rmult_0_l, sin_0, cos_0. cbn. lra.
Qed.

(** ** The algorithms agree *)
Lemma low_high lp ldp lp' ldp' degree elv psqrt prsqrt n m :
  sqrt_table degree psqrt prsqrt -> cos elv <> 0 -> (1 <= degree)%nat -> (m <= n <= degree)%nat ->
  let low := shc_legendre_low lp ldp degree (sin elv) (cos elv) psqrt prsqrt in
  let high := shc_legendre_high lp' ldp' degree (sin elv) (cos elv) psqrt prsqrt in
  fst low (nm_index n m) = fst high (nm_index n m) /\ snd low (nm_index n m) = snd high (nm_index n m).
Proof.
  intros Q C Hd Hn. cbv zeta.
  pose proof (low_correct lp ldp degree elv psqrt prsqrt n m Q Hn Hd) as A.
  pose proof (high_correct lp' ldp' degree elv psqrt prsqrt n m Q C Hn Hd) as B.
  destruct (shc_legendre_low lp ldp degree (sin elv) (cos elv) psqrt prsqrt) as [a b].
  destruct (shc_legendre_high lp' ldp' degree (sin elv) (cos elv) psqrt prsqrt) as [a' b'].
  destruct A as [A1 A2]. destruct B as [B1 B2]. cbn [fst snd]. split; [congruence|].
  apply is_derive_unique in A2. apply is_derive_unique in B2. congruence.
Qed.

(** ** Radial series *)
Lemma internal_spec rrp degree relrad k :
  shc_relradpow_internal rrp degree relrad k = if Nat.leb k degree then (1 / relrad) ^ (k + 2) else rrp k.
Proof.
  unfold shc_relradpow_internal. cbv zeta.
  match goal with |- context [loop 0 degree ?b ?i] => set (body := b); set (i0 := i) end.
  assert (P : forall st, st = loop 0 degree body i0 -> (forall k, fst st k = if Nat.ltb k (S degree) then (1 / relrad) ^ (k + 2) else rrp k)
    /\ snd st = (1 / relrad) ^ (S degree + 1)).
  { intros st ->. apply (loop_inv (fun i st => (forall k, fst st k = if Nat.ltb k i then (1 / relrad) ^ (k + 2) else rrp k)
      /\ snd st = (1 / relrad) ^ (i + 1))); [lia| |].
    - split; [intro j; reflexivity|]. cbn. ring.
    - intros i [a v] Hi [H1 H2]. unfold body. cbn [fst snd] in *. subst v. split.
      + intro j. destruct (Nat.eq_dec j i) as [->|N].
        * rewrite upd_same. destruct (Nat.ltb_spec i (S i)); [|lia].
          replace (i + 2)%nat with (S (i + 1)) by lia. cbn [pow]. ring.
        * rewrite upd_other by auto. rewrite H1. destruct (Nat.ltb_spec j i), (Nat.ltb_spec j (S i)); try lia; reflexivity.
      + replace (S i + 1)%nat with (S (i + 1)) by lia. cbn [pow]. ring. }
  destruct (P _ eq_refl) as [P1 _]. rewrite P1.
  destruct (Nat.ltb_spec k (S degree)), (Nat.leb_spec k degree); try lia; reflexivity.
Qed.

Lemma external_spec rrp degree relrad k : relrad <> 0 ->
  shc_relradpow_external rrp degree relrad k = if Nat.leb k degree then relrad ^ k / relrad else rrp k.
Proof.
  intro Hr. unfold shc_relradpow_external. cbv zeta.
  set (r1 := if Nat.leb 1 degree then _ else _).
  match goal with |- context [loop 2 degree ?b ?i] => set (body := b); set (i0 := i) end.
  assert (R1 : forall k, r1 k = if Nat.ltb k (Nat.min 2 (S degree)) then relrad ^ k / relrad else rrp k).
  { intro j. unfold r1. destruct (Nat.leb_spec 1 degree).
    - replace (Nat.min 2 (S degree)) with 2%nat by lia. destruct j as [|[|j]]; cbn; [reflexivity|field; auto|reflexivity].
    - replace (Nat.min 2 (S degree)) with 1%nat by lia. destruct j as [|j]; cbn; reflexivity. }
  destruct (Nat.lt_ge_cases degree 2) as [L|L].
  - rewrite loop_empty by lia. unfold i0. cbn [fst]. rewrite R1.
    destruct (Nat.ltb_spec k (Nat.min 2 (S degree))), (Nat.leb_spec k degree); try lia; reflexivity.
  - assert (P : forall st, st = loop 2 degree body i0 ->
      (forall k, fst st k = if Nat.ltb k (S degree) then relrad ^ k / relrad else rrp k)
      /\ snd st = relrad ^ (S degree - 2)).
    { intros st ->. apply (loop_inv (fun i st => (forall k, fst st k = if Nat.ltb k i then relrad ^ k / relrad else rrp k)
        /\ snd st = relrad ^ (i - 2))); [lia| |].
      - split; [|reflexivity]. intro j. unfold i0. cbn [fst]. rewrite R1. replace (Nat.min 2 (S degree)) with 2%nat by lia. reflexivity.
      - intros i [a v] Hi [H1 H2]. unfold body. cbn [fst snd] in *. subst v. 
        assert (E : relrad ^ (i - 2) * relrad = relrad ^ i / relrad).
        { destruct i as [|[|i]]; [lia|lia|]. replace (S (S i) - 2)%nat with i by lia. cbn [pow]. field. auto. }
        split.
        + intro j. destruct (Nat.eq_dec j i) as [->|N].
          * rewrite upd_same. destruct (Nat.ltb_spec i (S i)); [|lia]. exact E.
          * rewrite upd_other by auto. rewrite H1. destruct (Nat.ltb_spec j i), (Nat.ltb_spec j (S i)); try lia; reflexivity.
        + replace (S i - 2)%nat with (S (i - 2)) by lia. cbn [pow]. ring. }
    destruct (P _ eq_refl) as [P1 _]. rewrite P1.
    destruct (Nat.ltb_spec k (S degree)), (Nat.leb_spec k degree); try lia; reflexivity.
Qed.

(** ** Longitude series *)
Lemma fs_spec cs n x k :
  fs_cos_sin cs n x k = if Nat.leb k n then (cos (INR k * x), sin (INR k * x)) else cs k.
Proof.
  unfold fs_cos_sin. cbv zeta. destruct (Nat.leb_spec 1 n) as [L|L].
  - match goal with |- context [loop 2 n ?b ?i] => set (body := b); set (i0 := i) end.
    assert (P : forall st, st = loop 2 n body i0 ->
      (forall k, fst st k = if Nat.ltb k (S n) then (cos (INR k * x), sin (INR k * x)) else cs k)
      /\ snd st = (cos (INR (S n - 1) * x), sin (INR (S n - 1) * x))).
    { intros st ->. apply (loop_inv (fun i st =>
        (forall k, fst st k = if Nat.ltb k i then (cos (INR k * x), sin (INR k * x)) else cs k)
        /\ snd st = (cos (INR (i - 1) * x), sin (INR (i - 1) * x)))); [lia| |].
      - split.
        + intros [|[|j]]; cbn.
          * rewrite Rmult_0_l, cos_0, sin_0. reflexivity.
          * rewrite Rmult_1_l. reflexivity.
          * reflexivity.
        + cbn. rewrite Rmult_1_l. reflexivity.
      - intros i [a [c s]] Hi [H1 H2]. unfold body. cbn [fst snd] in *. injection H2 as -> ->.
        assert (E1 : cos (INR (i - 1) * x) * cos x - sin (INR (i - 1) * x) * sin x = cos (INR i * x)).
        { rewrite <- cos_plus. f_equal. rewrite minus_INR by lia. change (INR 1) with 1. ring. }
        assert (E2 : cos (INR (i - 1) * x) * sin x + sin (INR (i - 1) * x) * cos x = sin (INR i * x)).
        { rewrite Rplus_comm, <- sin_plus. f_equal. rewrite minus_INR by lia. change (INR 1) with 1. ring. }
        rewrite E1, E2. split.
        + intro j. destruct (Nat.eq_dec j i) as [->|N].
          * rewrite upd_same. destruct (Nat.ltb_spec i (S i)); [reflexivity|lia].
          * rewrite upd_other by auto. rewrite H1. destruct (Nat.ltb_spec j i), (Nat.ltb_spec j (S i)); try lia; reflexivity.
        + replace (S i - 1)%nat with i by lia. reflexivity. }
    destruct (P _ eq_refl) as [P1 _]. rewrite P1.
    destruct (Nat.ltb_spec k (S n)), (Nat.leb_spec k n); try lia; reflexivity.
  - destruct k as [|k]; cbn.
    + rewrite Rmult_0_l, cos_0, sin_0. reflexivity.
    + destruct n; [reflexivity|lia].
Qed.

Lemma fs_ref_spec cs n x k :
  fs_cos_sin_ref cs n x k = if Nat.leb k n then (cos (INR k * x), sin (INR k * x)) else cs k.
Proof.
  unfold fs_cos_sin_ref.
  assert (P : forall k, loop 0 n (fun i a => upd a i (cos (INR i * x), sin (INR i * x))) cs k
    = if Nat.ltb k (S n) then (cos (INR k * x), sin (INR k * x)) else cs k).
  { apply (loop_inv (fun i a => forall k, a k = if Nat.ltb k i then (cos (INR k * x), sin (INR k * x)) else cs k));
      [lia|reflexivity|].
    intros i a Hi H j. destruct (Nat.eq_dec j i) as [->|N].
    - rewrite upd_same. destruct (Nat.ltb_spec i (S i)); [reflexivity|lia].
    - rewrite upd_other by auto. rewrite H. destruct (Nat.ltb_spec j i), (Nat.ltb_spec j (S i)); try lia; reflexivity. }
  rewrite P. destruct (Nat.ltb_spec k (S n)), (Nat.leb_spec k n); try lia; reflexivity.
Qed.

(** ** Arrays of items *)
Section Items.
Context {A : Type}.
Variable (f : R -> (nat -> A) -> (nat -> A)).
Variable (size : nat) (val : R -> nat -> A).
Hypothesis Hf : forall x a k, f x a k = if Nat.ltb k size then val x k else a k.

Lemma items_low xs : forall off out k, (k < off)%nat -> array_items f xs off size out k = out k.
Proof using Type.
  clear Hf. induction xs as [|x xs IH]; intros off out k Hk; [reflexivity|]. cbn [array_items].
  rewrite IH by lia. apply unptr_low. exact Hk.
Qed.

Lemma items_value xs : forall off out i x k, nth_error xs i = Some x -> (k < size)%nat ->
  array_items f xs off size out (off + i * size + k) = val x k.
Proof.
  induction xs as [|x0 xs IH]; intros off out i x k Hi Hk; [destruct i; discriminate|]. cbn [array_items].
  destruct i as [|i]; cbn [nth_error] in Hi.
  - injection Hi as ->. rewrite items_low by lia. replace (off + 0 * size + k)%nat with (off + k)%nat by lia.
    rewrite unptr_high, Hf. destruct (Nat.ltb_spec k size); [reflexivity|lia].
  - replace (off + S i * size + k)%nat with (off + size + i * size + k)%nat by lia. now apply IH.
Qed.

Lemma items_frame xs : forall off out k, (off + length xs * size <= k)%nat ->
  array_items f xs off size out k = out k.
Proof.
  induction xs as [|x xs IH]; intros off out k Hk; [reflexivity|]. cbn [array_items length] in *.
  rewrite IH by lia. replace k with (off + (k - off))%nat by lia. rewrite unptr_high, Hf.
  destruct (Nat.ltb_spec (k - off) size); [lia|]. reflexivity.
Qed.
End Items.

Lemma leb_ltb k n : Nat.leb k n = Nat.ltb k (n + 1).
Proof. destruct (Nat.leb_spec k n), (Nat.ltb_spec k (n + 1)); try lia; reflexivity. Qed.

Lemma relradpow_internal radii degree ref mem i rad k :
  nth_error radii i = Some rad -> rad <> 0 -> ref <> 0 -> (k <= degree)%nat ->
  relradpow radii degree ref true mem (i * (degree + 1) + k)%nat = (ref / rad) ^ (k + 2).
Proof.
  intros Hi Hr H0 Hk. unfold relradpow.
  pose proof (items_value (fun rad rrp => shc_relradpow_internal rrp degree (rad / ref)) (degree + 1)
    (fun rad k => (1 / (rad / ref)) ^ (k + 2))) as P.
  etransitivity; [apply (P ltac:(intros; cbv beta; rewrite internal_spec, leb_ltb; reflexivity) radii 0%nat mem i rad k Hi); lia|].
  cbv beta.
  f_equal. field. auto.
Qed.

Lemma relradpow_external radii degree ref mem i rad k :
  List.Forall (fun x => x <> 0) radii ->
  nth_error radii i = Some rad -> ref <> 0 -> (k <= degree)%nat ->
  relradpow radii degree ref false mem (i * (degree + 1) + k)%nat = powerRZ (rad / ref) (Z.of_nat k - 1).
Proof.
  intros Hr Hi H0 Hk. unfold relradpow.
  assert (Hr0 : rad <> 0) by (rewrite List.Forall_forall in Hr; apply Hr, (nth_error_In _ _ Hi)).
  assert (E : forall xs off out i, List.Forall (fun x => x <> 0) xs -> nth_error xs i = Some rad ->
    array_items (fun rad rrp => shc_relradpow_external rrp degree (rad / ref)) xs off (degree + 1) out (off + i * (degree + 1) + k)
     = (rad / ref) ^ k / (rad / ref)).
  { assert (Hq : forall x, x <> 0 -> x / ref <> 0).
    { intros x Hx E. apply Hx. replace x with (x / ref * ref) by (field; auto). rewrite E. ring. }
    clear i Hi Hr radii. induction xs as [|x0 xs IH]; intros off out i Hxs Hi; [destruct i; discriminate|]. cbn [array_items].
    inversion Hxs; subst. destruct i as [|i]; cbn [nth_error] in Hi.
    - injection Hi as ->. rewrite items_low by lia. replace (off + 0 * (degree + 1) + k)%nat with (off + k)%nat by lia.
      rewrite unptr_high, external_spec by auto. destruct (Nat.leb_spec k degree); [reflexivity|lia].
    - replace (off + S i * (degree + 1) + k)%nat with (off + (degree + 1) + i * (degree + 1) + k)%nat by lia. now apply IH. }
  etransitivity; [exact (E radii 0%nat mem i Hr Hi)|].
  assert (Hq : rad / ref <> 0).
  { intro Eq. apply Hr0. replace rad with (rad / ref * ref) by (field; auto). rewrite Eq. ring. }
  destruct k as [|k].
  - change (Z.of_nat 0 - 1)%Z with (-1)%Z. cbn [pow powerRZ]. change (Pos.to_nat 1) with 1%nat. rewrite pow_1. field. split; auto.
  - replace (Z.of_nat (S k) - 1)%Z with (Z.of_nat k) by lia. rewrite <- pow_powerRZ. cbn [pow]. field. split; auto.
Qed.

Lemma loncossin_value lons degree fast mem i lon k :
  nth_error lons i = Some lon -> (k <= degree)%nat ->
  loncossin lons degree fast mem (i * (degree + 1) + k)%nat =
    (cos (INR k * (lon * PI / 180)), sin (INR k * (lon * PI / 180))).
Proof.
  intros Hi Hk. unfold loncossin.
  pose proof (items_value (fun lon cs => (if fast then fs_cos_sin else fs_cos_sin_ref) cs degree (lon * DG2RAD)) (degree + 1)
    (fun lon k => (cos (INR k * (lon * DG2RAD)), sin (INR k * (lon * DG2RAD))))) as P.
  assert (H : forall x a k, (if fast then fs_cos_sin else fs_cos_sin_ref) a degree (x * DG2RAD) k =
    (if Nat.ltb k (degree + 1) then (cos (INR k * (x * DG2RAD)), sin (INR k * (x * DG2RAD))) else a k)).
  { intros. destruct fast; [rewrite fs_spec|rewrite fs_ref_spec]; rewrite leb_ltb; reflexivity. }
  etransitivity; [apply (P H lons 0%nat mem i lon k Hi); lia|]. cbv beta.
  replace (lon * DG2RAD) with (lon * PI / 180) by (unfold DG2RAD; lra). reflexivity.
Qed.

Lemma loncossin_no_overrun lons degree fast mem k :
  (length lons * (degree + 1) <= k)%nat -> loncossin lons degree fast mem k = mem k.
Proof.
  intro Hk. unfold loncossin.
  apply (items_frame (fun lon cs => (if fast then fs_cos_sin else fs_cos_sin_ref) cs degree (lon * DG2RAD)) (degree + 1)
    (fun lon k => (cos (INR k * (lon * DG2RAD)), sin (INR k * (lon * DG2RAD))))); [|lia].
  intros. destruct fast; [rewrite fs_spec|rewrite fs_ref_spec]; rewrite leb_ltb; reflexivity.
Qed.

Lemma relradpow_no_overrun radii degree ref is_internal mem k : ref <> 0 ->
  List.Forall (fun x => x <> 0) radii ->
  (length radii * (degree + 1) <= k)%nat -> relradpow radii degree ref is_internal mem k = mem k.
Proof.
  intros H0 Hr Hk. unfold relradpow. cbv zeta.
  assert (E : forall xs off out, List.Forall (fun x => x <> 0) xs -> (off + length xs * (degree + 1) <= k)%nat ->
    array_items (fun rad rrp => if is_internal then shc_relradpow_internal rrp degree (rad / ref)
      else shc_relradpow_external rrp degree (rad / ref)) xs off (degree + 1) out k = out k).
  { induction xs as [|x xs IH]; intros off out Hxs Hk'; [reflexivity|]. cbn [array_items length] in *. inversion Hxs; subst.
    rewrite IH by (auto; lia). replace k with (off + (k - off))%nat by lia. rewrite unptr_high.
    assert (x / ref <> 0).
    { intro E. match goal with H : x <> 0 |- _ => apply H end. replace x with (x / ref * ref) by (field; auto). rewrite E. ring. }
    destruct is_internal; [rewrite internal_spec|rewrite external_spec by auto];
      (destruct (Nat.leb_spec (k - off) degree); [lia|reflexivity]). }
  apply E; auto.
Qed.

(** ** Examples *)
Lemma ex_legendre mem junk :
  let r := fst (legendre [30; -90] 2 mem junk) in
  r (0 * nm_size 2 + nm_index 2 0)%nat = - (1 / 8) /\ r (1 * nm_size 2 + nm_index 2 0)%nat = 1.
Proof.
  assert (P2 : forall x, schmidt 2 0 x = (3 * sin x ^ 2 - 1) / 2).
  { intro x. rewrite schmidt_nf, nf_0. pose proof (L_three 0 0 (sin x)) as E. rewrite L_0_0, L_subdiag, L_diag_step, L_0_0 in E.
    cbn in E. cbn [pow]. lra. }
  cbv zeta. rewrite (legendre_value [30; -90] 2 mem junk 0 30), (legendre_value [30; -90] 2 mem junk 1 (-90));
    try reflexivity; try lia; try lra.
  rewrite !P2. replace (30 * PI / 180) with (PI / 6) by field. replace (-90 * PI / 180) with (- (PI / 2)) by field.
  rewrite sin_PI6, sin_neg, sin_PI2. split; field.
Qed.

Lemma ex_relradpow mem :
  relradpow [6371.2; 12742.4] 3 6371.2 true mem (1 * (3 + 1) + 3)%nat = 1 / 32 /\
  relradpow [6371.2; 12742.4] 3 6371.2 false mem (1 * (3 + 1) + 0)%nat = 1 / 2.
Proof.
  split.
  - rewrite (relradpow_internal _ 3 _ mem 1 12742.4 3); [|reflexivity|lra|lra|lia].
    replace (6371.2 / 12742.4) with (1 / 2) by lra. cbn [Nat.add pow]. lra.
  - rewrite (relradpow_external _ 3 _ mem 1 12742.4 0); [| |reflexivity|lra|lia].
    { replace (12742.4 / 6371.2) with 2 by lra. change (Z.of_nat 0 - 1)%Z with (-1)%Z. cbn [powerRZ]. change (Pos.to_nat 1) with 1%nat. rewrite pow_1. lra. }
    repeat constructor; lra.
Qed.

Lemma ex_loncossin mem : loncossin [0; 90] 2 true mem (1 * (2 + 1) + 2)%nat = (-1, 0).
Proof.
  rewrite (loncossin_value _ 2 true mem 1 90 2); [|reflexivity|lia].
  replace (INR 2 * (90 * PI / 180)) with PI by (cbn; field). rewrite cos_PI, sin_PI. reflexivity.
Qed.
