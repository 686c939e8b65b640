(** The 2D Fourier series is evaluated to the double sum. *)

From Coq Require Import Bool List Reals Arith ZArith Lra Lia.
From Verif Require Import ArrModel LegendreModel GeoModel CoefModel ShEvalModel ShEvalSpec ShEvalProofs
  SparseModel SparseSpec TempModel FourierModel FourierSpec.
Import ListNotations.
Open Scope R_scope.

(** ** Loops *)
Lemma oloop_inv {S} (P : nat -> S -> Prop) body n : forall a s, P a s ->
  (forall k s, (a <= k < a + n)%nat -> P k s -> exists s', body k s = Some s' /\ P (Datatypes.S k) s') ->
  exists s', oloop (seq a n) body s = Some s' /\ P (a + n)%nat s'.
Proof.
  induction n as [|n IH]; intros a s H0 H; cbn [seq oloop].
  - exists s. rewrite Nat.add_0_r. auto.
  - destruct (H a s) as (s1 & -> & H1); [lia|exact H0|].
    destruct (IH (Datatypes.S a) s1 H1) as (s2 & -> & H2); [intros k s' B; apply H; lia|].
    exists s2. split; [reflexivity|]. now rewrite Nat.add_succ_r.
Qed.

Lemma oloop_none {S} (P : S -> Prop) body i is : forall s, P s -> In i is ->
  (forall k s s', P s -> body k s = Some s' -> P s') -> (forall s, P s -> body i s = None) ->
  oloop is body s = None.
Proof.
  induction is as [|k is IH]; intros s H I K N; [destruct I|]. cbn [oloop].
  destruct I as [->|I]; [now rewrite N|].
  destruct (body k s) as [s'|] eqn:E; [|reflexivity]. apply IH; [now apply (K k s)|exact I|exact K|exact N].
Qed.

Lemma write_some b i v : (i < b_size b)%nat -> buf_write b i v = Some {| b_size := b_size b; b_at := upd (b_at b) i v |}.
Proof. intro H. unfold buf_write. now rewrite (proj2 (Nat.ltb_lt _ _) H). Qed.
Lemma read_some b i : (i < b_size b)%nat -> buf_read b i = Some (b_at b i).
Proof. intro H. unfold buf_read. now rewrite (proj2 (Nat.ltb_lt _ _) H). Qed.
Lemma upd_same {A} (a : nat -> A) i v : upd a i v i = v.
Proof. unfold upd. now rewrite Nat.eqb_refl. Qed.
Lemma upd_other {A} (a : nat -> A) i v k : k <> i -> upd a i v k = a k.
Proof. intro H. unfold upd. now rewrite (proj2 (Nat.eqb_neq _ _) H). Qed.
Lemma write_size b i v b' : buf_write b i v = Some b' -> b_size b' = b_size b.
Proof. unfold buf_write. destruct (Nat.ltb _ _); [|discriminate]. intro E. injection E as <-. reflexivity. Qed.

(** ** Cosines and sines *)
Definition csx (i : nat) (x : R) : R * R := (cos (INR i * x), sin (INR i * x)).

Lemma csx_step i x : csx (S i) x = (cos (INR i * x) * cos x - sin (INR i * x) * sin x,
                                   cos (INR i * x) * sin x + sin (INR i * x) * cos x).
Proof.
  unfold csx. rewrite S_INR. replace ((INR i + 1) * x) with (INR i * x + x) by ring.
  rewrite cos_plus, sin_plus. f_equal. ring.
Qed.

Lemma cos_sin_ok out n x : (n < b_size out)%nat ->
  exists out', fs_cos_sin_buf out n x = Some out' /\ b_size out' = b_size out /\
    forall i, (i <= n)%nat -> b_at out' i = csx i x.
Proof.
  intro B. unfold fs_cos_sin_buf. rewrite write_some by lia.
  assert (Z0 : csx 0 x = (1, 0)) by (unfold csx; cbn [INR]; rewrite Rmult_0_l, cos_0, sin_0; reflexivity).
  assert (Z1 : csx 1 x = (cos x, sin x)) by (unfold csx; cbn [INR]; rewrite Rmult_1_l; reflexivity).
  destruct (Nat.leb_spec 1 n) as [L|L].
  - rewrite write_some by (cbn [b_size]; lia). cbn [b_size b_at].
    set (out1 := {| b_size := _; b_at := _ |}).
    destruct (oloop_inv (fun k (s : buffer * R * R) => let '(b, c, s) := s in
        b_size b = b_size out /\ (c, s) = csx (k - 1) x /\ forall i, (i < k)%nat -> b_at b i = csx i x)
      (fun i s => let '(b, cos_ix, sin_ix) := s in
         match buf_write b i (cos_ix * cos x - sin_ix * sin x, cos_ix * sin x + sin_ix * cos x) with
         | None => None
         | Some b' => Some (b', cos_ix * cos x - sin_ix * sin x, cos_ix * sin x + sin_ix * cos x)
         end) (n - 1) 2 (out1, cos x, sin x)) as ([[b c] s] & E & S1 & S2 & S3).
    + split; [reflexivity|]. split; [exact (eq_sym Z1)|]. intros i Hi. unfold out1. cbn [b_at].
      destruct i as [|[|i]]; [rewrite upd_other by lia; rewrite upd_same; now rewrite Z0|rewrite upd_same; now rewrite Z1|lia].
    + intros k [[b c] s] Hk (H1 & H2 & H3). rewrite write_some by lia. eexists. split; [reflexivity|].
      assert (Q : (c * cos x - s * sin x, c * sin x + s * cos x) = csx k x).
      { replace k with (S (k - 1)) at 1 by lia. rewrite csx_step. unfold csx in H2.
        assert (c = cos (INR (k - 1) * x)) by congruence. assert (s = sin (INR (k - 1) * x)) by congruence. now subst c s. }
      cbn [b_size]. split; [exact H1|]. replace (S k - 1)%nat with k by lia. split; [exact Q|]. intros i Hi. cbn [b_at].
      destruct (Nat.eq_dec i k) as [->|N]; [rewrite upd_same; exact Q|]. rewrite upd_other by exact N. apply H3. lia.
    + cbv zeta. rewrite E. exists b. split; [reflexivity|]. split; [exact S1|]. intros i Hi. apply S3. lia.
  - eexists. split; [reflexivity|]. split; [reflexivity|]. intros i Hi. cbn [b_at]. replace i with 0%nat by lia.
    now rewrite upd_same, Z0.
Qed.

Lemma cos_sin_none out n x : (b_size out <= n)%nat -> fs_cos_sin_buf out n x = None.
Proof.
  intro B. unfold fs_cos_sin_buf. destruct (buf_write out 0 (1, 0)) as [o0|] eqn:E0; [|reflexivity].
  pose proof (write_size _ _ _ _ E0) as S0.
  assert (P0 : (0 < b_size out)%nat).
  { unfold buf_write in E0. destruct (Nat.ltb_spec 0 (b_size out)) as [H|H]; [exact H|discriminate]. }
  destruct (Nat.leb_spec 1 n) as [L|L]; [|lia]. cbv zeta.
  destruct (buf_write o0 1 (cos x, sin x)) as [o1|] eqn:E1; [|reflexivity].
  pose proof (write_size _ _ _ _ E1) as S1.
  assert (P1 : (1 < b_size out)%nat).
  { unfold buf_write in E1. destruct (Nat.ltb_spec 1 (b_size o0)) as [H|H]; [lia|discriminate]. }
  rewrite (oloop_none (fun s : buffer * R * R => b_size (fst (fst s)) = b_size out) _ n); [reflexivity| | | |].
  - cbn [fst]. congruence.
  - apply in_seq. lia.
  - intros k [[b c] s] [[b' c'] s'] H Eb. cbn [fst] in *.
    destruct (buf_write b k _) as [b1|] eqn:Ew in Eb; [|discriminate]. apply write_size in Ew.
    assert (b' = b1) by congruence. congruence.
  - intros [[b c] s] H. cbn [fst] in H. unfold buf_write. rewrite H.
    destruct (Nat.ltb_spec n (b_size out)); [lia|reflexivity].
Qed.

Definition csz (i : Z) (x : R) : R * R := (cos (IZR i * x), sin (IZR i * x)).

Lemma csz_abs i x : csz i x = let '(c, s) := csx (Z.to_nat (Z.abs i)) x in (c, if (i <? 0)%Z then - s else s).
Proof.
  unfold csx, csz. rewrite INR_IZR_INZ, Z2Nat.id by lia. destruct (Z.ltb_spec i 0) as [L|L].
  - rewrite Z.abs_neq by lia. rewrite opp_IZR. replace (- IZR i * x) with (- (IZR i * x)) by ring.
    rewrite cos_neg, sin_neg, Ropp_involutive. reflexivity.
  - rewrite Z.abs_eq by lia. reflexivity.
Qed.

Lemma cos_sin_neg_ok out pos lo hi n x :
  b_size out = Z.to_nat (hi - lo + 1) -> (Z.max (Z.abs lo) (Z.abs hi) <= Z.of_nat n)%Z -> (n < b_size pos)%nat ->
  (forall i, (i <= n)%nat -> b_at pos i = csx i x) ->
  exists out', fs_cos_sin_neg out pos lo hi = Some out' /\ b_size out' = b_size out /\
    forall k, (k < b_size out)%nat -> b_at out' k = csz (lo + Z.of_nat k) x.
Proof.
  intros So Hn Sp Hp. unfold fs_cos_sin_neg. rewrite <- So.
  match goal with |- exists out', oloop _ ?body _ = _ /\ _ =>
    destruct (oloop_inv (fun k b => b_size b = b_size out /\ forall i, (i < k)%nat -> b_at b i = csz (lo + Z.of_nat i) x)
      body (b_size out) 0 out) as (o & E & H1 & H2) end.
  - split; [reflexivity|]. intros i Hi. lia.
  - intros k b Hk (H1 & H2). cbv zeta. rewrite read_some by lia. rewrite Hp by lia.
    rewrite (surjective_pairing (csx _ x)). rewrite write_some by lia. eexists. split; [reflexivity|]. cbn [b_size].
    split; [exact H1|]. intros i Hi. cbn [b_at]. destruct (Nat.eq_dec i k) as [->|N].
    + rewrite upd_same, csz_abs. reflexivity.
    + rewrite upd_other by exact N. apply H2. lia.
  - exists o. split; [exact E|]. split; [exact H1|]. intros k Hk. apply H2. exact Hk.
Qed.

Definition cs2 (i j : Z) (x y : R) : R * R := (cos (IZR i * x + IZR j * y), sin (IZR i * x + IZR j * y)).

Lemma cos_sin_2d_ok out bx by_ n m lo1 lo2 x y :
  b_size out = (n * m)%nat -> b_size bx = n -> b_size by_ = m ->
  (forall k, (k < n)%nat -> b_at bx k = csz (lo1 + Z.of_nat k) x) ->
  (forall k, (k < m)%nat -> b_at by_ k = csz (lo2 + Z.of_nat k) y) ->
  exists out', fs_cos_sin_2d out bx by_ n m = Some out' /\ b_size out' = b_size out /\
    forall p q, (p < n)%nat -> (q < m)%nat -> b_at out' (p * m + q)%nat = cs2 (lo1 + Z.of_nat p) (lo2 + Z.of_nat q) x y.
Proof.
  intros So Sx Sy Hx Hy. unfold fs_cos_sin_2d.
  set (val := fun p q => cs2 (lo1 + Z.of_nat p) (lo2 + Z.of_nat q) x y).
  match goal with |- exists out', oloop _ ?body _ = _ /\ _ =>
    destruct (oloop_inv (fun i b => b_size b = b_size out /\ forall p q, (p < i)%nat -> (q < m)%nat -> b_at b (p * m + q)%nat = val p q)
      body n 0 out) as (o & E & H1 & H2) end.
  - split; [reflexivity|]. intros p q Hp. lia.
  - intros i b Hi (H1 & H2).
    match goal with |- exists s', oloop _ ?body _ = _ /\ _ =>
      destruct (oloop_inv (fun j b => b_size b = b_size out /\
          (forall p q, (p < i)%nat -> (q < m)%nat -> b_at b (p * m + q)%nat = val p q) /\
          forall q, (q < j)%nat -> b_at b (i * m + q)%nat = val i q) body m 0 b) as (o & E & H3 & H4 & H5) end.
    + split; [exact H1|]. split; [exact H2|]. intros q Hq. lia.
    + intros j b' Hj (G1 & G2 & G3). rewrite !read_some by lia. rewrite Hx, Hy by lia.
      unfold csz. rewrite write_some by (rewrite G1, So; nia).
      eexists. split; [reflexivity|]. cbn [b_size b_at]. split; [exact G1|]. split.
      * intros p q Hp Hq. rewrite upd_other by nia. now apply G2.
      * intros q Hq. destruct (Nat.eq_dec q j) as [->|N].
        -- rewrite upd_same. unfold val, cs2. rewrite cos_plus, sin_plus. f_equal. ring.
        -- rewrite upd_other by lia. apply G3. lia.
    + exists o. split; [exact E|]. split; [exact H3|]. intros p q Hp Hq.
      destruct (Nat.eq_dec p i) as [->|N]; [now apply H5|]. apply H4; lia.
  - exists o. split; [exact E|]. split; [exact H1|]. exact H2.
Qed.

(** ** The sum *)
Lemma fsum_S n f : fsum (S n) f = fsum n f + f n.
Proof.
  unfold fsum. rewrite seq_S, map_app, Nat.add_0_l. cbn [map].
  induction (map f (seq 0 n)) as [|a l IH]; cbn [app fold_right]; [ring|]. rewrite IH. ring.
Qed.

Lemma fsum_0 f : fsum 0 f = 0.
Proof. reflexivity. Qed.

Lemma fsum_app n m f : fsum (n + m) f = fsum n f + fsum m (fun k => f (n + k)%nat).
Proof.
  induction m as [|m IH]; [rewrite Nat.add_0_r, fsum_0; ring|].
  rewrite Nat.add_succ_r, !fsum_S, IH. ring.
Qed.

Lemma fsum_ext n f g : (forall k, (k < n)%nat -> f k = g k) -> fsum n f = fsum n g.
Proof. induction n as [|n IH]; intro H; [reflexivity|]. rewrite !fsum_S, H, IH by auto. reflexivity. Qed.

Lemma fsum_mul n m f : fsum (n * m) f = fsum n (fun p => fsum m (fun q => f (p * m + q)%nat)).
Proof.
  induction n as [|n IH]; [reflexivity|]. rewrite fsum_S, <- IH. cbn [Nat.mul]. rewrite Nat.add_comm, fsum_app. reflexivity.
Qed.

Lemma eval_2d_ok ab cs n m : b_size cs = (n * m)%nat ->
  fs_eval_2d ab cs n m = Some (fsum (n * m) (fun k => fst (ab k) * fst (b_at cs k) + snd (ab k) * snd (b_at cs k))).
Proof.
  intro B. unfold fs_eval_2d.
  match goal with |- oloop _ ?body _ = _ =>
    destruct (oloop_inv (fun k s => s = fsum k (fun k => fst (ab k) * fst (b_at cs k) + snd (ab k) * snd (b_at cs k)))
      body (n * m) 0 0) as (o & E & ->) end.
  - reflexivity.
  - intros k s Hk ->. rewrite read_some by lia. rewrite (surjective_pairing (b_at cs k)). eexists. split; [reflexivity|].
    rewrite fsum_S. cbn [fst snd]. reflexivity.
  - exact E.
Qed.

(** ** The structure *)
Definition f2d_sizes (size1 size2 : nat) (min1 min2 : Z) (s1 s2 : R) (f : fourier_2d) : Prop :=
  min_degree1 f = min1 /\ max_degree1 f = (min1 + Z.of_nat size1 - 1)%Z /\
  min_degree2 f = min2 /\ max_degree2 f = (min2 + Z.of_nat size2 - 1)%Z /\
  scale1 f = s1 /\ scale2 f = s2 /\
  b_size (cos_sin_tmp f) = Z.to_nat (Z.max (Z.max (Z.max (Z.max 1 (Z.abs min1)) (Z.abs (min1 + Z.of_nat size1 - 1))) (Z.abs min1)) (Z.abs (min2 + Z.of_nat size2 - 1)) + 1) /\
  b_size (cos_sin_1 f) = size1 /\ b_size (cos_sin_2 f) = size2 /\ b_size (cos_sin_12 f) = (size1 * size2)%nat.

Definition f2d_at (size1 size2 : nat) (min1 min2 : Z) (s1 s2 x y : R) (f : fourier_2d) : Prop :=
  forall p q, (p < size1)%nat -> (q < size2)%nat ->
    b_at (cos_sin_12 f) (p * size2 + q)%nat = cs2 (min1 + Z.of_nat p) (min2 + Z.of_nat q) (x * s1) (y * s2).

Lemma init_sizes min1 size1 min2 size2 s1 s2 mem :
  f2d_sizes size1 size2 min1 min2 s1 s2 (fourier2d_init min1 size1 min2 size2 s1 s2 mem).
Proof. destruct mem as [[[m0 m1] m2] m12]. repeat split; reflexivity. Qed.

Definition room (a1 b1 b2 : Z) : nat := Z.to_nat (Z.max (Z.max (Z.max (Z.max 1 a1) b1) a1) b2 + 1).

Lemma room_1 a1 b1 b2 : (0 <= a1)%Z -> (Z.to_nat (Z.max a1 b1) < room a1 b1 b2)%nat.
Proof. intros. unfold room. apply Z2Nat.inj_lt; lia. Qed.
Lemma room_2 a1 b1 a2 b2 : (0 <= a2)%Z -> (a2 <= 1 \/ a2 <= a1 \/ a2 <= b1 \/ a2 <= b2)%Z ->
  (Z.to_nat (Z.max a2 b2) < room a1 b1 b2)%nat.
Proof. intros. unfold room. apply Z2Nat.inj_lt; lia. Qed.
Lemma room_3 a1 b1 a2 b2 : (0 <= a2)%Z -> ~ (a2 <= 1 \/ a2 <= a1 \/ a2 <= b1 \/ a2 <= b2)%Z ->
  (room a1 b1 b2 <= Z.to_nat (Z.max a2 b2))%nat.
Proof. intros. unfold room. apply Z2Nat.inj_le; lia. Qed.

Lemma cossin_ok size1 size2 min1 min2 s1 s2 f x y :
  degrees_fit size1 size2 min1 min2 -> f2d_sizes size1 size2 min1 min2 s1 s2 f ->
  exists f', fourier2d_cossin f x y = Some f' /\ f2d_sizes size1 size2 min1 min2 s1 s2 f' /\
    f2d_at size1 size2 min1 min2 s1 s2 x y f'.
Proof.
  intros D (H1 & H2 & H3 & H4 & H5 & H6 & H7 & H8 & H9 & H10).
  assert (Z1 : f2d_size1 f = size1) by (unfold f2d_size1; rewrite H1, H2; clear; lia).
  assert (Z2 : f2d_size2 f = size2) by (unfold f2d_size2; rewrite H3, H4; clear; lia).
  fold (room (Z.abs min1) (Z.abs (min1 + Z.of_nat size1 - 1)) (Z.abs (min2 + Z.of_nat size2 - 1))) in H7.
  unfold degrees_fit in D. unfold fourier2d_cossin. rewrite H1, H2, H3, H4.
  pose proof (room_1 (Z.abs min1) (Z.abs (min1 + Z.of_nat size1 - 1)) (Z.abs (min2 + Z.of_nat size2 - 1)) (Z.abs_nonneg _)) as R1.
  pose proof (room_2 (Z.abs min1) (Z.abs (min1 + Z.of_nat size1 - 1)) (Z.abs min2) (Z.abs (min2 + Z.of_nat size2 - 1)) (Z.abs_nonneg _) D) as R2.
  destruct (cos_sin_ok (cos_sin_tmp f) _ (x * scale1 f) ltac:(rewrite H7; exact R1)) as (tmp1 & -> & T1 & T2).
  destruct (cos_sin_neg_ok (cos_sin_1 f) tmp1 min1 (min1 + Z.of_nat size1 - 1)
    (Z.to_nat (Z.max (Z.abs min1) (Z.abs (min1 + Z.of_nat size1 - 1)))) (x * scale1 f)
    ltac:(rewrite H8; clear; lia) ltac:(rewrite Z2Nat.id by (clear; lia); apply Z.le_refl) ltac:(rewrite T1, H7; exact R1) T2)
    as (b1 & -> & A1 & A2).
  destruct (cos_sin_ok tmp1 _ (y * scale2 f) ltac:(rewrite T1, H7; exact R2)) as (tmp2 & -> & T3 & T4).
  destruct (cos_sin_neg_ok (cos_sin_2 f) tmp2 min2 (min2 + Z.of_nat size2 - 1)
    (Z.to_nat (Z.max (Z.abs min2) (Z.abs (min2 + Z.of_nat size2 - 1)))) (y * scale2 f)
    ltac:(rewrite H9; clear; lia) ltac:(rewrite Z2Nat.id by (clear; lia); apply Z.le_refl) ltac:(rewrite T3, T1, H7; exact R2) T4)
    as (b2 & -> & B1 & B2).
  rewrite Z1, Z2.
  destruct (cos_sin_2d_ok (cos_sin_12 f) b1 b2 size1 size2 min1 min2 (x * scale1 f) (y * scale2 f))
    as (b12 & -> & C1 & C2); [congruence..|intros; apply A2; congruence|intros; apply B2; congruence|].
  eexists. split; [reflexivity|]. split.
  - unfold f2d_sizes, with_buffers.
    cbn [min_degree1 max_degree1 min_degree2 max_degree2 scale1 scale2 cos_sin_tmp cos_sin_1 cos_sin_2 cos_sin_12].
    repeat split; try assumption; try congruence. rewrite T3, T1. exact H7.
  - intros p q Hp Hq. cbn [with_buffers cos_sin_12]. rewrite C2 by assumption. now rewrite H5, H6.
Qed.

Lemma cossin_none size1 size2 min1 min2 s1 s2 f x y :
  ~ degrees_fit size1 size2 min1 min2 -> f2d_sizes size1 size2 min1 min2 s1 s2 f -> fourier2d_cossin f x y = None.
Proof.
  intros D (H1 & H2 & H3 & H4 & H5 & H6 & H7 & H8 & H9 & H10). 
  fold (room (Z.abs min1) (Z.abs (min1 + Z.of_nat size1 - 1)) (Z.abs (min2 + Z.of_nat size2 - 1))) in H7.
  unfold degrees_fit in D. unfold fourier2d_cossin. rewrite H1, H2, H3, H4.
  pose proof (room_1 (Z.abs min1) (Z.abs (min1 + Z.of_nat size1 - 1)) (Z.abs (min2 + Z.of_nat size2 - 1)) (Z.abs_nonneg _)) as R1.
  destruct (cos_sin_ok (cos_sin_tmp f) _ (x * scale1 f) ltac:(rewrite H7; exact R1)) as (tmp1 & -> & T1 & T2).
  destruct (fs_cos_sin_neg _ _ _ _); [|reflexivity].
  rewrite cos_sin_none; [reflexivity|]. rewrite T1, H7. now apply room_3; [apply Z.abs_nonneg|].
Qed.

Lemma eval_ok size1 size2 min1 min2 s1 s2 f x y ab :
  f2d_sizes size1 size2 min1 min2 s1 s2 f -> f2d_at size1 size2 min1 min2 s1 s2 x y f ->
  fourier2d_eval f ab = Some (fourier_value ab size1 size2 min1 min2 s1 s2 x y).
Proof.
  intros (H1 & H2 & H3 & H4 & H5 & H6 & H7 & H8 & H9 & H10) A. unfold fourier2d_eval.
  assert (Z1 : f2d_size1 f = size1) by (unfold f2d_size1; rewrite H1, H2; clear; lia).
  assert (Z2 : f2d_size2 f = size2) by (unfold f2d_size2; rewrite H3, H4; clear; lia).
  rewrite Z1, Z2. rewrite eval_2d_ok by exact H10. f_equal. rewrite fsum_mul. unfold fourier_value.
  apply fsum_ext. intros p Hp. apply fsum_ext. intros q Hq. cbv beta zeta. rewrite (A p q Hp Hq). unfold cs2. cbn [fst snd].
  destruct (ab (p * size2 + q)%nat) as [a b]. cbn [fst snd]. rewrite (Rmult_comm x s1), (Rmult_comm y s2). reflexivity.
Qed.

(** ** Arrays *)
Lemma single_time_ok size1 size2 min1 min2 s1 s2 x y f :
  f2d_sizes size1 size2 min1 min2 s1 s2 f -> f2d_at size1 size2 min1 min2 s1 s2 x y f ->
  forall cdims c0, dims c0 = cdims ->
  eval_coeff_single_time cdims c0 f =
    Some (map (fun ix => fourier_value (get c0 ix) size1 size2 min1 min2 s1 s2 x y) (indices cdims)).
Proof.
  intros Hs Ha. induction cdims as [|d ds IH]; intros c0 Hd.
  - cbn [eval_coeff_single_time indices map]. now rewrite (eval_ok size1 size2 min1 min2 s1 s2 f x y _ Hs Ha).
  - cbn [eval_coeff_single_time indices]. generalize (seq 0 d) as is. induction is as [|i is IHi]; [reflexivity|].
    rewrite (IH (nd_item c0 i)) by (unfold nd_item; now rewrite Hd). rewrite IHi. cbn [flat_map].
    rewrite map_app, map_map. f_equal. f_equal. apply map_ext. intro ix. unfold nd_item. rewrite Hd. reflexivity.
Qed.

Definition f2_value (t1 t2 : nd R) (c0 : nd coefs) size1 size2 min1 min2 s1 s2 (tl : nat) (ix : list nat) : R :=
  fourier_value (get c0 (skipn tl ix)) size1 size2 min1 min2 s1 s2 (at_index t1 ix) (at_index t2 ix).

Lemma eval_coeff_ok size1 size2 min1 min2 s1 s2 c0 : degrees_fit size1 size2 min1 min2 ->
  forall tdims t1 t2 f, dims t1 = tdims -> dims t2 = tdims -> f2d_sizes size1 size2 min1 min2 s1 s2 f ->
  exists f', eval_coeff tdims t1 t2 c0 f =
    Some (map (f2_value t1 t2 c0 size1 size2 min1 min2 s1 s2 (length tdims)) (indices (tdims ++ dims c0)), f') /\
    f2d_sizes size1 size2 min1 min2 s1 s2 f'.
Proof.
  intro D. induction tdims as [|d ds IH]; intros t1 t2 f E1 E2 Hs.
  - cbn [eval_coeff]. destruct (cossin_ok size1 size2 min1 min2 s1 s2 f (get t1 []) (get t2 []) D Hs) as (f' & -> & S' & A').
    rewrite (single_time_ok size1 size2 min1 min2 s1 s2 _ _ f' S' A' (dims c0) c0 eq_refl).
    exists f'. split; [|exact S']. cbn [app length]. f_equal. f_equal. apply map_ext. intro ix. unfold f2_value, at_index.
    now rewrite E1, E2.
  - cbn [eval_coeff app indices]. revert f Hs. generalize (seq 0 d) as is. induction is as [|i is IHi]; intros f Hs.
    + exists f. split; [reflexivity|exact Hs].
    + destruct (IH (nd_item t1 i) (nd_item t2 i) f) as (f1 & -> & S1); [unfold nd_item; now rewrite ?E1, ?E2..|exact Hs|].
      destruct (IHi f1 S1) as (f2 & -> & S2). exists f2. split; [|exact S2]. cbn [flat_map]. rewrite map_app, map_map.
      f_equal. f_equal. f_equal. apply map_ext. intro ix. unfold f2_value. rewrite !at_index_item. reflexivity.
Qed.

Lemma eval_coeff_none size1 size2 min1 min2 s1 s2 c0 : ~ degrees_fit size1 size2 min1 min2 ->
  forall tdims t1 t2 f, indices tdims <> [] -> f2d_sizes size1 size2 min1 min2 s1 s2 f ->
  eval_coeff tdims t1 t2 c0 f = None.
Proof.
  intro D. induction tdims as [|d ds IH]; intros t1 t2 f Hi Hs; cbn [eval_coeff].
  - now rewrite (cossin_none size1 size2 min1 min2 s1 s2 f _ _ D Hs).
  - destruct d as [|d]; [exfalso; apply Hi; reflexivity|]. cbn [seq]. rewrite IH; [reflexivity| |exact Hs].
    intro N. apply Hi. cbn [indices]. rewrite N. cbn [map]. induction (seq 0 (S d)); [reflexivity|assumption].
Qed.

Lemma same_dims_spec a : forall b, same_dims a b = true <-> a = b.
Proof.
  induction a as [|x a IH]; intros [|y b]; cbn [same_dims]; [split; reflexivity|split; discriminate..|].
  rewrite andb_true_iff, Nat.eqb_eq, IH. split; [intros [-> ->]; reflexivity|intro E; now injection E].
Qed.

Lemma fourier2d_value t1 t2 c0 size1 size2 min1 min2 s1 s2 mem :
  degrees_fit size1 size2 min1 min2 -> dims t1 = dims t2 ->
  fourier2d t1 t2 c0 size1 size2 min1 min2 s1 s2 mem =
  Ok (dims t1 ++ dims c0,
      map (fun ix => fourier_value (get c0 (skipn (length (dims t1)) ix)) size1 size2 min1 min2 s1 s2
                       (at_index t1 ix) (at_index t2 ix)) (indices (dims t1 ++ dims c0))).
Proof.
  intros D E. unfold fourier2d. rewrite (proj2 (same_dims_spec _ _) E). cbn [negb].
  destruct (eval_coeff_ok size1 size2 min1 min2 s1 s2 c0 D (dims t1) t1 t2
    (fourier2d_init min1 size1 min2 size2 s1 s2 mem) eq_refl (eq_sym E) (init_sizes _ _ _ _ _ _ _)) as (f' & -> & _).
  reflexivity.
Qed.

Lemma fourier2d_shape t1 t2 c0 size1 size2 min1 min2 s1 s2 mem :
  dims t1 <> dims t2 -> fourier2d t1 t2 c0 size1 size2 min1 min2 s1 s2 mem = Err ValueError.
Proof.
  intro N. unfold fourier2d. destruct (same_dims (dims t1) (dims t2)) eqn:E; [|reflexivity].
  exfalso. now apply N, same_dims_spec.
Qed.

Lemma fourier2d_outside t1 t2 c0 size1 size2 min1 min2 s1 s2 mem :
  ~ degrees_fit size1 size2 min1 min2 -> dims t1 = dims t2 -> indices (dims t1) <> [] ->
  fourier2d t1 t2 c0 size1 size2 min1 min2 s1 s2 mem = Err OutOfBounds.
Proof.
  intros D E I. unfold fourier2d. rewrite (proj2 (same_dims_spec _ _) E). cbn [negb].
  now rewrite (eval_coeff_none size1 size2 min1 min2 s1 s2 c0 D (dims t1) t1 t2 _ I (init_sizes _ _ _ _ _ _ _)).
Qed.
