(** Lemmas about the arrays, the loops and the triangular index. *)

From Coq Require Import List Reals Arith Lia.
From Verif Require Import ArrModel LegendreSpec.

Lemma upd_same {A} (a : nat -> A) i v : upd a i v i = v.
Proof. unfold upd. now rewrite Nat.eqb_refl. Qed.
Lemma upd_other {A} (a : nat -> A) i k v : k <> i -> upd a i v k = a k.
Proof. intro H. unfold upd. destruct (Nat.eqb_spec k i); [contradiction|reflexivity]. Qed.

Lemma loop_inv {St} (P : nat -> St -> Prop) lo hi body s :
  (lo <= S hi)%nat -> P lo s ->
  (forall i s, (lo <= i <= hi)%nat -> P i s -> P (S i) (body i s)) ->
  P (S hi) (loop lo hi body s).
Proof.
  intros Hlo H0 Hstep. unfold loop.
  assert (G : forall n i s, P i s -> (lo <= i)%nat -> (i + n = S hi)%nat ->
    P (S hi) (fold_left (fun s i => body i s) (seq i n) s)).
  { induction n as [|n IH]; intros i s' Hi Hl Hn; cbn [seq fold_left].
    - now replace (S hi) with i by lia.
    - apply IH; [apply Hstep; [lia|exact Hi]|lia|lia]. }
  apply G; [exact H0|lia|lia].
Qed.

Lemma loop_empty {St} lo hi (body : nat -> St -> St) s : (hi < lo)%nat -> loop lo hi body s = s.
Proof. intro H. unfold loop. replace (S hi - lo)%nat with 0%nat by lia. reflexivity. Qed.

Definition T (n : nat) : nat := (n * (n + 1) / 2)%nat.

Lemma T_S n : T (S n) = (T n + n + 1)%nat.
Proof.
  unfold T. replace (S n * (S n + 1))%nat with (n * (n + 1) + (n + 1) * 2)%nat by lia.
  rewrite Nat.div_add by lia. lia.
Qed.
Lemma T_mono a b : (a < b)%nat -> (T a + a < T b)%nat.
Proof.
  induction 1 as [|b H IH]; rewrite T_S; lia.
Qed.
Lemma T_le a b : (a <= b)%nat -> (T a <= T b)%nat.
Proof. intro H. destruct (Nat.eq_dec a b) as [->|]; [lia|]. pose proof (T_mono a b). lia. Qed.
Lemma T_0 : T 0 = 0%nat. Proof. reflexivity. Qed.
Lemma T_1 : T 1 = 1%nat. Proof. reflexivity. Qed.
Lemma T_2 : T 2 = 3%nat. Proof. reflexivity. Qed.
Lemma T_size n : nm_size n = T (S n).
Proof. unfold nm_size, T. f_equal. lia. Qed.
Lemma T_index n m : nm_index n m = (T n + m)%nat.
Proof. reflexivity. Qed.
Lemma T_neq n m i j : (m <= n)%nat -> (j <= i)%nat -> n <> i -> (T n + m <> T i + j)%nat.
Proof.
  intros H1 H2 H3. destruct (Nat.lt_ge_cases n i) as [L|L].
  - pose proof (T_mono n i L). lia.
  - pose proof (T_mono i n ltac:(lia)). lia.
Qed.
