(** Gauss-normalised functions and their ratio to the Schmidt semi-normalised ones. *)

From Coq Require Import Reals Factorial Arith Lra Lia.
From Coquelicot Require Import Coquelicot.
From Verif Require Import LegendreSpec LegendrePoly.
Open Scope R_scope.

(** leading coefficient one *)
Definition gc (n m : nat) : R := INR (fact (n - m)) / INR (fact (2 * n)) * (2 ^ n * INR (fact n)).
Definition G (n m : nat) (x : R) : R := gc n m * legendre_deriv n m x.
Definition g (n m : nat) (elv : R) : R := cos elv ^ m * G n m (sin elv).

Lemma gc_pos n m : 0 < gc n m.
Proof.
  unfold gc. pose proof (den_pos n). pose proof (INR_fact_lt_0 (n - m)). pose proof (INR_fact_lt_0 (2 * n)).
  apply Rmult_lt_0_compat; [apply Rdiv_lt_0_compat; assumption|assumption].
Qed.

Lemma G_diag n x : G n n x = 1.
Proof.
  unfold G, gc. rewrite L_diag, Nat.sub_diag. change (INR (fact 0)) with 1.
  pose proof (den_pos n). pose proof (INR_fact_neq_0 (2 * n)). field. split; [|split; auto].
  - apply INR_fact_neq_0.
  - apply pow_nonzero; lra.
Qed.

Lemma L_subdiag n x : legendre_deriv (S n) n x = x * legendre_deriv (S n) (S n) x.
Proof.
  pose proof (L_C n n x) as C. rewrite (L_above n (S n)) in C by lia.
  replace (INR n + 1 - INR n) with 1 in C by ring. lra.
Qed.

Lemma G_subdiag n x : G (S n) n x = x.
Proof.
  unfold G. rewrite L_subdiag. pose proof (G_diag (S n) x) as D. unfold G in D.
  replace (gc (S n) n) with (gc (S n) (S n)).
  - rewrite <- Rmult_assoc, (Rmult_comm _ x), Rmult_assoc, D. ring.
  - unfold gc. replace (S n - n)%nat with 1%nat by lia. rewrite Nat.sub_diag. reflexivity.
Qed.

Lemma G_rec k m x : (m <= k)%nat ->
  G (S (S k)) m x = x * G (S k) m x
    - 1 / INR ((2 * S (S k) - 1) * (2 * S (S k) - 3)) *
      INR ((S (S k) - 1) * (S (S k) - 1) - m * m) * G k m x.
Proof.
  intro H. unfold G, gc. pose proof (L_three k m x) as E.
  replace (S (S k) - m)%nat with (S (S (k - m))) by lia. replace (S k - m)%nat with (S (k - m)) by lia.
  replace (2 * S (S k))%nat with (S (S (S (S (2 * k))))) by lia. replace (2 * S k)%nat with (S (S (2 * k))) by lia.
  rewrite !fact_simpl, !mult_INR.
  rewrite (minus_INR ((S (S k) - 1) * (S (S k) - 1))) by nia.
  rewrite !mult_INR. replace (S (S k) - 1)%nat with (S k) by lia.
  replace (S (S (S (S (2 * k)))) - 1)%nat with (S (S (S (2 * k)))) by lia.
  replace (S (S (S (S (2 * k)))) - 3)%nat with (S (2 * k)) by lia.
  rewrite !S_INR, minus_INR, mult_INR by lia. change (INR 2) with (1 + 1). cbn [pow].
  pose proof (INR_fact_neq_0 (2 * k)) as F2. pose proof (INR_fact_neq_0 k) as F1.
  pose proof (INR_fact_neq_0 (k - m)) as F3. assert (2 ^ k <> 0) by (apply pow_nonzero; lra).
  pose proof (pos_INR k) as K. pose proof (pos_INR m) as M.
  assert (Hkm : INR m <= INR k) by now apply le_INR.
  set (a := INR k) in *. set (b := INR m) in *.
  set (l2 := legendre_deriv (S (S k)) m x) in *. set (l1 := legendre_deriv (S k) m x) in *.
  set (l0 := legendre_deriv k m x) in *.
  assert (E2 : l2 = ((2 * a + 3) * x * l1 - (a + 1 + b) * l0) / (a + 2 - b)) by (apply (Rmult_eq_reg_l (a + 2 - b)); [rewrite E; field; lra|lra]).
  rewrite E2. field. repeat split; try lra; auto.
Qed.

Lemma G_is_derive n m x : is_derive (G n m) x (gc n m * legendre_deriv n (S m) x).
Proof. apply @is_derive_scal. apply L_is_derive. Qed.

Lemma Rderive_ext (f g : R -> R) (x l : R) :
  (forall t : R, f t = g t) -> is_derive f x l -> is_derive g x l.
Proof. intro E. apply is_derive_ext. exact E. Qed.

Lemma cos_is_derive x : is_derive cos x (- sin x).
Proof. auto_derive; [trivial|ring]. Qed.
Lemma sin_is_derive x : is_derive sin x (cos x).
Proof. auto_derive; [trivial|ring]. Qed.

Lemma trig_is_derive (f : R -> R) m x l : is_derive f (sin x) l ->
  is_derive (fun t => cos t ^ m * f (sin t)) x
    (INR m * (- sin x) * cos x ^ pred m * f (sin x) + cos x ^ m * (cos x * l)).
Proof.
  intro D. apply (is_derive_mult (fun t => cos t ^ m) (fun t => f (sin t)) x).
  - apply (is_derive_pow cos m x (- sin x)). apply cos_is_derive.
  - apply (is_derive_comp f sin x l (cos x)); [exact D|apply sin_is_derive].
  - intros; apply Rmult_comm.
Qed.

Lemma g_ex n m x : ex_derive (g n m) x.
Proof. eexists. apply (trig_is_derive (G n m)). apply G_is_derive. Qed.

Lemma g_00 x : g 0 0 x = 1.
Proof. unfold g. rewrite G_diag. cbn [pow]. ring. Qed.
Lemma g_diag n x : g (S n) (S n) x = cos x * g n n x.
Proof. unfold g. rewrite !G_diag. cbn [pow]. ring. Qed.
Lemma g_subdiag n x : g (S n) n x = sin x * g n n x.
Proof. unfold g. rewrite G_diag, G_subdiag. ring. Qed.
Lemma g_rec k m x : (m <= k)%nat ->
  g (S (S k)) m x = sin x * g (S k) m x
    - 1 / INR ((2 * S (S k) - 1) * (2 * S (S k) - 3)) *
      INR ((S (S k) - 1) * (S (S k) - 1) - m * m) * g k m x.
Proof. intro H. unfold g. rewrite (G_rec k m _ H). ring. Qed.

Lemma dg_00 x : Derive (g 0 0) x = 0.
Proof. rewrite (Derive_ext _ (fun _ => 1)) by apply g_00. apply Derive_const. Qed.
Lemma D_sin f x : ex_derive f x -> Derive (fun t => sin t * f t) x = cos x * f x + sin x * Derive f x.
Proof.
  intro H. apply is_derive_unique.
  apply (is_derive_mult sin f x (cos x) (Derive f x)); [apply sin_is_derive|now apply Derive_correct|].
  intros; apply Rmult_comm.
Qed.
Lemma D_cos f x : ex_derive f x -> Derive (fun t => cos t * f t) x = - sin x * f x + cos x * Derive f x.
Proof.
  intro H. apply is_derive_unique.
  apply (is_derive_mult cos f x (- sin x) (Derive f x)); [apply cos_is_derive|now apply Derive_correct|].
  intros; apply Rmult_comm.
Qed.
Lemma dg_diag n x : Derive (g (S n) (S n)) x = cos x * Derive (g n n) x - sin x * g n n x.
Proof. rewrite (Derive_ext _ _ x (g_diag n)), D_cos by apply g_ex. ring. Qed.
Lemma dg_subdiag n x : Derive (g (S n) n) x = sin x * Derive (g n n) x + cos x * g n n x.
Proof. rewrite (Derive_ext _ _ x (g_subdiag n)), D_sin by apply g_ex. ring. Qed.
Lemma dg_rec k m x : (m <= k)%nat ->
  Derive (g (S (S k)) m) x = sin x * Derive (g (S k) m) x
    - 1 / INR ((2 * S (S k) - 1) * (2 * S (S k) - 3)) *
      INR ((S (S k) - 1) * (S (S k) - 1) - m * m) * Derive (g k m) x + cos x * g (S k) m x.
Proof.
  intro H. rewrite (Derive_ext _ _ x (fun t => g_rec k m t H)).
  set (w := _ * INR (_ - m * m)). clearbody w.
  rewrite Derive_minus.
  - rewrite D_sin, Derive_scal by apply g_ex. ring.
  - apply @ex_derive_mult; [eexists; apply sin_is_derive|apply g_ex].
  - apply @ex_derive_scal. apply g_ex.
Qed.

(** ** Schmidt normalisation *)
Definition nf (n m : nat) : R :=
  sqrt ((if Nat.eqb m 0 then 1 else 2) * INR (fact (n - m)) / INR (fact (n + m))).
Definition F (n m : nat) : R := nf n m / gc n m.

Lemma schmidt_nf n m x : schmidt n m x = nf n m * cos x ^ m * legendre_deriv n m (sin x).
Proof. reflexivity. Qed.

Lemma schmidt_g n m x : schmidt n m x = g n m x * F n m.
Proof.
  rewrite schmidt_nf. unfold F, g, G. pose proof (gc_pos n m). field. lra.
Qed.

Lemma nf_0 n : nf n 0 = 1.
Proof.
  unfold nf. cbn [Nat.eqb]. rewrite Nat.sub_0_r, Nat.add_0_r.
  replace (1 * INR (fact n) / INR (fact n)) with 1; [apply sqrt_1|].
  pose proof (INR_fact_neq_0 n). field. auto.
Qed.

Lemma F_0 : F 0 0 = 1.
Proof. unfold F. rewrite nf_0. unfold gc. cbn. field. Qed.
Lemma F_10 : F 1 0 = 1.
Proof. unfold F. rewrite nf_0. unfold gc. cbn. field. Qed.
Lemma F_11 : F 1 1 = 1.
Proof.
  unfold F, nf, gc. cbn. replace (2 * 1 / (1 + 1)) with 1 by field. rewrite sqrt_1. field.
Qed.

Lemma F_step n : F (S n) 0 = F n 0 * (INR (2 * S n - 1) / INR (S n)).
Proof.
  unfold F. rewrite !nf_0. unfold gc. rewrite !Nat.sub_0_r. replace (2 * S n - 1)%nat with (S (2 * n)) by lia.
  replace (2 * S n)%nat with (S (S (2 * n))) by lia. rewrite !fact_simpl, !mult_INR, !S_INR, mult_INR.
  change (INR 2) with (1 + 1). cbn [pow].
  pose proof (INR_fact_neq_0 (2 * n)) as F2. pose proof (INR_fact_neq_0 n) as F1.
  assert (2 ^ n <> 0) by (apply pow_nonzero; lra). pose proof (pos_INR n) as K.
  field. repeat split; try lra; auto.
Qed.

(** ratio of neighbouring orders *)
Lemma nf_ratio n m : (S m <= n)%nat ->
  nf n (S m) * sqrt (INR (n - m)) * sqrt (INR (n + S m)) = nf n m * (if Nat.eqb m 0 then sqrt 2 else 1).
Proof.
  intro H. unfold nf. cbn [Nat.eqb]. rewrite Rmult_assoc.
  assert (Hd : INR (fact (n - m)) = INR (n - m) * INR (fact (n - S m))).
  { replace (n - m)%nat with (S (n - S m)) by lia. now rewrite fact_simpl, mult_INR. }
  assert (Hs : INR (fact (n + S m)) = INR (n + S m) * INR (fact (n + m))).
  { replace (n + S m)%nat with (S (n + m)) by lia. now rewrite fact_simpl, mult_INR. }
  assert (P1 : 0 < INR (n - m)) by (apply lt_0_INR; lia).
  assert (P2 : 0 < INR (n + S m)) by (apply lt_0_INR; lia).
  pose proof (INR_fact_lt_0 (n - S m)) as P3. pose proof (INR_fact_lt_0 (n + m)) as P4.
  rewrite <- sqrt_mult by lra. rewrite <- sqrt_mult.
  2: { apply Rlt_le, Rdiv_lt_0_compat; [nra|]. rewrite Hs. nra. }
  2: nra.
  rewrite Hd, Hs.
  replace (2 * INR (fact (n - S m)) / (INR (n + S m) * INR (fact (n + m))) * (INR (n - m) * INR (n + S m)))
    with (2 * (INR (n - m) * INR (fact (n - S m))) / INR (fact (n + m))) by (field; lra).
  destruct m as [|m]; cbn [Nat.eqb]; [|rewrite Rmult_1_r; reflexivity].
  rewrite <- sqrt_mult.
  - f_equal. field. lra.
  - apply Rlt_le, Rdiv_lt_0_compat; nra.
  - lra.
Qed.

Lemma gc_ratio n m : (S m <= n)%nat -> gc n m = gc n (S m) * INR (n - m).
Proof.
  intro H. unfold gc. replace (n - m)%nat with (S (n - S m)) by lia. rewrite fact_simpl, mult_INR.
  pose proof (INR_fact_neq_0 (2 * n)). field. auto.
Qed.

Lemma F_order n m : (S m <= n)%nat ->
  F n (S m) = F n m * (if Nat.eqb m 0 then sqrt 2 else 1) * sqrt (INR (n - m)) * (1 / sqrt (INR (n + S m))).
Proof.
  intro H. unfold F. rewrite (gc_ratio n m H). pose proof (nf_ratio n m H) as E.
  assert (P1 : 0 < sqrt (INR (n - m))) by (apply sqrt_lt_R0, lt_0_INR; lia).
  assert (P2 : 0 < sqrt (INR (n + S m))) by (apply sqrt_lt_R0, lt_0_INR; lia).
  pose proof (gc_pos n (S m)) as P3.
  assert (E1 : INR (n - m) = sqrt (INR (n - m)) * sqrt (INR (n - m))) by (rewrite sqrt_sqrt; [reflexivity|apply pos_INR]).
  replace (gc n (S m) * INR (n - m)) with (gc n (S m) * (sqrt (INR (n - m)) * sqrt (INR (n - m)))) by (rewrite <- E1; reflexivity).
  clear E1. set (a := sqrt (INR (n - m))) in *. set (b := sqrt (INR (n + S m))) in *.
  set (q := if Nat.eqb m 0 then sqrt 2 else 1) in *.
  replace (nf n (S m)) with (nf n (S m) * a * b / (a * b)) by (field; lra).
  rewrite E. field. lra.
Qed.

Lemma F_first n : (1 <= n)%nat -> F n 1 = F n 0 * sqrt (INR (2 * n)) * (1 / sqrt (INR (n + 1))).
Proof.
  intro H. rewrite (F_order n 0) by lia. cbn [Nat.eqb]. rewrite Nat.sub_0_r, mult_INR.
  rewrite sqrt_mult by (try apply pos_INR). change (INR 2) with (1 + 1). replace (1 + 1) with 2 by ring. ring.
Qed.
