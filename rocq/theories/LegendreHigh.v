(** The high degree algorithm evaluates the Schmidt semi-normalised functions. *)

From Coq Require Import Reals Factorial Arith Lra Lia.
From Coquelicot Require Import Coquelicot.
From Verif Require Import ArrModel LegendreModel LegendreSpec LoopProofs LegendrePoly LegendreGauss LegendreLow.
Open Scope R_scope.

(** Schmidt semi-normalised functions without the power of the cosine *)
Definition h (n m : nat) (x : R) : R := nf n m * legendre_deriv n m x.

Lemma schmidt_h n m x : schmidt n m x = cos x ^ m * h n m (sin x).
Proof. rewrite schmidt_nf. unfold h. ring. Qed.

Lemma nf_degree n m : (m <= n)%nat ->
  nf (S n) m * sqrt (INR (S n + m)) = nf n m * sqrt (INR (S n - m)).
Proof.
  intro H. unfold nf. set (c := if Nat.eqb m 0 then 1 else 2).
  assert (C : 0 < c) by (unfold c; destruct (Nat.eqb m 0); lra).
  replace (S n - m)%nat with (S (n - m)) by lia. replace (S n + m)%nat with (S (n + m)) by lia.
  rewrite !fact_simpl, !mult_INR.
  pose proof (INR_fact_lt_0 (n - m)) as P1. pose proof (INR_fact_lt_0 (n + m)) as P2.
  assert (P3 : 0 < INR (S (n - m))) by (apply lt_0_INR; lia).
  assert (P4 : 0 < INR (S (n + m))) by (apply lt_0_INR; lia).
  assert (0 < INR (S (n - m)) * INR (fact (n - m))) by now apply Rmult_lt_0_compat.
  assert (0 < INR (S (n + m)) * INR (fact (n + m))) by now apply Rmult_lt_0_compat.
  rewrite <- !sqrt_mult; try lra.
  - f_equal. field. lra.
  - apply Rlt_le, Rdiv_lt_0_compat; [now apply Rmult_lt_0_compat|lra].
  - apply Rlt_le, Rdiv_lt_0_compat; [now apply Rmult_lt_0_compat|lra].
Qed.

Lemma sqrt_INR_pos k : (1 <= k)%nat -> 0 < sqrt (INR k).
Proof. intro H. apply sqrt_lt_R0, lt_0_INR. lia. Qed.
Lemma sqrt_INR_sq k : sqrt (INR k) * sqrt (INR k) = INR k.
Proof. apply sqrt_sqrt, pos_INR. Qed.

(** ** Diagonal *)
Lemma L_diag_step j x : legendre_deriv (S j) (S j) x = INR (2 * j + 1) * legendre_deriv j j x.
Proof.
  rewrite L_A, (L_above j (S j)) by lia. rewrite plus_INR, mult_INR. change (INR 2) with (1 + 1).
  change (INR 1) with 1. ring.
Qed.

Lemma nf_diag j : (1 <= j)%nat ->
  nf (S j) (S j) * sqrt (INR (2 * j + 2)) * sqrt (INR (2 * j + 1)) = nf j j.
Proof.
  intro H. pose proof (nf_ratio (S j) j ltac:(lia)) as A. pose proof (nf_degree j j ltac:(lia)) as B.
  replace (S j - j)%nat with 1%nat in * by lia. change (INR 1) with 1 in *. rewrite sqrt_1 in *.
  destruct (Nat.eqb_spec j 0); [lia|].
  replace (S j + S j)%nat with (2 * j + 2)%nat in A by lia. replace (S j + j)%nat with (2 * j + 1)%nat in B by lia.
  rewrite Rmult_1_r in A. rewrite A, Rmult_1_r, B. ring.
Qed.

Lemma h_diag j x : (1 <= j)%nat -> sqrt (INR (2 * j + 2)) * h (S j) (S j) x = sqrt (INR (2 * j + 1)) * h j j x.
Proof.
  intro H. unfold h. rewrite L_diag_step. pose proof (nf_diag j H) as E.
  pose proof (sqrt_INR_sq (2 * j + 1)) as Q. rewrite <- E. rewrite <- Q at 1. ring.
Qed.

Lemma h_11 x : h 1 1 x = 1.
Proof.
  unfold h. rewrite L_diag_step, L_0_0. unfold nf. cbn. replace (2 * 1 / (1 + 1)) with 1 by field.
  rewrite sqrt_1. ring.
Qed.

Lemma h_subdiag j x : (1 <= j)%nat -> h (S j) j x = x * (sqrt (INR (2 * j + 1)) * h j j x).
Proof.
  intro H. unfold h. rewrite L_subdiag, L_diag_step. pose proof (nf_degree j j ltac:(lia)) as B.
  replace (S j - j)%nat with 1%nat in * by lia. change (INR 1) with 1 in *. rewrite sqrt_1, Rmult_1_r in B.
  replace (S j + j)%nat with (2 * j + 1)%nat in B by lia. rewrite <- B.
  pose proof (sqrt_INR_sq (2 * j + 1)) as Q. rewrite <- Q at 1. ring.
Qed.

(** ** Recurrence in the degree *)
Lemma h_rec k j x : (j <= k)%nat ->
  h (S (S k)) j x =
  (INR (2 * S (S k) - 1) * x * h (S k) j x
   - sqrt (INR (S (S k) - j - 1)) * sqrt (INR (S (S k) + j - 1)) * h k j x)
  * (1 / sqrt (INR (S (S k) + j)) * (1 / sqrt (INR (S (S k) - j)))).
Proof.
  intro H. pose proof (L_three k j x) as E.
  pose proof (nf_degree k j H) as A. pose proof (nf_degree (S k) j ltac:(lia)) as B.
  replace (S (S k) - j - 1)%nat with (S k - j)%nat by lia. replace (S (S k) + j - 1)%nat with (S k + j)%nat by lia.
  pose proof (sqrt_INR_pos (S k - j) ltac:(lia)) as P1. pose proof (sqrt_INR_pos (S k + j) ltac:(lia)) as P2.
  pose proof (sqrt_INR_pos (S (S k) - j) ltac:(lia)) as P3. pose proof (sqrt_INR_pos (S (S k) + j) ltac:(lia)) as P4.
  pose proof (sqrt_INR_sq (S (S k) - j)) as Q3. pose proof (sqrt_INR_sq (S k + j)) as Q2.
  unfold h.
  set (a := sqrt (INR (S k - j))) in *. set (b := sqrt (INR (S k + j))) in *.
  set (c := sqrt (INR (S (S k) - j))) in *. set (d := sqrt (INR (S (S k) + j))) in *.
  assert (E1 : INR k + 2 - INR j = c * c).
  { rewrite Q3, minus_INR by lia. rewrite !S_INR. ring. }
  assert (E2 : INR k + 1 + INR j = b * b).
  { rewrite Q2, plus_INR. rewrite !S_INR. ring. }
  assert (E3 : 2 * INR k + 3 = INR (2 * S (S k) - 1)).
  { replace (2 * S (S k) - 1)%nat with (S (S (S (2 * k)))) by lia. rewrite !S_INR, mult_INR. change (INR 2) with (1 + 1). ring. }
  rewrite E1, E2, E3 in E. clear E1 E2 E3 Q2 Q3.
  set (f := INR (2 * S (S k) - 1)) in *.
  assert (A' : nf k j * a = nf (S k) j * b) by (symmetry; exact A).
  assert (B' : nf (S (S k)) j = nf (S k) j * c / d) by (rewrite <- B; field; lra).
  rewrite B'.
  replace (nf (S k) j * c / d * legendre_deriv (S (S k)) j x)
    with (nf (S k) j * (c * c * legendre_deriv (S (S k)) j x) / (c * d)) by (field; lra).
  rewrite E. 
  replace (f * x * (nf (S k) j * legendre_deriv (S k) j x) - a * b * (nf k j * legendre_deriv k j x))
    with (nf (S k) j * (f * x * legendre_deriv (S k) j x) - (nf k j * a) * b * legendre_deriv k j x) by ring.
  rewrite A'. field. lra.
Qed.

(** ** Derivatives *)
Lemma dschmidt_0 n x : cos x <> 0 ->
  Derive (schmidt (S n) 0) x =
  INR (S n) * (1 / cos x) * (schmidt n 0 x - sin x * schmidt (S n) 0 x).
Proof.
  intro C. apply is_derive_unique.
  apply (Rderive_ext (fun t => cos t ^ 0 * legendre_deriv (S n) 0 (sin t))).
  { intro t. rewrite schmidt_nf, nf_0. ring. }
  pose proof (trig_is_derive (legendre_deriv (S n) 0) 0 x _ (L_is_derive (S n) 0 (sin x))) as D.
  pose proof (L_D n 0 (sin x)) as E. rewrite !schmidt_nf, !nf_0.
  assert (S2 : 1 - sin x ^ 2 = cos x * cos x) by (pose proof (sin2_cos2 x); unfold Rsqr in *; cbn [pow]; lra).
  rewrite S2 in E. change (INR 0) with 0 in *. cbn [pow pred] in *.
  match type of D with is_derive _ _ ?l => match goal with |- is_derive _ _ ?r => replace r with l; [exact D|] end end.
  apply (Rmult_eq_reg_l (cos x)); [|exact C].
  transitivity (cos x * cos x * legendre_deriv (S n) 1 (sin x)); [ring|]. rewrite E, S_INR. field. exact C.
Qed.

Lemma dschmidt_m n j x : (1 <= j <= n)%nat ->
  Derive (schmidt (S n) j) x =
  - cos x ^ (j - 1) * (INR (S n) * sin x * h (S n) j (sin x)
      - sqrt (INR (S n + j)) * sqrt (INR (S n - j)) * h n j (sin x)).
Proof.
  intro H. apply is_derive_unique.
  apply (Rderive_ext (fun t => cos t ^ j * h (S n) j (sin t))); [intro; symmetry; apply schmidt_h|].
  assert (Dh : is_derive (h (S n) j) (sin x) (nf (S n) j * legendre_deriv (S n) (S j) (sin x))).
  { apply @is_derive_scal. apply L_is_derive. }
  pose proof (trig_is_derive (h (S n) j) j x _ Dh) as D.
  pose proof (L_D n j (sin x)) as E.
  assert (S2 : 1 - sin x ^ 2 = cos x * cos x) by (pose proof (sin2_cos2 x); unfold Rsqr in *; cbn [pow]; lra).
  rewrite S2 in E. destruct j as [|j]; [lia|]. cbn [pred] in D. replace (S j - 1)%nat with j by lia.
  pose proof (nf_degree n (S j) ltac:(lia)) as A.
  pose proof (sqrt_INR_pos (S n - S j) ltac:(lia)) as P1. pose proof (sqrt_INR_pos (S n + S j) ltac:(lia)) as P2.
  pose proof (sqrt_INR_sq (S n - S j)) as Q1. pose proof (sqrt_INR_sq (S n + S j)) as Q2.
  unfold h in *. set (a := sqrt (INR (S n - S j))) in *. set (b := sqrt (INR (S n + S j))) in *.
  rewrite minus_INR in Q1 by lia. rewrite plus_INR in Q2. rewrite (S_INR n) in Q1, Q2.
  match type of D with is_derive _ _ ?l => match goal with |- is_derive _ _ ?r => replace r with l; [exact D|] end end.
  change (cos x ^ S j) with (cos x * cos x ^ j).
  transitivity (cos x ^ j * (- INR (S j) * sin x * (nf (S n) (S j) * legendre_deriv (S n) (S j) (sin x))
     + nf (S n) (S j) * (cos x * cos x * legendre_deriv (S n) (S (S j)) (sin x)))); [ring|].
  rewrite E, <- Q1, <- Q2. rewrite (S_INR n).
  replace (INR (S j)) with (INR n + 1 - a * a) by lra.
  transitivity (cos x ^ j * (- (INR n + 1) * sin x * (nf (S n) (S j) * legendre_deriv (S n) (S j) (sin x))
     + (nf (S n) (S j) * b) * b * legendre_deriv n (S j) (sin x))); [ring|].
  rewrite A. ring.
Qed.

Lemma dschmidt_diag j x : (1 <= j)%nat ->
  Derive (schmidt j j) x = - cos x ^ (j - 1) * (INR j * sin x * h j j (sin x)).
Proof.
  intro H. apply is_derive_unique.
  apply (Rderive_ext (fun t => cos t ^ j * h j j (sin t))); [intro; symmetry; apply schmidt_h|].
  assert (Dh : is_derive (h j j) (sin x) (nf j j * legendre_deriv j (S j) (sin x))).
  { apply @is_derive_scal. apply L_is_derive. }
  pose proof (trig_is_derive (h j j) j x _ Dh) as D.
  rewrite L_above in D by lia. destruct j as [|j]; [lia|]. cbn [pred] in D. replace (S j - 1)%nat with j by lia.
  match type of D with is_derive _ _ ?l => match goal with |- is_derive _ _ ?r => replace r with l; [exact D|] end end.
  ring.
Qed.

(** ** The algorithm *)
Section High.
Variables (lp0 ldp0 : arr) (degree : nat) (elv : R) (psqrt prsqrt : arr).
Hypothesis Q : sqrt_table degree psqrt prsqrt.
Hypothesis C : cos elv <> 0.
Hypothesis Hdeg : (1 <= degree)%nat.

Let sv (n m : nat) := schmidt n m elv.
Let sd (n m : nat) := Derive (schmidt n m) elv.
Let s := sin elv.
Let c := cos elv.
Let scale := SHC_LEG_HIGH_SCALE.
Let rscale := 1 / SHC_LEG_HIGH_SCALE.

Lemma scale_pos : 0 < scale.
Proof. unfold scale, SHC_LEG_HIGH_SCALE. apply pow_lt. lra. Qed.
Lemma scale_r : scale * rscale = 1.
Proof. pose proof scale_pos. unfold rscale. fold scale. field. lra. Qed.

(** columns m < j and the rows n < i of the column j *)
Definition done (i j : nat) (st : arr * arr) : Prop :=
  (forall n m, (m <= n <= degree)%nat -> (m < j)%nat \/ m = j /\ (n < i)%nat -> at_nm sv sd st n m) /\
  frame lp0 ldp0 (T (S degree)) st.

Lemma done_upd i j v d (lp ldp : arr) : (j <= i <= degree)%nat ->
  v = sv i j -> d = sd i j -> done i j (lp, ldp) ->
  done (S i) j (upd lp (T i + j) v, upd ldp (T i + j) d).
Proof.
  intros Hi -> -> [H1 H2]. split.
  - intros n m Hn Hm. unfold at_nm. cbn [fst snd].
    destruct (Nat.eq_dec n i) as [->|N].
    + destruct (Nat.eq_dec m j) as [->|M]; [rewrite !upd_same; auto|].
      rewrite !upd_other by lia. apply (H1 i m); lia.
    + rewrite !upd_other by (apply T_neq; lia). apply (H1 n m); lia.
  - intros k Hk. cbn [fst snd]. pose proof (T_mono i (S degree) ltac:(lia)).
    rewrite !upd_other by lia. apply H2. exact Hk.
Qed.

Lemma done_next j st : done (S degree) j st -> done 0 (S j) st /\ done (S j) (S j) st.
Proof.
  intros [H1 H2]. split; split; auto; intros n m Hn Hm; apply H1; lia.
Qed.

(** order zero *)
Definition col0 (i : nat) (st : arr * arr * nat * R * R) : Prop :=
  let '(lp, ldp, idx, pm2, pm1) := st in
  done i 0 (lp, ldp) /\ idx = T i /\ pm2 = sv (i - 2) 0 /\ pm1 = sv (i - 1) 0.

Lemma schmidt_00 x : schmidt 0 0 x = 1.
Proof. rewrite schmidt_nf, nf_0, L_0_0. cbn [pow]. ring. Qed.
Lemma schmidt_10 x : schmidt 1 0 x = sin x.
Proof. rewrite schmidt_nf, nf_0, L_subdiag, L_diag_step, L_0_0. cbn. ring. Qed.

Lemma schmidt_bonnet k x :
  schmidt (S (S k)) 0 x = INR (2 * S (S k) - 1) / INR (S (S k)) * sin x * schmidt (S k) 0 x
    - INR (S (S k) - 1) / INR (S (S k)) * schmidt k 0 x.
Proof.
  rewrite !schmidt_nf, !nf_0. cbn [pow]. pose proof (L_three k 0 (sin x)) as E. change (INR 0) with 0 in E.
  replace (2 * S (S k) - 1)%nat with (S (S (S (2 * k)))) by lia. replace (S (S k) - 1)%nat with (S k) by lia.
  rewrite !S_INR, mult_INR. change (INR 2) with (1 + 1). pose proof (pos_INR k).
  apply (Rmult_eq_reg_l (INR k + 2)); [|lra].
  transitivity ((INR k + 2 - 0) * legendre_deriv (S (S k)) 0 (sin x)); [ring|]. rewrite E. field. lra.
Qed.

Lemma col0_init : col0 2 (upd (upd lp0 0 1) 1 s, upd (upd ldp0 0 0) 1 c, 3%nat, 1, s).
Proof.
  split; [|split; [reflexivity|split; unfold sv; cbn [Nat.sub]; [now rewrite schmidt_00|now rewrite schmidt_10]]].
  change 1%nat with (T 1 + 0)%nat at 1 2. apply done_upd; [lia|unfold sv; now rewrite schmidt_10| |].
  - unfold sd, c. symmetry. rewrite (Derive_ext _ sin) by apply schmidt_10. apply is_derive_unique, sin_is_derive.
  - change 0%nat with (T 0 + 0)%nat at 3 4. apply done_upd; [lia|unfold sv; now rewrite schmidt_00| |].
    + unfold sd. symmetry. rewrite (Derive_ext _ (fun _ => 1)) by apply schmidt_00. apply Derive_const.
    + split; [intros; lia|]. intros k Hk. split; reflexivity.
Qed.

(** the other orders *)
Definition cols (j : nat) (st : arr * arr * nat * R * R) : Prop :=
  let '(lp, ldp, idx0, pmm, pow_cos) := st in
  done j j (lp, ldp) /\ idx0 = (T j + j)%nat /\
  pmm = rscale * (sqrt (INR (2 * j)) * h j j s) /\ pow_cos = scale * c ^ (j - 1).

Definition coln (j i : nat) (st : arr * arr * nat * R * R) : Prop :=
  let '(lp, ldp, idx, pm2, pm1) := st in
  done i j (lp, ldp) /\ idx = (T i + j)%nat /\ pm2 = rscale * h (i - 2) j s /\ pm1 = rscale * h (i - 1) j s.

Lemma pq k : (k <= 2 * degree + 1)%nat -> psqrt k = sqrt (INR k).
Proof. intro H. apply (Q k H). Qed.
Lemma rq k : (k <= 2 * degree + 1)%nat -> prsqrt k = 1 / sqrt (INR k).
Proof. intro H. apply (Q k H). Qed.

Lemma high_state :
  let r := shc_legendre_high lp0 ldp0 degree s c psqrt prsqrt in
  (forall n m, (n <= degree)%nat -> (m <= n)%nat -> at_nm sv sd r n m) /\ frame lp0 ldp0 (T (S degree)) r.
Proof.
  unfold shc_legendre_high. cbv zeta.
  match goal with |- context [loop 2 degree ?b1 ?i] => set (body1 := b1); set (i0 := i) end.
  assert (P1 : col0 (S degree) (loop 2 degree body1 i0)).
  { apply (loop_inv col0); [lia|apply col0_init|]. unfold body1. clear body1 i0.
    intros i [[[[lp ldp] idx] pm2] pm1] Hi (H1 & -> & -> & ->). destruct i as [|[|k]]; [lia|lia|].
    replace (S (S k) - 2)%nat with k by lia. change (sv (S (S k) - 1) 0) with (sv (S k) 0).
    assert (E : INR (2 * S (S k) - 1) / INR (S (S k)) * s * sv (S k) 0 - INR (S (S k) - 1) / INR (S (S k)) * sv k 0
                = sv (S (S k)) 0) by (unfold sv, s; symmetry; apply schmidt_bonnet).
    rewrite E. split; [|split; [|split]].
    - replace (T (S (S k))) with (T (S (S k)) + 0)%nat by lia. apply done_upd; [lia|reflexivity| |exact H1].
      unfold sd, sv, c, s. symmetry. now apply dschmidt_0.
    - rewrite (T_S (S (S k))). lia.
    - reflexivity.
    - reflexivity. }
  destruct (loop 2 degree body1 i0) as [[[[lp1 ldp1] x1] x2] x3]. destruct P1 as (P1 & _ & _ & _).
  clear body1 i0 x1 x2 x3.
  match goal with |- context [loop 1 (degree - 1) ?b1 ?i] => set (body2 := b1); set (i0 := i) end.
  assert (P2 : cols (S (degree - 1)) (loop 1 (degree - 1) body2 i0)).
  { apply (loop_inv cols); [lia| |].
    - split; [apply (done_next 0 (lp1, ldp1) P1)|]. split; [reflexivity|]. split.
      + rewrite pq by lia. rewrite h_11. fold rscale. change (2 * 1)%nat with 2%nat. ring.
      + cbn [Nat.sub pow]. fold scale. ring.
    - unfold body2. clear body2 i0 P1 lp1 ldp1.
      intros j [[[[lp ldp] idx0] pmm] pow_cos] Hj (H1 & -> & -> & ->).
      pose proof (sqrt_INR_pos (2 * j) ltac:(lia)) as R1. pose proof (sqrt_INR_pos (2 * j + 1) ltac:(lia)) as R2.
      set (q := sqrt (INR (2 * j + 1)) * h j j s).
      assert (E1 : rscale * (sqrt (INR (2 * j)) * h j j s) * (psqrt (2 * j + 1)%nat * prsqrt (2 * j)%nat) = rscale * q).
      { rewrite pq, rq by lia. unfold q. field. lra. }
      rewrite E1. clear E1.
      assert (E2 : rscale * q * prsqrt (2 * j + 1)%nat = rscale * h j j s).
      { rewrite rq by lia. unfold q. field. lra. }
      rewrite E2. clear E2.
      assert (E3 : s * (rscale * q) = rscale * h (S j) j s) by (rewrite h_subdiag by lia; unfold q; ring).
      rewrite E3.
      assert (E4 : scale * c ^ (j - 1) * c = scale * c ^ j).
      { destruct j as [|j]; [lia|]. replace (S j - 1)%nat with j by lia. cbn [pow]. ring. }
      rewrite E4.
      assert (V : forall n, scale * c ^ j * (rscale * h n j s) = sv n j).
      { intro n. unfold sv. rewrite schmidt_h. fold s c.
        transitivity (scale * rscale * (c ^ j * h n j s)); [ring|]. rewrite scale_r. ring. }
      rewrite !V.
      assert (D1 : - (scale * c ^ (j - 1)) * (INR j * s * (rscale * h j j s)) = sd j j).
      { unfold sd. rewrite dschmidt_diag by lia. fold s c.
        transitivity (scale * rscale * (- c ^ (j - 1) * (INR j * s * h j j s))); [ring|]. rewrite scale_r. ring. }
      rewrite D1.
      assert (D2 : forall n, (j <= n)%nat -> - (scale * c ^ (j - 1)) * (INR (S n) * s * (rscale * h (S n) j s)
                     - sqrt (INR (S n + j)) * sqrt (INR (S n - j)) * (rscale * h n j s)) = sd (S n) j).
      { intros n Hn. unfold sd. rewrite dschmidt_m by lia. fold s c.
        transitivity (scale * rscale * (- c ^ (j - 1) * (INR (S n) * s * h (S n) j s
           - sqrt (INR (S n + j)) * sqrt (INR (S n - j)) * h n j s))); [ring|]. rewrite scale_r. ring. }
      assert (D3 : - (scale * c ^ (j - 1)) * (INR (j + 1) * s * (rscale * h (S j) j s) - rscale * q) = sd (S j) j).
      { rewrite <- (D2 j) by lia. replace (S j - j)%nat with 1%nat by lia. replace (S j + j)%nat with (2 * j + 1)%nat by lia.
        change (INR 1) with 1. rewrite sqrt_1. unfold q. replace (j + 1)%nat with (S j) by lia. ring. }
      rewrite D3.
      replace (T j + j + j + 1)%nat with (T (S j) + j)%nat by (rewrite T_S; lia).
      match goal with |- context [loop (j + 2) degree ?b1 ?i] => set (body3 := b1); set (i3 := i) end.
      assert (P3 : coln j (S degree) (loop (j + 2) degree body3 i3)).
      { apply (loop_inv (coln j)); [lia| |].
        - split; [|split; [|split]].
          + replace (j + 2)%nat with (S (S j)) by lia. apply done_upd; [lia|reflexivity|reflexivity|].
            apply done_upd; [lia|reflexivity|reflexivity|]. exact H1.
          + replace (j + 2)%nat with (S (S j)) by lia. rewrite (T_S (S j)). lia.
          + replace (j + 2 - 2)%nat with j by lia. reflexivity.
          + replace (j + 2 - 1)%nat with (S j) by lia. reflexivity.
        - unfold body3. clear body3 i3 H1 lp ldp.
          intros i [[[[lp ldp] idx] pm2] pm1] Hi (H1 & -> & -> & ->). destruct i as [|[|k]]; [lia|lia|].
          replace (S (S k) - 2)%nat with k by lia. replace (S (S k) - 1)%nat with (S k) by lia.
          assert (E5 : (INR (2 * S (S k) - 1) * s * (rscale * h (S k) j s)
             - psqrt (S (S k) - j - 1)%nat * psqrt (S (S k) + j - 1)%nat * (rscale * h k j s))
             * (prsqrt (S (S k) + j)%nat * prsqrt (S (S k) - j)%nat) = rscale * h (S (S k)) j s).
          { rewrite (h_rec k j) by lia. rewrite !pq, !rq by lia. ring. }
          rewrite E5. rewrite V. split; [|split; [|split]].
          + apply done_upd; [lia|reflexivity| |exact H1]. rewrite <- (D2 (S k)) by lia. rewrite !pq by lia. reflexivity.
          + rewrite (T_S (S (S k))). lia.
          + reflexivity.
          + reflexivity. }
      destruct (loop (j + 2) degree body3 i3) as [[[[lp3 ldp3] x1] x2] x3]. destruct P3 as (P3 & _ & _ & _).
      split; [apply (done_next j (lp3, ldp3) P3)|]. split; [rewrite T_S; lia|]. split.
      + unfold q. rewrite <- h_diag by lia. replace (2 * S j)%nat with (2 * j + 2)%nat by lia. reflexivity.
      + replace (S j - 1)%nat with j by lia. reflexivity. }
  destruct (loop 1 (degree - 1) body2 i0) as [[[[lp2 ldp2] idx0] pmm] pow_cos]. clear body2 i0 P1 lp1 ldp1.
  replace (S (degree - 1)) with degree in P2 by lia. destruct P2 as (H1 & -> & -> & ->).
  replace (Nat.max 1 degree) with degree by lia.
  pose proof (sqrt_INR_pos (2 * degree) ltac:(lia)) as R1.
  assert (E2 : rscale * (sqrt (INR (2 * degree)) * h degree degree s) * prsqrt (2 * degree)%nat = rscale * h degree degree s).
  { rewrite rq by lia. field. lra. }
  rewrite E2.
  assert (E4 : scale * c ^ (degree - 1) * c = scale * c ^ degree).
  { clear -Hdeg. destruct degree as [|j]; [lia|]. replace (S j - 1)%nat with j by lia. cbn [pow]. ring. }
  rewrite E4.
  destruct (done_upd degree degree (scale * c ^ degree * (rscale * h degree degree s))
     (- (scale * c ^ (degree - 1)) * (INR degree * s * (rscale * h degree degree s))) lp2 ldp2) as [A B]; auto.
  - unfold sv. rewrite schmidt_h. fold s c.
    transitivity (scale * rscale * (c ^ degree * h degree degree s)); [ring|]. rewrite scale_r. ring.
  - unfold sd. rewrite dschmidt_diag by lia. fold s c.
    transitivity (scale * rscale * (- c ^ (degree - 1) * (INR degree * s * h degree degree s))); [ring|]. rewrite scale_r. ring.
  - split; [|exact B]. intros n m Hn Hm. apply A; lia.
Qed.

End High.

Lemma high_correct lp ldp degree elv psqrt prsqrt n m :
  sqrt_table degree psqrt prsqrt -> cos elv <> 0 -> (m <= n <= degree)%nat -> (1 <= degree)%nat ->
  let '(lp', ldp') := shc_legendre_high lp ldp degree (sin elv) (cos elv) psqrt prsqrt in
  lp' (nm_index n m) = schmidt n m elv /\ is_derive (schmidt n m) elv (ldp' (nm_index n m)).
Proof.
  intros Q C Hn Hd. destruct (high_state lp ldp degree elv psqrt prsqrt Q C Hd) as [A _].
  destruct (shc_legendre_high lp ldp degree (sin elv) (cos elv) psqrt prsqrt) as [lp' ldp'].
  destruct (A n m) as [B D]; [lia|lia|]. cbn [fst snd] in B, D. rewrite T_index, B, D.
  split; [reflexivity|]. apply Derive_correct. eexists. apply schmidt_derive.
Qed.

Lemma high_frame lp ldp degree elv psqrt prsqrt k :
  sqrt_table degree psqrt prsqrt -> cos elv <> 0 -> (1 <= degree)%nat -> (nm_size degree <= k)%nat ->
  let '(lp', ldp') := shc_legendre_high lp ldp degree (sin elv) (cos elv) psqrt prsqrt in
  lp' k = lp k /\ ldp' k = ldp k.
Proof.
  intros Q C Hd Hk. destruct (high_state lp ldp degree elv psqrt prsqrt Q C Hd) as [_ A].
  destruct (shc_legendre_high lp ldp degree (sin elv) (cos elv) psqrt prsqrt) as [lp' ldp'].
  rewrite T_size in Hk. apply (A k Hk).
Qed.
