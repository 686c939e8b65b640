(** ALFBASIS computes the fully normalised Legendre functions and their derivatives. *)

From Coq Require Import Bool List Reals Arith Lia Lra.
From Coquelicot Require Import Coquelicot.
From Verif Require Import ArrModel LoopProofs LegendreSpec LegendrePoly LegendreGauss LegendreHigh QdBasisModel QdBasisSpec.
Open Scope R_scope.

Lemma upd2_same a i j v : upd2 a i j v i j = v.
Proof. unfold upd2. now rewrite !Nat.eqb_refl. Qed.
Lemma upd2_other a i j v k l : k <> i \/ l <> j -> upd2 a i j v k l = a k l.
Proof.
  intro H. unfold upd2. destruct (Nat.eqb_spec k i), (Nat.eqb_spec l j); cbn; try reflexivity.
  subst. destruct H as [H|H]; contradiction.
Qed.

(** ** The normalised functions *)
Lemma sqrt4 : sqrt 4 = 2.
Proof. replace 4 with (2 * 2) by lra. apply sqrt_square. lra. Qed.
Lemma sqrt2_pos : 0 < sqrt 2.
Proof. apply sqrt_lt_R0. lra. Qed.
Lemma sqrt2_sq : sqrt 2 * sqrt 2 = 2.
Proof. apply sqrt_sqrt. lra. Qed.

Lemma normalised_0 n t : normalised n 0 t = sqrt (INR (2 * n + 1)) / sqrt 2 * h n 0 (cos t).
Proof.
  unfold normalised. rewrite schmidt_h. cbn [Nat.eqb pow]. rewrite sin_shift, sqrt_div_alt by lra. ring.
Qed.
Lemma normalised_m n m t : (1 <= m)%nat ->
  normalised n m t = sqrt (INR (2 * n + 1)) / 2 * sin t ^ m * h n m (cos t).
Proof.
  intro H. unfold normalised. rewrite schmidt_h. destruct m; [lia|]. cbn [Nat.eqb].
  rewrite sin_shift, cos_shift, sqrt_div_alt, sqrt4 by lra. ring.
Qed.

(** The function without one factor sine *)
Definition w (n m : nat) (t : R) : R := sqrt (INR (2 * n + 1)) / 2 * sin t ^ (m - 1) * h n m (cos t).
Lemma w_normalised n m t : (1 <= m)%nat -> sin t * w n m t = normalised n m t.
Proof.
  intro H. rewrite normalised_m by exact H. unfold w. destruct m; [lia|]. replace (S m - 1)%nat with m by lia.
  cbn [pow]. ring.
Qed.

Ltac roots := repeat (rewrite mult_INR) ; repeat (rewrite sqrt_mult by (try apply Rmult_le_pos; try apply Rmult_le_pos; apply pos_INR)).

Lemma INR_pos k : (1 <= k)%nat -> 0 < INR k.
Proof. intro H. apply lt_0_INR. lia. Qed.

Lemma cm_eq m : (1 <= m)%nat -> cm m = sqrt (INR (2 * m + 1)) / sqrt (INR (2 * m)).
Proof. intro H. unfold cm. apply sqrt_div_alt. apply INR_pos. lia. Qed.
Lemma anm_eq n m : (1 <= m < n)%nat ->
  anm n m = sqrt (INR (2 * n - 1)) * sqrt (INR (2 * n + 1)) / (sqrt (INR (n - m)) * sqrt (INR (n + m))).
Proof.
  intro H. unfold anm. destruct (Nat.eqb_spec m 0); [lia|]. rewrite sqrt_div_alt.
  - now roots.
  - apply INR_pos. nia.
Qed.
Lemma bnm_eq n m : (1 <= m < n)%nat ->
  bnm n m = sqrt (INR (2 * n + 1)) * sqrt (INR (n + m - 1)) * sqrt (INR (n - m - 1)) /
    (sqrt (INR (n - m)) * sqrt (INR (n + m)) * sqrt (INR (2 * n - 3))).
Proof.
  intro H. unfold bnm. destruct (Nat.eqb_spec m 0); [lia|]. rewrite sqrt_div_alt.
  - now roots.
  - apply INR_pos. assert (1 <= n - m)%nat by lia. assert (1 <= n + m)%nat by lia. assert (1 <= 2 * n - 3)%nat by lia. nia.
Qed.
Lemma dnm_eq n m : (1 <= m < n)%nat ->
  dnm n m = sqrt (INR (n - m)) * sqrt (INR (n + m)) * sqrt (INR (2 * n + 1)) / sqrt (INR (2 * n - 1)).
Proof.
  intro H. unfold dnm. rewrite sqrt_div_alt.
  - now roots.
  - apply INR_pos. lia.
Qed.

(** ** The recursions *)
Lemma w_diag m t : (1 <= m)%nat -> cm m * normalised (m - 1) (m - 1) t = w m m t.
Proof.
  intro H. rewrite cm_eq by exact H. destruct m as [|[|j]]; [lia| |].
  - cbn [Nat.sub]. rewrite normalised_0. unfold w. rewrite h_11. unfold h. rewrite nf_0, L_0_0.
    change (INR (2 * 0 + 1)) with 1. change (INR (2 * 1)) with (1 + 1). replace (1 + 1) with 2 by ring. rewrite sqrt_1.
    cbn [Nat.sub pow]. pose proof sqrt2_sq. pose proof sqrt2_pos.
    replace (sqrt (INR (2 * 1 + 1)) / sqrt 2 * (1 / sqrt 2 * (1 * 1)))
      with (sqrt (INR (2 * 1 + 1)) / (sqrt 2 * sqrt 2)) by (field; lra).
    rewrite sqrt2_sq. field.
  - replace (S (S j) - 1)%nat with (S j) by lia. rewrite normalised_m by lia. unfold w.
    replace (S (S j) - 1)%nat with (S j) by lia. pose proof (h_diag (S j) (cos t) ltac:(lia)) as D.
    pose proof (sqrt_INR_pos (2 * S j + 2) ltac:(lia)) as P.
    replace (2 * S (S j))%nat with (2 * S j + 2)%nat by lia.
    assert (E : h (S (S j)) (S (S j)) (cos t) = sqrt (INR (2 * S j + 1)) * h (S j) (S j) (cos t) / sqrt (INR (2 * S j + 2))).
    { rewrite <- D. field. lra. }
    rewrite E. field. lra.
Qed.

Lemma w_subdiag m t : (1 <= m)%nat -> anm (m + 1) m * cos t * w m m t = w (m + 1) m t.
Proof.
  intro H. rewrite anm_eq by lia. unfold w. replace (m + 1)%nat with (S m) by lia. rewrite h_subdiag by exact H.
  replace (S m - m)%nat with 1%nat by lia. replace (2 * S m - 1)%nat with (2 * m + 1)%nat by lia.
  replace (S m + m)%nat with (2 * m + 1)%nat by lia. change (INR 1) with 1. rewrite sqrt_1.
  pose proof (sqrt_INR_pos (2 * m + 1) ltac:(lia)). field. lra.
Qed.
Lemma bnm_subdiag m : (1 <= m)%nat -> bnm (m + 1) m = 0.
Proof.
  intro H. rewrite bnm_eq by lia. replace (m + 1 - m - 1)%nat with 0%nat by lia. change (INR 0) with 0.
  rewrite sqrt_0. unfold Rdiv. ring.
Qed.

Lemma w_rec n m t : (1 <= m)%nat -> (m + 2 <= n)%nat ->
  anm n m * cos t * w (n - 1) m t - bnm n m * w (n - 2) m t = w n m t.
Proof.
  intros H1 H2. rewrite anm_eq, bnm_eq by lia. unfold w.
  destruct n as [|[|k]]; [lia|lia|]. replace (S (S k) - 1)%nat with (S k) by lia. replace (S (S k) - 2)%nat with k by lia.
  rewrite (h_rec k m) by lia. replace (2 * S (S k) - 3)%nat with (2 * k + 1)%nat by lia.
  replace (2 * S k + 1)%nat with (2 * S (S k) - 1)%nat by lia.
  pose proof (sqrt_INR_pos (2 * k + 1) ltac:(lia)). pose proof (sqrt_INR_pos (S (S k) - m) ltac:(lia)).
  pose proof (sqrt_INR_pos (S (S k) + m) ltac:(lia)).
  pose proof (sqrt_INR_sq (2 * S (S k) - 1)) as Q. set (q := sqrt (INR (2 * S (S k) - 1))) in *. rewrite <- Q. field. lra.
Qed.

(** ** The derivatives *)
Lemma reflect_is_derive (f : R -> R) t l : is_derive f (PI / 2 - t) l -> is_derive (fun t => f (PI / 2 - t)) t (- l).
Proof.
  intro D. replace (- l) with (-1 * l) by ring.
  apply (is_derive_comp f (fun t => PI / 2 - t)); [exact D|]. auto_derive; [trivial|ring].
Qed.
Lemma schmidt_ex n m x : ex_derive (schmidt n m) x.
Proof.
  eexists. apply (Rderive_ext (fun t => cos t ^ m * h n m (sin t))); [intro; symmetry; apply schmidt_h|].
  apply (trig_is_derive (h n m)). unfold h. apply @is_derive_scal. apply L_is_derive.
Qed.
Lemma normalised_derive n m t :
  is_derive (normalised n m) t
    (- (sqrt (INR (2 * n + 1) / (if Nat.eqb m 0 then 2 else 4)) * Derive (schmidt n m) (PI / 2 - t))).
Proof.
  replace (- (_ * _)) with (sqrt (INR (2 * n + 1) / (if Nat.eqb m 0 then 2 else 4)) * - Derive (schmidt n m) (PI / 2 - t)) by ring.
  unfold normalised. apply @is_derive_scal. apply (reflect_is_derive (schmidt n m)). apply Derive_correct, schmidt_ex.
Qed.

Lemma dnormalised_m n m t : (1 <= m < n)%nat ->
  is_derive (normalised n m) t (INR n * cos t * w n m t - dnm n m * w (n - 1) m t).
Proof.
  intro H. pose proof (normalised_derive n m t) as D. destruct n as [|n]; [lia|].
  rewrite dschmidt_m in D by lia. destruct m as [|m]; [lia|]. cbn [Nat.eqb] in D.
  rewrite sin_shift, cos_shift, sqrt_div_alt, sqrt4 in D by lra.
  rewrite dnm_eq by lia. unfold w. replace (S n - 1)%nat with n by lia. replace (2 * S n - 1)%nat with (2 * n + 1)%nat by lia.
  pose proof (sqrt_INR_pos (2 * n + 1) ltac:(lia)).
  match type of D with is_derive _ _ ?a => match goal with |- is_derive _ _ ?b => replace b with a; [exact D|] end end.
  field. lra.
Qed.
Lemma dnormalised_diag m t : (1 <= m)%nat -> is_derive (normalised m m) t (cos t * (INR m * w m m t)).
Proof.
  intro H. pose proof (normalised_derive m m t) as D. rewrite dschmidt_diag in D by lia. destruct m as [|m]; [lia|].
  cbn [Nat.eqb] in D. rewrite sin_shift, cos_shift, sqrt_div_alt, sqrt4 in D by lra. unfold w.
  match type of D with is_derive _ _ ?a => match goal with |- is_derive _ _ ?b => replace b with a; [exact D|] end end.
  field.
Qed.

Lemma dnormalised_0 n t : (1 <= n)%nat -> is_derive (normalised n 0) t (- en n * normalised n 1 t).
Proof.
  intro H. pose proof (normalised_derive n 0 t) as D.
  assert (S1 : is_derive (schmidt n 0) (PI / 2 - t) (cos (PI / 2 - t) * (nf n 0 * legendre_deriv n 1 (sin (PI / 2 - t))))).
  { apply (Rderive_ext (fun t => cos t ^ 0 * h n 0 (sin t))); [intro; symmetry; apply schmidt_h|].
    assert (L1 : is_derive (h n 0) (sin (PI / 2 - t)) (nf n 0 * legendre_deriv n 1 (sin (PI / 2 - t)))).
    { unfold h. apply @is_derive_scal. apply L_is_derive. }
    pose proof (trig_is_derive (h n 0) 0 (PI / 2 - t) _ L1) as Q. change (INR 0) with 0 in Q. cbn [pow pred] in Q.
    match type of Q with is_derive _ _ ?a => match goal with |- is_derive _ _ ?b => replace b with a; [exact Q|] end end.
    ring. }
  apply is_derive_unique in S1. rewrite S1 in D. cbn [Nat.eqb] in D. rewrite sin_shift, cos_shift, sqrt_div_alt in D by lra.
  match type of D with is_derive _ _ ?a => match goal with |- is_derive _ _ ?b => replace b with a; [exact D|] end end.
  rewrite normalised_m by lia. unfold en, h. roots. pose proof (nf_ratio n 0 H) as Q. rewrite Nat.sub_0_r in Q. cbn [Nat.eqb] in Q.
  replace (nf n 0) with (nf n 1 * sqrt (INR n) * sqrt (INR (n + 1)) / sqrt 2).
  - pose proof sqrt2_pos. pose proof sqrt2_sq as E. cbn [pow].
    replace (sqrt (INR (2 * n + 1)) / 2) with (sqrt (INR (2 * n + 1)) / (sqrt 2 * sqrt 2)) by now rewrite E.
    field. lra.
  - pose proof sqrt2_pos. rewrite Q. field. lra.
Qed.
Lemma dnormalised_00 t : is_derive (normalised 0 0) t 0.
Proof.
  apply (Rderive_ext (fun _ => normalised 0 0 0)).
  - intro x. rewrite !normalised_0. unfold h. rewrite !L_0_0. reflexivity.
  - apply @is_derive_const.
Qed.

Lemma anm_0 n : (1 <= n)%nat -> anm n 0 = sqrt (INR (2 * n - 1)) * sqrt (INR (2 * n + 1)) / INR n.
Proof. intro H. unfold anm. cbn [Nat.eqb]. roots. reflexivity. Qed.
Lemma bnm_0 n : (2 <= n)%nat -> bnm n 0 = sqrt (INR (2 * n + 1)) * INR (n - 1) / sqrt (INR (2 * n - 3)) / INR n.
Proof.
  intro H. unfold bnm. cbn [Nat.eqb]. rewrite sqrt_div_alt by (apply INR_pos; lia). roots.
  rewrite Rmult_assoc, sqrt_INR_sq. reflexivity.
Qed.
Lemma normalised_10 t : anm 1 0 * cos t * normalised 0 0 t = normalised 1 0 t.
Proof.
  rewrite anm_0, !normalised_0 by lia. unfold h. rewrite !nf_0, L_subdiag, L_diag_step, L_0_0.
  change (INR (2 * 1 - 1)) with 1. change (INR (2 * 0 + 1)) with 1. change (INR 1) with 1. rewrite sqrt_1.
  pose proof sqrt2_pos. field. lra.
Qed.
Lemma normalised_n0 n t : (2 <= n)%nat ->
  anm n 0 * cos t * normalised (n - 1) 0 t - bnm n 0 * normalised (n - 2) 0 t = normalised n 0 t.
Proof.
  intro H. rewrite anm_0, bnm_0 by lia. destruct n as [|[|k]]; [lia|lia|].
  pose proof (schmidt_bonnet 1 (Nat.le_refl 1) k (PI / 2 - t)) as B. rewrite !schmidt_h in B. cbn [pow] in B. rewrite sin_shift in B.
  rewrite !normalised_0. rewrite !Rmult_1_l in B. rewrite B.
  replace (S (S k) - 1)%nat with (S k) by lia. replace (S (S k) - 2)%nat with k by lia.
  replace (2 * S k + 1)%nat with (2 * S (S k) - 1)%nat by lia. replace (2 * S (S k) - 3)%nat with (2 * k + 1)%nat by lia.
  pose proof (sqrt_INR_sq (2 * S (S k) - 1)) as Q. set (q := sqrt (INR (2 * S (S k) - 1))) in *. rewrite <- Q. pose proof sqrt2_pos.
  pose proof (sqrt_INR_pos (2 * k + 1) ltac:(lia)). pose proof (INR_pos (S (S k)) ltac:(lia)).
  field. lra.
Qed.

(** ** The loops *)
Section Basis.
Variables (nmax mmax : nat) (t : R).
Hypothesis Hmax : (1 <= mmax <= nmax)%nat.

Definition cell (st : arr2 * arr2 * arr2) (n m : nat) : Prop :=
  let '(P, V, W) := st in
  P n m = normalised n m t /\ is_derive (normalised n m) t (V n m) /\ W n m = INR m * w n m t.

Definition inner (m n : nat) (st0 st : arr2 * arr2 * arr2) : Prop :=
  let '(P0, V0, W0) := st0 in
  let '(P, V, W) := st in
  (forall i j, j <> m -> P i j = P0 i j /\ V i j = V0 i j /\ W i j = W0 i j) /\
  (forall i, (m <= i < n)%nat -> P i m = normalised i m t) /\
  (forall i, (m < i < n)%nat -> is_derive (normalised i m) t (V i m)) /\
  (forall i, (m <= i)%nat -> (n <= i + 2)%nat -> (i < n)%nat -> W i m = w i m t) /\
  (forall i, (m <= i)%nat -> (i + 2 < n)%nat -> W i m = INR m * w i m t).

Lemma inner_step m n st0 st : (1 <= m < n)%nat ->
  inner m n st0 st -> inner m (S n) st0 (alf_degree (cos t) (sin t) m n st).
Proof.
  destruct st0 as [[P0 V0] W0], st as [[P V] W]. intros H (F & HP & HV & HW & HS).
  unfold inner, alf_degree. cbv beta zeta.
  set (W1 := upd2 W n m _).
  assert (E1 : W1 n m = w n m t).
  { unfold W1. rewrite upd2_same. destruct (Nat.eq_dec n (m + 1)) as [->|].
    - rewrite bnm_subdiag by lia. replace (m + 1 - 1)%nat with m by lia. rewrite HW by lia.
      rewrite <- w_subdiag by lia. ring.
    - rewrite !HW by lia. apply w_rec; lia. }
  assert (E2 : forall i j, i <> n \/ j <> m -> W1 i j = W i j) by (intros; now apply upd2_other).
  split; [|split; [|split; [|split]]].
  - intros i j Hj. specialize (F i j Hj). rewrite !upd2_other by tauto. rewrite E2 by tauto. exact F.
  - intros i Hi. destruct (Nat.eq_dec i n) as [->|].
    + rewrite upd2_same, E1. apply w_normalised. lia.
    + rewrite upd2_other by tauto. apply HP. lia.
  - intros i Hi. destruct (Nat.eq_dec i n) as [->|].
    + rewrite upd2_same, E1, E2, HW by lia. unfold narr. apply dnormalised_m. lia.
    + rewrite upd2_other by tauto. apply HV. lia.
  - intros i H1 H2 H3. rewrite upd2_other by lia. destruct (Nat.eq_dec i n) as [->|]; [exact E1|].
    rewrite E2 by tauto. apply HW; lia.
  - intros i H1 H2. destruct (Nat.eq_dec i (n - 2)) as [->|].
    + rewrite upd2_same, E2, HW by lia. reflexivity.
    + rewrite upd2_other by tauto. rewrite E2 by lia. apply HS; lia.
Qed.

Definition outer (m : nat) (st : arr2 * arr2 * arr2) : Prop :=
  (forall j i, (1 <= j < m)%nat -> (j <= i <= nmax)%nat -> cell st i j) /\
  fst (fst st) 0%nat 0%nat = normalised 0 0 t /\
  fst (fst st) (m - 1)%nat (m - 1)%nat = normalised (m - 1) (m - 1) t.

Lemma outer_step m st : (1 <= m <= mmax)%nat -> outer m st -> outer (S m) (alf_order nmax (cos t) (sin t) m st).
Proof.
  intros H. destruct st as [[P V] W]. intros (HC & H0 & HD). cbn [fst] in H0, HD. unfold alf_order.
  set (W1 := upd2 W m m _). set (P1 := upd2 P m m _).
  assert (EW : W1 m m = w m m t) by (unfold W1; rewrite upd2_same, HD; apply w_diag; lia).
  assert (EP : P1 m m = normalised m m t).
  { unfold P1. rewrite upd2_same, EW. apply w_normalised. lia. }
  pose proof (loop_inv (fun n st => inner m n (P1, V, W1) st) (m + 1) nmax (alf_degree (cos t) (sin t) m) (P1, V, W1)) as I.
  match type of I with _ -> ?a -> ?b -> _ => assert (A : a); [|assert (B : b); [|specialize (I ltac:(lia) A B)]] end.
  { split; [intros; auto|split; [|split; [|split]]]; intros i.
    - intro Hi. replace i with m by lia. exact EP.
    - intro Hi. lia.
    - intros H1 H2 H3. replace i with m by lia. exact EW.
    - intros H1 H2. lia. }
  { intros i s Hi. apply inner_step. lia. }
  clear A B. destruct (loop (m + 1) nmax _ _) as [[P2 V2] W2]. destruct I as (F & HP & HV & HW & HS).
  set (W3 := upd2 W2 (nmax - 1) m _). set (W4 := upd2 W3 nmax m _).
  assert (E4 : forall i, (m <= i <= nmax)%nat -> W4 i m = INR m * w i m t).
  { intros i Hi. unfold W4, W3. destruct (Nat.eq_dec i nmax) as [->|].
    - rewrite upd2_same, upd2_other by lia. now rewrite HW by lia.
    - rewrite upd2_other by tauto. destruct (Nat.eq_dec i (nmax - 1)) as [->|].
      + rewrite upd2_same. now rewrite HW by lia.
      + rewrite upd2_other by tauto. apply HS; lia. }
  assert (F4 : forall i j, j <> m -> W4 i j = W1 i j).
  { intros i j Hj. unfold W4, W3. rewrite !upd2_other by tauto. apply F, Hj. }
  split; [|split; cbn [fst]].
  - intros j i Hj Hi. unfold cell. destruct (Nat.eq_dec j m) as [->|Nj].
    + split; [apply HP; lia|]. split; [|apply E4; exact Hi].
      destruct (Nat.eq_dec i m) as [->|].
      * rewrite upd2_same, E4 by lia. apply dnormalised_diag. lia.
      * rewrite upd2_other by tauto. apply HV. lia.
    + destruct (F i j Nj) as (-> & F2 & _). rewrite upd2_other by tauto. rewrite F2, F4 by exact Nj.
      unfold P1, W1. rewrite !upd2_other by tauto. apply (HC j i); lia.
  - destruct (F 0%nat 0%nat ltac:(lia)) as (-> & _). unfold P1. rewrite upd2_other by lia. exact H0.
  - replace (S m - 1)%nat with m by lia. apply HP. lia.
Qed.

Lemma alfbasis_state P V W : let '(P', V', W') := alfbasis nmax mmax t P V W in
  (forall j i, (1 <= j <= mmax)%nat -> (j <= i <= nmax)%nat -> cell (P', V', W') i j) /\
  (forall i, (i <= nmax)%nat -> P' i 0%nat = normalised i 0 t) /\
  (forall i, (1 <= i <= nmax)%nat -> is_derive (normalised i 0) t (V' i 0%nat)) /\
  V' 0%nat 0%nat = V 0%nat 0%nat.
Proof.
  unfold alfbasis. set (P1 := upd2 P 0 0 p00).
  pose proof (loop_inv (fun m st => outer m st /\ snd (fst st) 0%nat 0%nat = V 0%nat 0%nat) 1 mmax (alf_order nmax (cos t) (sin t)) (P1, V, W)) as I.
  match type of I with _ -> ?a -> ?b -> _ => assert (A : a); [|assert (B : b); [|specialize (I ltac:(lia) A B)]] end.
  { assert (E : P1 0%nat 0%nat = normalised 0 0 t).
    { unfold P1. rewrite upd2_same, normalised_0. unfold h, p00. rewrite nf_0, L_0_0. change (INR (2 * 0 + 1)) with 1.
      rewrite sqrt_div_alt by lra. ring. }
    split; [split; [intros; lia|split; exact E]|reflexivity]. }
  { intros i s Hi [O E]. split; [apply outer_step; [lia|exact O]|]. rewrite <- E. clear - Hi.
    destruct s as [[p v] q]. unfold alf_order.
    match goal with |- context [loop ?a ?b ?c ?d] =>
      pose proof (loop_inv (fun _ st => snd (fst st) 0%nat 0%nat = v 0%nat 0%nat) a b c d) as J end.
    destruct (Nat.le_gt_cases (i + 1) (S nmax)) as [L|L].
    - specialize (J L eq_refl). match type of J with ?b -> _ => assert (B : b); [|specialize (J B)] end.
      { intros k [[p1 v1] q1] Hk E. cbn [alf_degree fst snd] in *. rewrite upd2_other by lia. exact E. }
      destruct (loop _ _ _ _) as [[p1 v1] q1]. cbn [fst snd] in *. rewrite upd2_other by lia. exact J.
    - rewrite loop_empty by lia. cbn [fst snd]. rewrite upd2_other by lia. reflexivity. }
  clear A B. destruct (loop 1 mmax _ _) as [[P2 V2] W2]. destruct I as ((HC & H0 & _) & HV0). cbn [fst snd] in H0, HV0.
  set (P3 := upd2 P2 1 0 _). set (V3 := upd2 V2 1 0 _).
  pose proof (loop_inv (fun n '(p, v) =>
     (forall i j, (1 <= j)%nat -> p i j = P2 i j /\ v i j = V2 i j) /\
     (forall i, (i < n)%nat -> p i 0%nat = normalised i 0 t) /\
     (forall i, (1 <= i < n)%nat -> is_derive (normalised i 0) t (v i 0%nat)) /\ v 0%nat 0%nat = V 0%nat 0%nat)
     2 nmax (fun n '(P, V) =>
      let P := upd2 P n 0 (anm n 0 * cos t * P (n - 1)%nat 0%nat - bnm n 0 * P (n - 2)%nat 0%nat) in
      let V := upd2 V n 0 (- en n * P n 1%nat) in
      (P, V)) (P3, V3) ltac:(lia)) as I.
  match type of I with ?a -> ?b -> _ => assert (A : a); [|assert (B : b); [|specialize (I A B)]] end.
  { split; [|split; [|split]].
    - intros i j Hj. unfold P3, V3. now rewrite !upd2_other by lia.
    - intros i Hi. unfold P3. destruct (Nat.eq_dec i 1) as [->|].
      + rewrite upd2_same, H0. apply normalised_10.
      + rewrite upd2_other by tauto. replace i with 0%nat by lia. exact H0.
    - intros i Hi. unfold V3. replace i with 1%nat by lia. rewrite upd2_same.
      unfold P3. rewrite upd2_other by lia. destruct (HC 1%nat 1%nat ltac:(lia) ltac:(lia)) as (-> & _).
      apply dnormalised_0. lia.
    - unfold V3. rewrite upd2_other by lia. exact HV0. }
  { intros n [p v] Hn (F & HP & HV & H00). cbv zeta. split; [|split; [|split]].
    - intros i j Hj. rewrite !upd2_other by lia. now apply F.
    - intros i Hi. destruct (Nat.eq_dec i n) as [->|].
      + rewrite upd2_same, !HP by lia. apply normalised_n0. lia.
      + rewrite upd2_other by tauto. apply HP. lia.
    - intros i Hi. destruct (Nat.eq_dec i n) as [->|].
      + rewrite upd2_same, upd2_other by lia. destruct (F n 1%nat ltac:(lia)) as (-> & _).
        destruct (HC 1%nat n ltac:(lia) ltac:(lia)) as (-> & _). apply dnormalised_0. lia.
      + rewrite upd2_other by tauto. apply HV. lia.
    - rewrite upd2_other by lia. exact H00. }
  clear A B. cbv zeta in I. destruct (loop 2 nmax _ _) as [P4 V4]. destruct I as (F & HP & HV & H00).
  split; [|split; [|split]].
  - intros j i Hj Hi. destruct (F i j ltac:(lia)) as (F1 & F2). unfold cell. rewrite F1, F2.
    apply (HC j i); lia.
  - intros i Hi. apply HP. lia.
  - intros i Hi. apply HV. lia.
  - exact H00.
Qed.

End Basis.
