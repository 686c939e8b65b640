(** Derivatives of the spherical harmonic expansion. *)

From Coq Require Import Bool List Reals Arith Lra Lia.
From Coquelicot Require Import Coquelicot.
From Verif Require Import LegendreSpec LegendrePoly LegendreGauss LegendreLow LegendreHigh ShEvalSpec.
Open Scope R_scope.

(** ** Sums *)
Lemma sum_scal c f n : sum_f_R0 (fun i => c * f i) n = c * sum_f_R0 f n.
Proof. induction n as [|n IH]; cbn [sum_f_R0]; [reflexivity|]. rewrite IH. ring. Qed.
Lemma sum_add f g n : sum_f_R0 (fun i => f i + g i) n = sum_f_R0 f n + sum_f_R0 g n.
Proof. induction n as [|n IH]; cbn [sum_f_R0]; [reflexivity|]. rewrite IH. ring. Qed.
Lemma sum_opp f n : sum_f_R0 (fun i => - f i) n = - sum_f_R0 f n.
Proof. induction n as [|n IH]; cbn [sum_f_R0]; [reflexivity|]. rewrite IH. ring. Qed.
Lemma sum_ext f g n : (forall i, (i <= n)%nat -> f i = g i) -> sum_f_R0 f n = sum_f_R0 g n.
Proof. intro H. apply sum_eq. intros; now apply H. Qed.

Lemma is_derive_sum (f : nat -> R -> R) (df : nat -> R) (x : R) n :
  (forall i, (i <= n)%nat -> is_derive (f i) x (df i)) ->
  is_derive (fun t => sum_f_R0 (fun i => f i t) n) x (sum_f_R0 df n).
Proof.
  intro H. induction n as [|n IH]; cbn [sum_f_R0].
  - apply H. lia.
  - apply (is_derive_plus (fun t => sum_f_R0 (fun i => f i t) n) (f (S n)) x).
    + apply IH. intros; apply H; lia.
    + apply H. lia.
Qed.

Lemma Rderive_mult (f g : R -> R) (x a b : R) : is_derive f x a -> is_derive g x b ->
  is_derive (fun t => f t * g t) x (a * g x + f x * b).
Proof. intros A B. apply (is_derive_mult f g x a b A B). intros; apply Rmult_comm. Qed.
Lemma Rderive_scal (c : R) (f : R -> R) (x a : R) : is_derive f x a -> is_derive (fun t => c * f t) x (c * a).
Proof. intro A. apply @is_derive_scal. exact A. Qed.
Lemma Rderive_comp (f g : R -> R) (x a b : R) : is_derive f (g x) a -> is_derive g x b ->
  is_derive (fun t => f (g t)) x (b * a).
Proof. intros A B. apply (is_derive_comp f g x a b A B). Qed.
Lemma Rderive_eq (f : R -> R) (x a b : R) : a = b -> is_derive f x a -> is_derive f x b.
Proof. now intros ->. Qed.

(** ** Factors *)
Definition radial_rate (internal : bool) (n : nat) : R := if internal then - (INR n + 1) else INR n.

Lemma radial_derive internal ref n r : r <> 0 -> ref <> 0 ->
  is_derive (radial internal ref n) r (radial_rate internal n * radial internal ref n r / r).
Proof.
  intros Hr H0. unfold radial, radial_rate. destruct internal.
  - replace (n + 1)%nat with (S n) by lia.
    assert (D : is_derive (fun t => ref / t) r (- ref / r ^ 2)).
    { auto_derive; [exact Hr|]. field. exact Hr. }
    pose proof (is_derive_pow (fun t => ref / t) (S n) r _ D) as P. cbn [pred] in P. rewrite S_INR in P.
    eapply Rderive_eq; [|exact P]. cbn [pow]. field. auto.
  - assert (D : is_derive (fun t => t / ref) r (/ ref)).
    { auto_derive; [trivial|]. field. exact H0. }
    pose proof (is_derive_pow (fun t => t / ref) n r _ D) as P.
    eapply Rderive_eq; [|exact P]. destruct n as [|n].
    + cbn [INR pred pow]. field. auto.
    + cbn [pred pow]. field. auto.
Qed.

Definition harmonic (gh : R * R) (m : nat) (ph : R) : R :=
  fst gh * cos (INR m * ph) + snd gh * sin (INR m * ph).
Definition harmonic' (gh : R * R) (m : nat) (ph : R) : R :=
  - INR m * (fst gh * sin (INR m * ph) - snd gh * cos (INR m * ph)).

Lemma harmonic_derive gh m ph : is_derive (harmonic gh m) ph (harmonic' gh m ph).
Proof. unfold harmonic, harmonic'. auto_derive; [trivial|]. ring. Qed.
Lemma harmonic'_derive gh m ph : is_derive (harmonic' gh m) ph (- INR m ^ 2 * harmonic gh m ph).
Proof. unfold harmonic, harmonic'. auto_derive; [trivial|]. ring. Qed.

Definition schmidt' (n m : nat) (th : R) : R := Derive (schmidt n m) th.
Lemma schmidt_D n m th : is_derive (schmidt n m) th (schmidt' n m th).
Proof. apply Derive_correct. eexists. apply schmidt_derive. Qed.

(** ** The expansion *)
Section Expansion.
Variables (internal : bool) (ref : R) (gh : nat -> nat -> R * R) (degree : nat).
Hypothesis Href : ref <> 0.

Definition pot_rd (r th ph : R) : R :=
  ref * sum_f_R0 (fun n => radial_rate internal n * radial internal ref n r / r *
    sum_f_R0 (fun m => harmonic (gh n m) m ph * schmidt n m th) n) degree.
Definition pot_el (r th ph : R) : R :=
  ref * sum_f_R0 (fun n => radial internal ref n r *
    sum_f_R0 (fun m => harmonic (gh n m) m ph * schmidt' n m th) n) degree.
Definition pot_az (r th ph : R) : R :=
  ref * sum_f_R0 (fun n => radial internal ref n r *
    sum_f_R0 (fun m => harmonic' (gh n m) m ph * schmidt n m th) n) degree.

(** along any curve *)
Lemma potential_curve (r th ph : R -> R) t r' th' ph' :
  is_derive r t r' -> is_derive th t th' -> is_derive ph t ph' -> r t <> 0 ->
  is_derive (fun u => potential internal ref gh degree (r u) (th u) (ph u)) t
    (pot_rd (r t) (th t) (ph t) * r' + pot_el (r t) (th t) (ph t) * th' + pot_az (r t) (th t) (ph t) * ph').
Proof.
  intros Dr Dt Dp Hr. unfold potential.
  eapply Rderive_eq; [|apply Rderive_scal, is_derive_sum; intros n Hn; apply Rderive_mult;
    [apply (Rderive_comp (radial internal ref n) r); [apply radial_derive; auto|exact Dr]
    |apply is_derive_sum; intros m Hm; apply Rderive_mult;
      [apply (Rderive_comp (harmonic (gh n m) m) ph); [apply harmonic_derive|exact Dp]
      |apply (Rderive_comp (schmidt n m) th); [apply schmidt_D|exact Dt]]]].
  cbv beta. unfold pot_rd, pot_el, pot_az.
  assert (E : forall n, sum_f_R0 (fun m => ph' * harmonic' (gh n m) m (ph t) * schmidt n m (th t) +
      (fst (gh n m) * cos (INR m * ph t) + snd (gh n m) * sin (INR m * ph t)) * (th' * schmidt' n m (th t))) n
    = ph' * sum_f_R0 (fun m => harmonic' (gh n m) m (ph t) * schmidt n m (th t)) n
      + th' * sum_f_R0 (fun m => harmonic (gh n m) m (ph t) * schmidt' n m (th t)) n).
  { intro n. rewrite <- !sum_scal, <- sum_add. apply sum_ext. intros m Hm. unfold harmonic. ring. }
  rewrite !Rmult_assoc, <- !Rmult_plus_distr_l. f_equal.
  rewrite !(Rmult_comm (sum_f_R0 _ degree)), <- !sum_scal, <- !sum_add. apply sum_ext. intros n Hn.
  rewrite E. fold (harmonic). unfold harmonic. ring.
Qed.

Lemma potential_rd r th ph : r <> 0 ->
  is_derive (fun u => potential internal ref gh degree u th ph) r (pot_rd r th ph).
Proof.
  intro Hr. eapply Rderive_eq; [|apply (potential_curve (fun u => u) (fun _ => th) (fun _ => ph) r 1 0 0)]; auto.
  - ring.
  - apply @is_derive_id.
  - apply @is_derive_const.
  - apply @is_derive_const.
Qed.
Lemma potential_el r th ph : r <> 0 ->
  is_derive (fun u => potential internal ref gh degree r u ph) th (pot_el r th ph).
Proof.
  intro Hr. eapply Rderive_eq; [|apply (potential_curve (fun _ => r) (fun u => u) (fun _ => ph) th 0 1 0)]; auto.
  - ring.
  - apply @is_derive_const.
  - apply @is_derive_id.
  - apply @is_derive_const.
Qed.
Lemma potential_az r th ph : r <> 0 ->
  is_derive (fun u => potential internal ref gh degree r th u) ph (pot_az r th ph).
Proof.
  intro Hr. eapply Rderive_eq; [|apply (potential_curve (fun _ => r) (fun _ => th) (fun u => u) ph 0 0 1)]; auto.
  - ring.
  - apply @is_derive_const.
  - apply @is_derive_const.
  - apply @is_derive_id.
Qed.
End Expansion.
