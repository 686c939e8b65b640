(** Derivatives of the Legendre polynomials: recurrence relations and the differential
    equation, from Rodrigues' formula. *)

From Coq Require Import Reals Factorial List Lra Lia Psatz.
From Coquelicot Require Import Coquelicot.
From Verif Require Import LegendreSpec.
Import ListNotations.
Open Scope R_scope.

(** ** Polynomial functions *)
Fixpoint pev (p : list R) (x : R) : R :=
  match p with [] => 0 | a :: q => a + x * pev q x end.
Fixpoint padd (p q : list R) : list R :=
  match p, q with
  | [], _ => q
  | _, [] => p
  | a :: p', b :: q' => (a + b) :: padd p' q'
  end.
Fixpoint pder (p : list R) : list R :=
  match p with [] => [] | _ :: q => padd q (0 :: pder q) end.
Definition pscale (c : R) (p : list R) : list R := map (Rmult c) p.
Fixpoint pmul (p q : list R) : list R :=
  match p with [] => [] | a :: p' => padd (pscale a q) (0 :: pmul p' q) end.

Lemma pev_add p : forall q x, pev (padd p q) x = pev p x + pev q x.
Proof.
  induction p as [|a p IH]; intros [|b q] x; cbn [padd pev]; try lra. rewrite IH. lra.
Qed.
Lemma pev_scale c p x : pev (pscale c p) x = c * pev p x.
Proof. induction p as [|a p IH]; cbn [pscale map pev]; [lra|]. fold (pscale c p). rewrite IH. lra. Qed.
Lemma pev_mul p : forall q x, pev (pmul p q) x = pev p x * pev q x.
Proof.
  induction p as [|a p IH]; intros q x; cbn [pmul]; [cbn [pev]; lra|].
  rewrite pev_add, pev_scale. cbn [pev]. rewrite IH. lra.
Qed.

Lemma is_derive_pev p x : is_derive (pev p) x (pev (pder p) x).
Proof.
  induction p as [|a p IH].
  - apply (is_derive_ext (fun _ => 0)); [reflexivity|]. apply @is_derive_const.
  - apply (is_derive_ext (fun t => a + t * pev p t)); [reflexivity|].
    replace (pev (pder (a :: p)) x) with (0 + (1 * pev p x + x * pev (pder p) x))
      by (cbn [pder]; rewrite pev_add; cbn [pev]; lra).
    apply @is_derive_plus; [apply @is_derive_const|].
    apply (is_derive_mult (fun t : R => t) (pev p) x 1 (pev (pder p) x)); [apply @is_derive_id|exact IH|].
    intros; apply Rmult_comm.
Qed.

Definition poly (f : R -> R) : Prop := exists p, forall x, f x = pev p x.

Lemma poly_ext f g : (forall x, f x = g x) -> poly f -> poly g.
Proof. intros E [p H]. exists p. intro x. rewrite <- E. apply H. Qed.
Lemma poly_const c : poly (fun _ => c).
Proof. exists [c]. intro x. cbn. lra. Qed.
Lemma poly_id : poly (fun x => x).
Proof. exists [0; 1]. intro x. cbn. lra. Qed.
Lemma poly_add f g : poly f -> poly g -> poly (fun x => f x + g x).
Proof. intros [p P] [q Q]. exists (padd p q). intro x. rewrite pev_add, P, Q. reflexivity. Qed.
Lemma poly_mul f g : poly f -> poly g -> poly (fun x => f x * g x).
Proof. intros [p P] [q Q]. exists (pmul p q). intro x. rewrite pev_mul, P, Q. reflexivity. Qed.
Lemma poly_pow f n : poly f -> poly (fun x => f x ^ n).
Proof.
  intro P. induction n as [|n IH]; [apply (poly_const 1)|].
  apply (poly_ext (fun x => f x * f x ^ n)); [reflexivity|]. apply poly_mul; auto.
Qed.

Lemma poly_is_derive f x : poly f -> is_derive f x (Derive f x).
Proof.
  intros [p P]. apply Derive_correct. exists (pev (pder p) x).
  apply (is_derive_ext (pev p)); [intro; symmetry; apply P|]. apply is_derive_pev.
Qed.
Lemma poly_Derive f : poly f -> poly (Derive f).
Proof.
  intros [p P]. exists (pder p). intro x. apply is_derive_unique.
  apply (is_derive_ext (pev p)); [intro; symmetry; apply P|]. apply is_derive_pev.
Qed.
Lemma poly_Derive_n f k : poly f -> poly (Derive_n f k).
Proof. intro P. induction k as [|k IH]; [exact P|]. apply (poly_Derive _ IH). Qed.

Lemma poly_is_derive_n f k x : poly f -> is_derive (Derive_n f k) x (Derive_n f (S k) x).
Proof. intro P. apply (poly_is_derive (Derive_n f k)). now apply poly_Derive_n. Qed.

(** Leibniz' rule for the products with x and x^2 - 1 *)
Lemma Dn_mul_x f k x : poly f ->
  Derive_n (fun t => t * f t) (S k) x = x * Derive_n f (S k) x + INR (S k) * Derive_n f k x.
Proof.
  intro P. revert x. induction k as [|k IH]; intro x.
  - cbn [Derive_n]. change (INR 1) with 1. apply is_derive_unique.
    replace (x * Derive (fun x0 => f x0) x + 1 * f x) with (1 * f x + x * Derive f x)
      by (change (Derive (fun x0 => f x0) x) with (Derive f x); lra).
    apply (is_derive_mult (fun t : R => t) f x 1 (Derive f x)); [apply @is_derive_id|now apply poly_is_derive|].
    intros; apply Rmult_comm.
  - change (Derive_n (fun t => t * f t) (S (S k)) x) with (Derive (Derive_n (fun t => t * f t) (S k)) x).
    rewrite (Derive_ext _ _ x IH). apply is_derive_unique.
    replace (x * Derive_n f (S (S k)) x + INR (S (S k)) * Derive_n f (S k) x)
      with ((1 * Derive_n f (S k) x + x * Derive_n f (S (S k)) x) + INR (S k) * Derive_n f (S k) x)
      by (rewrite (S_INR (S k)); lra).
    apply @is_derive_plus.
    + apply (is_derive_mult (fun t : R => t) (Derive_n f (S k)) x 1 (Derive_n f (S (S k)) x));
        [apply @is_derive_id|now apply poly_is_derive_n|]. intros; apply Rmult_comm.
    + apply @is_derive_scal. now apply poly_is_derive_n.
Qed.

(** also for no derivative *)
Lemma Dn_mul_x0 f k x : poly f ->
  Derive_n (fun t => t * f t) k x = x * Derive_n f k x + INR k * Derive_n f (pred k) x.
Proof.
  intro P. destruct k as [|k]; [cbn; lra|]. now apply Dn_mul_x.
Qed.

Lemma Dn_scal f c k x : poly f -> Derive_n (fun t => c * f t) k x = c * Derive_n f k x.
Proof. intros _. apply Derive_n_scal_l. Qed.

Lemma Dn_step f k x : Derive_n f (S k) x = Derive_n (Derive f) k x.
Proof.
  change (Derive f) with (Derive_n f 1). rewrite Derive_n_comp. f_equal. lia.
Qed.

(** ** The powers of x^2 - 1 *)
Definition u (n : nat) (t : R) : R := (t ^ 2 - 1) ^ n.

Lemma poly_u n : poly (u n).
Proof.
  apply (poly_pow (fun t => t ^ 2 - 1)). apply (poly_ext (fun x => x * x + (-1))); [intro; lra|].
  apply (poly_add (fun x => x * x) (fun _ => -1)); [apply (poly_mul (fun x => x) (fun x => x)); apply poly_id|apply poly_const].
Qed.

Lemma u_derive n x : Derive (u (S n)) x = 2 * INR (S n) * (x * u n x).
Proof.
  apply is_derive_unique. unfold u.
  replace (2 * INR (S n) * (x * (x ^ 2 - 1) ^ n)) with (INR (S n) * (2 * x) * (x ^ 2 - 1) ^ pred (S n))
    by (cbn [pred]; ring).
  apply (is_derive_pow (fun t => t ^ 2 - 1) (S n) x (2 * x)). auto_derive; [trivial|]. ring.
Qed.

Lemma L_def n k x : legendre_deriv n k x = Derive_n (u n) (n + k) x / (2 ^ n * INR (fact n)).
Proof. reflexivity. Qed.

Lemma den_pos n : 0 < 2 ^ n * INR (fact n).
Proof. apply Rmult_lt_0_compat; [apply pow_lt; lra|]. apply lt_0_INR, lt_O_fact. Qed.

Lemma L_0_0 x : legendre_deriv 0 0 x = 1.
Proof. unfold legendre_deriv. cbn. field. Qed.

Lemma L_is_derive n k x : is_derive (legendre_deriv n k) x (legendre_deriv n (S k) x).
Proof.
  apply (is_derive_ext (fun t => / (2 ^ n * INR (fact n)) * Derive_n (u n) (n + k) t)).
  { intro t. rewrite L_def. unfold Rdiv. apply Rmult_comm. }
  assert (E : legendre_deriv n (S k) x = / (2 ^ n * INR (fact n)) * Derive_n (u n) (S (n + k)) x)
    by (rewrite L_def, Nat.add_succ_r; unfold Rdiv; apply Rmult_comm). rewrite E.
  apply @is_derive_scal. apply poly_is_derive_n, poly_u.
Qed.

(** derivatives above the degree *)
Lemma u_deriv_high n : forall k x, Derive_n (u n) (2 * n + k) x = if Nat.eqb k 0 then INR (fact (2 * n)) else 0.
Proof.
  induction n as [|n IH]; intros k x.
  - change (2 * 0 + k)%nat with k. destruct k as [|k]; [cbn; unfold u; cbn; lra|].
    cbn [Nat.eqb]. rewrite Dn_step. rewrite (Derive_n_ext _ (fun _ => 0)); [apply Derive_n_const0 || idtac|].
    + clear. revert x. induction k as [|k IH]; intro x; [reflexivity|]. cbn [Derive_n].
      rewrite (Derive_ext _ (fun _ => 0) x IH). apply Derive_const.
    + intro t. unfold u. apply (Derive_const 1).
  - replace (2 * S n + k)%nat with (S (S (2 * n + k))) by lia. rewrite Dn_step.
    rewrite (Derive_n_ext _ (fun t => 2 * INR (S n) * (t * u n t))) by (intro; apply u_derive).
    rewrite Dn_scal by (apply (poly_mul (fun t => t)); [apply poly_id|apply poly_u]).
    rewrite (Dn_mul_x _ _ _ (poly_u n)). replace (S (2 * n + k)) with (2 * n + S k)%nat at 1 by lia.
    rewrite !IH. cbn [Nat.eqb]. destruct k as [|k]; [cbn [Nat.eqb]|cbn [Nat.eqb]; ring].
    replace (2 * n + 0)%nat with (2 * n)%nat by lia.
    replace (2 * S n)%nat with (S (S (2 * n))) by lia. rewrite !fact_simpl, !mult_INR.
    replace (INR (S (S (2 * n)))) with (2 * INR (S n)); [ring|].
    rewrite !S_INR, mult_INR. change (INR 2) with (1 + 1). ring.
Qed.

Lemma L_diag n x : legendre_deriv n n x = INR (fact (2 * n)) / (2 ^ n * INR (fact n)).
Proof.
  rewrite L_def. replace (n + n)%nat with (2 * n + 0)%nat by lia. rewrite u_deriv_high. reflexivity.
Qed.
Lemma L_above n k x : (n < k)%nat -> legendre_deriv n k x = 0.
Proof.
  intro H. rewrite L_def. replace (n + k)%nat with (2 * n + (k - n))%nat by lia. rewrite u_deriv_high.
  destruct (Nat.eqb_spec (k - n) 0); [lia|]. unfold Rdiv. ring.
Qed.

(** ** Recurrence relations *)
Lemma L_A n k x :
  legendre_deriv (S n) (S k) x = x * legendre_deriv n (S k) x + (INR n + 1 + INR k) * legendre_deriv n k x.
Proof.
  rewrite !L_def. replace (S n + S k)%nat with (S (S (n + k))) by lia. rewrite Dn_step.
  rewrite (Derive_n_ext _ (fun t => 2 * INR (S n) * (t * u n t))) by (intro; apply u_derive).
  rewrite Dn_scal by (apply (poly_mul (fun t => t)); [apply poly_id|apply poly_u]).
  rewrite (Dn_mul_x _ _ _ (poly_u n)). rewrite fact_simpl, mult_INR. cbn [pow].
  replace (n + S k)%nat with (S (n + k)) by lia. rewrite (S_INR (n + k)), plus_INR.
  assert (2 ^ n <> 0) by (apply pow_nonzero; lra). pose proof (INR_fact_neq_0 n).
  assert (INR (S n) <> 0) by (apply not_0_INR; lia). field. auto.
Qed.

Lemma L_B n x :
  (INR n + 1) * legendre_deriv (S n) 0 x =
  (x ^ 2 - 1) * legendre_deriv n 1 x + (INR n + 1) * x * legendre_deriv n 0 x.
Proof.
  assert (P := poly_u n).
  assert (Pq : poly (fun t => t * u n t)) by (apply (poly_mul (fun t => t)); [apply poly_id|exact P]).
  assert (X1 : Derive_n (u (S n)) (S n) x =
    2 * INR (S n) * (x * Derive_n (u n) n x + INR n * Derive_n (u n) (pred n) x)).
  { rewrite Dn_step. rewrite (Derive_n_ext _ (fun t => 2 * INR (S n) * (t * u n t))) by (intro; apply u_derive).
    rewrite Dn_scal by exact Pq. rewrite (Dn_mul_x0 _ _ _ P). reflexivity. }
  assert (X2 : Derive_n (u (S n)) (S n) x =
    (x ^ 2 - 1) * Derive_n (u n) (S n) x + 2 * INR (S n) * x * Derive_n (u n) n x
      + INR (S n) * INR n * Derive_n (u n) (pred n) x).
  { rewrite (Derive_n_ext _ (fun t => t * (t * u n t) + (-1) * u n t)) by (intro; unfold u; cbn [pow]; ring).
    rewrite Derive_n_plus.
    2,3: apply filter_forall; intros y k _; destruct k as [|k]; [exact I|];
         eexists; apply poly_is_derive_n.
    2: apply (poly_mul (fun t => t)); [apply poly_id|exact Pq].
    2: apply (poly_mul (fun _ => -1)); [apply poly_const|exact P].
    rewrite Dn_scal by exact P. rewrite (Dn_mul_x _ _ _ Pq), (Dn_mul_x _ _ _ P), (Dn_mul_x0 _ n _ P). ring. }
  rewrite !L_def. rewrite !Nat.add_0_r. replace (n + 1)%nat with (S n) by lia.
  rewrite fact_simpl, mult_INR. cbn [pow].
  set (a := Derive_n (u n) (S n) x) in *. set (b := Derive_n (u n) n x) in *.
  set (d := Derive_n (u n) (pred n) x) in *. set (X := Derive_n (u (S n)) (S n) x) in *.
  assert (X3 : X = 2 * ((x ^ 2 - 1) * a + INR (S n) * x * b)).
  { clearbody a b d X. replace X with (2 * X - X) by ring. rewrite X2 at 1. rewrite X1. ring. }
  assert (2 ^ n <> 0) by (apply pow_nonzero; lra). pose proof (INR_fact_neq_0 n).
  assert (INR n + 1 <> 0) by (rewrite <- S_INR; apply not_0_INR; lia).
  rewrite X3. rewrite S_INR. field. auto.
Qed.

Lemma L_C n k x :
  x * legendre_deriv (S n) (S k) x - legendre_deriv n (S k) x =
  (INR n + 1 - INR k) * legendre_deriv (S n) k x.
Proof.
  revert x. induction k as [|k IH]; intro x.
  - pose proof (L_A n 0 x) as A. pose proof (L_B n x) as B. rewrite A. cbn [INR] in *. lra || nra.
  - assert (D1 : is_derive (fun t => t * legendre_deriv (S n) (S k) t - legendre_deriv n (S k) t) x
      ((1 * legendre_deriv (S n) (S k) x + x * legendre_deriv (S n) (S (S k)) x) - legendre_deriv n (S (S k)) x)).
    { apply @is_derive_minus; [|apply L_is_derive].
      apply (is_derive_mult (fun t : R => t) (legendre_deriv (S n) (S k)) x 1); [apply @is_derive_id|apply L_is_derive|].
      intros; apply Rmult_comm. }
    assert (D2 : is_derive (fun t => t * legendre_deriv (S n) (S k) t - legendre_deriv n (S k) t) x
      ((INR n + 1 - INR k) * legendre_deriv (S n) (S k) x)).
    { apply (is_derive_ext (fun t => (INR n + 1 - INR k) * legendre_deriv (S n) k t)); [intro; symmetry; apply IH|].
      apply @is_derive_scal. apply L_is_derive. }
    apply is_derive_unique in D1. apply is_derive_unique in D2. rewrite S_INR. lra || nra.
Qed.

(** three-term recurrence *)
Lemma L_three n k x :
  (INR n + 2 - INR k) * legendre_deriv (S (S n)) k x =
  (2 * INR n + 3) * x * legendre_deriv (S n) k x - (INR n + 1 + INR k) * legendre_deriv n k x.
Proof.
  destruct k as [|k].
  - pose proof (L_B (S n) x) as B1. pose proof (L_A n 0 x) as A. pose proof (L_B n x) as B0.
    rewrite S_INR in B1. cbn [INR] in *. rewrite A in B1. 
    set (l1 := legendre_deriv n 1 x) in *. set (l0 := legendre_deriv n 0 x) in *.
    set (s0 := legendre_deriv (S n) 0 x) in *. set (ss := legendre_deriv (S (S n)) 0 x) in *.
    assert (x * ((x ^ 2 - 1) * l1) = x * ((INR n + 1) * s0 - (INR n + 1) * x * l0)) by (rewrite B0; ring).
    lra || nra.
  - pose proof (L_A (S n) k x) as A. pose proof (L_C n k x) as C. rewrite S_INR in *.
    set (a := legendre_deriv (S (S n)) (S k) x) in *. set (b := legendre_deriv (S n) (S k) x) in *.
    set (c := legendre_deriv (S n) k x) in *. set (d := legendre_deriv n (S k) x) in *.
    rewrite A.
    transitivity ((INR n + 1 - INR k) * (x * b) + (INR n + 1 + 1 + INR k) * ((INR n + 1 - INR k) * c)); [ring|].
    rewrite <- C. ring.
Qed.

(** (1 - x^2) P_n^(k+1) *)
Lemma L_D n k x :
  (1 - x ^ 2) * legendre_deriv (S n) (S k) x =
  (INR n + 1 + INR k) * legendre_deriv n k x - (INR n + 1 - INR k) * x * legendre_deriv (S n) k x.
Proof.
  pose proof (L_A n k x) as A. pose proof (L_C n k x) as C.
  set (a := legendre_deriv (S n) (S k) x) in *. set (b := legendre_deriv n (S k) x) in *.
  transitivity (a - x * (x * a)); [ring|].
  assert (E : x * a = b + (INR n + 1 - INR k) * legendre_deriv (S n) k x) by lra.
  rewrite E, A. ring.
Qed.

(** Legendre's differential equation, differentiated k times *)
Lemma L_ode n k x :
  (1 - x ^ 2) * legendre_deriv n (S (S k)) x - 2 * (INR k + 1) * x * legendre_deriv n (S k) x
  + (INR n - INR k) * (INR n + INR k + 1) * legendre_deriv n k x = 0.
Proof.
  destruct n as [|n].
  - rewrite (L_above 0 (S (S k))), (L_above 0 (S k)) by lia.
    destruct k as [|k]; [cbn [INR]; ring|]. rewrite L_above by lia. ring.
  - pose proof (L_D n (S k) x) as D. pose proof (L_C n k x) as C. rewrite !S_INR in *.
    set (a := legendre_deriv (S n) (S (S k)) x) in *. set (b := legendre_deriv (S n) (S k) x) in *.
    set (c := legendre_deriv (S n) k x) in *. set (d := legendre_deriv n (S k) x) in *.
    rewrite D. assert (E : d = x * b - (INR n + 1 - INR k) * c) by lra. rewrite E. ring.
Qed.
