(** The loops of the evaluation as sums; derivatives of the expansion. *)

From Coq Require Import Bool List Reals Arith Lra Lia.
From Coquelicot Require Import Coquelicot.
From Verif Require Import ArrModel LegendreModel LegendreSpec LoopProofs LegendrePoly LegendreGauss LegendreLow LegendreHigh
  LegendreProofs GeoModel ShEvalModel ShEvalSpec.
Import ListNotations.
Open Scope R_scope.

(** sum from 1 to n *)
Fixpoint S1 (f : nat -> R) (n : nat) : R :=
  match n with O => 0 | S n' => S1 f n' + f (S n') end.

Lemma S1_sum f n : sum_f_R0 f n = f 0%nat + S1 f n.
Proof. induction n as [|n IH]; cbn [sum_f_R0 S1]; [ring|]. rewrite IH. ring. Qed.
Lemma S1_ext f g n : (forall i, (1 <= i <= n)%nat -> f i = g i) -> S1 f n = S1 g n.
Proof.
  intro H. induction n as [|n IH]; cbn [S1]; [reflexivity|]. rewrite IH, H; [reflexivity|lia|].
  intros; apply H; lia.
Qed.
Lemma S1_scal c f n : S1 (fun i => c * f i) n = c * S1 f n.
Proof. induction n as [|n IH]; cbn [S1]; [ring|]. rewrite IH. ring. Qed.
Lemma S1_plus f g n : S1 (fun i => f i + g i) n = S1 f n + S1 g n.
Proof. induction n as [|n IH]; cbn [S1]; [ring|]. rewrite IH. ring. Qed.
Lemma S1_zero n f : (forall i, (1 <= i <= n)%nat -> f i = 0) -> S1 f n = 0.
Proof.
  intro H. induction n as [|n IH]; cbn [S1]; [reflexivity|]. rewrite IH, H; [ring|lia|]. intros; apply H; lia.
Qed.

Lemma S1_loop f n s : loop 1 n (fun j acc => acc + f j) s = s + S1 f n.
Proof.
  pose proof (loop_inv (fun i acc => acc = s + S1 f (pred i)) 1 n (fun j acc => acc + f j) s ltac:(lia)) as P.
  cbn [pred] in P. apply P; [cbn [S1]; ring|]. intros i acc Hi ->. destruct i as [|i]; [lia|]. cbn [pred S1]. ring.
Qed.

Lemma loop_ext {St} lo hi (f g : nat -> St -> St) s :
  (forall i s, (lo <= i <= hi)%nat -> f i s = g i s) -> loop lo hi f s = loop lo hi g s.
Proof.
  intro H. unfold loop.
  assert (E : forall l s, (forall i, In i l -> (lo <= i <= hi)%nat) ->
    fold_left (fun s i => f i s) l s = fold_left (fun s i => g i s) l s).
  { induction l as [|i l IH]; intros s' Hl; cbn [fold_left]; [reflexivity|].
    rewrite H by (apply Hl; now left). apply IH. intros; apply Hl; now right. }
  apply E. intros i Hi. apply in_seq in Hi. lia.
Qed.

(** ** The rows of the sums *)
Section Rows.
Variables (coef lcs : coefs) (lp ldp rrp : arr).
Definition tmp0 (i j : nat) : R :=
  fst (coef (T i + j)%nat) * fst (lcs j) + snd (coef (T i + j)%nat) * snd (lcs j).
Definition tmp1 (i j : nat) : R :=
  fst (coef (T i + j)%nat) * snd (lcs j) - snd (coef (T i + j)%nat) * fst (lcs j).
Definition row_v (i : nat) : R := fst (coef (T i)) * lp (T i) + S1 (fun j => tmp0 i j * lp (T i + j)%nat) i.
Definition row_el (i : nat) : R := fst (coef (T i)) * ldp (T i) + S1 (fun j => tmp0 i j * ldp (T i + j)%nat) i.
Definition row_az (i : nat) : R := S1 (fun j => tmp1 i j * lp (T i + j)%nat * INR j) i.
Definition i_dr (is_int : bool) (i : nat) : R :=
  (if is_int then 1 else -1) * INR (i + (if is_int then 1 else 0))%nat.

Definition sum_v (degree : nat) : R := fst (coef 0%nat) * rrp 0%nat + S1 (fun i => rrp i * row_v i) degree.
Definition sum_el (degree : nat) : R := S1 (fun i => rrp i * row_el i) degree.
Definition sum_az (degree : nat) : R := - S1 (fun i => rrp i * row_az i) degree.
Definition sum_rd (is_int : bool) (degree : nat) : R :=
  - (fst (coef 0%nat) * rrp 0%nat * i_dr is_int 0) - S1 (fun i => rrp i * (row_v i * i_dr is_int i)) degree.

Lemma eval_v_sum degree rad : shc_eval_v degree rad coef lcs lp rrp = sum_v degree * rad.
Proof.
  unfold shc_eval_v, sum_v. cbv zeta. f_equal. rewrite <- (S1_loop (fun i => rrp i * row_v i)).
  apply loop_ext. intros i v Hi.
  unfold row_v. rewrite <- (S1_loop (fun j => tmp0 i j * lp (T i + j)%nat)). reflexivity.
Qed.

Lemma eval_dv_sum degree elv is_int :
  shc_eval_dv degree elv coef lcs lp ldp rrp is_int =
  (sum_el degree,
   if Nat.ltb 0 degree && Rltb (Rabs (cos elv)) (1 / 10 ^ 10)
   then shc_eval_dvaz_pole degree elv coef lcs rrp else sum_az degree / cos elv,
   sum_rd is_int degree).
Proof.
  unfold shc_eval_dv. cbv zeta.
  match goal with |- context [loop 1 degree ?b ?s] => set (body := b); set (s0 := s) end.
  assert (P : loop 1 degree body s0 = (sum_el degree, sum_az degree, sum_rd is_int degree)).
  { apply (loop_inv (fun i st => st = (sum_el (pred i), sum_az (pred i), sum_rd is_int (pred i))) 1 degree body s0); [lia| |].
    - unfold s0, sum_el, sum_az, sum_rd, i_dr. cbn [pred S1 Nat.add]. apply f_equal2; [apply f_equal2; ring|ring].
    - intros i st Hi ->. unfold body.
      match goal with |- context [loop 1 i ?b ?s] => set (ib := b); set (is0 := s) end.
      assert (Q : loop 1 i ib is0 = (row_el i, row_az i, row_v i * i_dr is_int i)).
      { pose proof (loop_inv (fun j st => st =
          (fst (coef (T i)) * ldp (T i) + S1 (fun j => tmp0 i j * ldp (T i + j)%nat) (pred j),
           S1 (fun j => tmp1 i j * lp (T i + j)%nat * INR j) (pred j),
           (fst (coef (T i)) * lp (T i) + S1 (fun j => tmp0 i j * lp (T i + j)%nat) (pred j)) * i_dr is_int i)) 1 i ib is0 ltac:(lia)) as L.
        cbn [pred] in L. rewrite L; [reflexivity| |].
        - unfold is0, i_dr. change (i * (i + 1) / 2)%nat with (T i). cbn [S1]. apply f_equal2; [apply f_equal2; ring|]. ring.
        - intros j st Hj ->. unfold ib. destruct j as [|j]; [lia|]. cbn [pred S1].
          change (i * (i + 1) / 2)%nat with (T i). fold (tmp0 i (S j)). fold (tmp1 i (S j)).
          apply f_equal2; [apply f_equal2; ring|]. fold (i_dr is_int i). ring. }
      rewrite Q. destruct i as [|i]; [lia|]. unfold sum_el, sum_az, sum_rd. cbn [pred S1].
      apply f_equal2; [apply f_equal2; ring|ring]. }
  rewrite P. reflexivity.
Qed.

Lemma eval_v_dv_sum degree elv rad is_int :
  shc_eval_v_dv degree elv rad coef lcs lp ldp rrp is_int =
  (sum_v degree * rad,
   (sum_el degree,
    if Nat.ltb 0 degree && Rltb (Rabs (cos elv)) (1 / 10 ^ 10)
    then shc_eval_dvaz_pole degree elv coef lcs rrp else sum_az degree / cos elv,
    sum_rd is_int degree)).
Proof.
  unfold shc_eval_v_dv. cbv zeta.
  match goal with |- context [loop 1 degree ?b ?s] => set (body := b); set (s0 := s) end.
  assert (P : loop 1 degree body s0 = (sum_v degree, sum_el degree, sum_az degree, sum_rd is_int degree)).
  { apply (loop_inv (fun i st => st = (sum_v (pred i), sum_el (pred i), sum_az (pred i), sum_rd is_int (pred i))) 1 degree body s0); [lia| |].
    - unfold s0, sum_v, sum_el, sum_az, sum_rd, i_dr. cbn [pred S1 Nat.add].
      apply f_equal2; [apply f_equal2; [apply f_equal2; ring|ring]|ring].
    - intros i st Hi ->. unfold body.
      match goal with |- context [loop 1 i ?b ?s] => set (ib := b); set (is0 := s) end.
      assert (Q : loop 1 i ib is0 = (row_v i, row_el i, row_az i, row_v i * i_dr is_int i)).
      { pose proof (loop_inv (fun j st => st =
          (fst (coef (T i)) * lp (T i) + S1 (fun j => tmp0 i j * lp (T i + j)%nat) (pred j),
           fst (coef (T i)) * ldp (T i) + S1 (fun j => tmp0 i j * ldp (T i + j)%nat) (pred j),
           S1 (fun j => tmp1 i j * lp (T i + j)%nat * INR j) (pred j),
           (fst (coef (T i)) * lp (T i) + S1 (fun j => tmp0 i j * lp (T i + j)%nat) (pred j)) * i_dr is_int i)) 1 i ib is0 ltac:(lia)) as L.
        cbn [pred] in L. rewrite L; [reflexivity| |].
        - unfold is0, i_dr. change (i * (i + 1) / 2)%nat with (T i). cbn [S1].
          apply f_equal2; [apply f_equal2; [apply f_equal2; ring|ring]|ring].
        - intros j st Hj ->. unfold ib. destruct j as [|j]; [lia|]. cbn [pred S1].
          change (i * (i + 1) / 2)%nat with (T i). fold (tmp0 i (S j)). fold (tmp1 i (S j)). fold (i_dr is_int i).
          apply f_equal2; [apply f_equal2; [apply f_equal2; ring|ring]|ring]. }
      rewrite Q. destruct i as [|i]; [lia|]. unfold sum_v, sum_el, sum_az, sum_rd. cbn [pred S1].
      apply f_equal2; [apply f_equal2; [apply f_equal2; ring|ring]|ring]. }
  rewrite P. reflexivity.
Qed.

(** the azimuth component at the poles *)
Definition pole_term (x : R) (i : nat) : R :=
  (fst (coef (T i + 1)%nat) * snd (lcs 1%nat) - snd (coef (T i + 1)%nat) * fst (lcs 1%nat)) * rrp i * G i 1 x * F i 1.

Lemma F_1 i : (1 <= i)%nat -> F i 1 = F i 0 * sqrt (INR (i * 2) / INR (i + 1)).
Proof.
  intro H. unfold F. rewrite (gc_ratio i 0) by lia. rewrite Nat.sub_0_r.
  pose proof (nf_ratio i 0 H) as E. cbn [Nat.eqb] in E. rewrite nf_0, Nat.sub_0_r in E.
  assert (0 < INR i) by (apply lt_0_INR; lia). assert (0 < INR (i + 1)) by (apply lt_0_INR; lia).
  pose proof (gc_pos i 1) as Gp. rewrite nf_0.
  apply (Rmult_eq_reg_r (gc i 1)); [|lra].
  replace (nf i 1 / gc i 1 * gc i 1) with (nf i 1) by (field; lra).
  replace (1 / (gc i 1 * INR i) * sqrt (INR (i * 2) / INR (i + 1)) * gc i 1)
    with (sqrt (INR (i * 2) / INR (i + 1)) / INR i) by (field; lra).
  apply (Rmult_eq_reg_r (sqrt (INR i) * sqrt (INR (i + 1)))).
  2: { pose proof (sqrt_lt_R0 (INR i) ltac:(lra)). pose proof (sqrt_lt_R0 (INR (i + 1)) ltac:(lra)). nra. }
  rewrite <- Rmult_assoc, E. rewrite mult_INR. change (INR 2) with 2.
  replace (sqrt (INR i * 2 / INR (i + 1)) / INR i * (sqrt (INR i) * sqrt (INR (i + 1))))
    with (sqrt (INR i) * (sqrt (INR i * 2 / INR (i + 1)) * sqrt (INR (i + 1))) / INR i) by (field; lra).
  rewrite <- sqrt_mult by (try (apply Rlt_le, Rdiv_lt_0_compat); lra).
  replace (INR i * 2 / INR (i + 1) * INR (i + 1)) with (INR i * 2) by (field; lra).
  rewrite sqrt_mult by lra.
  replace (sqrt (INR i) * (sqrt (INR i) * sqrt 2) / INR i) with ((sqrt (INR i) * sqrt (INR i)) * sqrt 2 / INR i) by (unfold Rdiv; ring).
  rewrite sqrt_sqrt by lra. field. lra.
Qed.

Lemma pole_sum degree elv : (1 <= degree)%nat ->
  shc_eval_dvaz_pole degree elv coef lcs rrp = - S1 (pole_term (sin elv)) degree.
Proof.
  intro Hd. unfold shc_eval_dvaz_pole. cbv zeta.
  match goal with |- context [loop 2 degree ?b ?s] => set (body := b); set (s0 := s) end.
  assert (P : loop 2 degree body s0 =
    (F degree 0, G (pred degree) 1 (sin elv) + (if Nat.eqb degree 1 then 1 else 0), G degree 1 (sin elv), S1 (pole_term (sin elv)) degree)).
  { pose proof (loop_inv (fun i st => st = (F (pred i) 0,
      G (pred (pred i)) 1 (sin elv) + (if Nat.eqb (pred i) 1 then 1 else 0), G (pred i) 1 (sin elv), S1 (pole_term (sin elv)) (pred i)))
      2 degree body s0 ltac:(lia)) as L.
    cbn [pred] in L. apply L; clear L.
    - unfold s0. cbn [Nat.eqb S1]. unfold pole_term. change (T 1) with 1%nat. cbn [Nat.add].
      rewrite F_11, F_10, G_diag.
      assert (G01 : G 0 1 (sin elv) = 0) by (unfold G; rewrite L_above by lia; ring). rewrite G01.
      apply f_equal2; [apply f_equal2; [apply f_equal2; [reflexivity|ring]|reflexivity]|ring].
    - intros i st Hi ->. destruct i as [|[|i]]; [lia|lia|]. unfold body. cbn [pred].
      assert (Efac : F (S (S i)) 0 = F (S i) 0 * (INR (2 * S (S i) - 1) / INR (S (S i)))) by apply F_step.
      assert (Esq : F (S i) 0 * (INR (2 * S (S i) - 1) / INR (S (S i))) * sqrt (INR (S (S i) * 2) / INR (S (S i) + 1)) = F (S (S i)) 1).
      { rewrite <- Efac. symmetry. apply F_1. lia. }
      assert (Erec : sin elv * G (S i) 1 (sin elv)
        - INR ((S (S i) - 1) * (S (S i) - 1) - 1) / INR ((2 * S (S i) - 1) * (2 * S (S i) - 3))
          * (G i 1 (sin elv) + (if Nat.eqb (S i) 1 then 1 else 0)) = G (S (S i)) 1 (sin elv)).
      { destruct i as [|i].
        - cbn [Nat.eqb]. rewrite G_diag, G_subdiag. cbn [Nat.mul Nat.add Nat.sub]. cbn [INR]. unfold Rdiv. ring.
        - cbn [Nat.eqb]. rewrite (G_rec (S i) 1) by lia. unfold Rdiv. rewrite (Nat.mul_1_l 1). ring. }
      rewrite Erec, Esq, <- Efac. cbn [S1]. cbn [Nat.eqb].
      apply f_equal2; [apply f_equal2; [apply f_equal2; [reflexivity|]|reflexivity]|].
      + ring.
      + unfold pole_term at 3. replace (1 + S (S i) * (S (S i) + 1) / 2)%nat with (T (S (S i)) + 1)%nat by (unfold T; lia).
        reflexivity. }
  rewrite P. reflexivity.
Qed.
End Rows.
