(** What the algorithm of the low degrees gives at a pole when the integers wrap around. *)

From Coq Require Import Bool List Reals Arith ZArith Lia Lra.
From Verif Require Import ArrModel LegendreModel LegendreSpec LoopProofs LegendrePoly LegendreGauss LegendreLow LegendreProofs
  BufModel IntModel IntSpec IntProofs IntTopProofs.
Import ListNotations.
Open Scope R_scope.

Lemma loopi_snoc {A} ar (bi : Z -> A -> option A) lo hi s : (lo <= S hi)%nat ->
  loopi ar lo (S hi) bi s =
  try s <- loopi ar lo hi bi s; try s <- bi (Z.of_nat (S hi)) s; try _ <- ev ar (Z.of_nat (S hi) + 1%Z)%cint; Some s.
Proof.
  intros H. unfold loopi. replace (S (S hi) - lo)%nat with (S (S hi - lo)) by lia.
  rewrite seq_S, fold_left_app. cbn [fold_left]. replace (lo + (S hi - lo))%nat with (S hi) by lia. reflexivity.
Qed.

(** the first element of the last row after the first loop ... *)
Lemma pass1_first s c w i (st : arr * arr) : (2 <= i)%nat ->
  fst (pass1 s c w i st) (T i) =
  s * fst st (T (i - 1)) - w * INR ((i - 1) * (i - 1)) * fst st (T (i - 2)).
Proof.
  intros Hi. destruct st as [lp ldp]. unfold pass1. cbv zeta. change (i * (i + 1) / 2)%nat with (T i).
  match goal with |- context [loop 0 (i - 2) ?b _] => set (body := b) end.
  pose proof (T_S (i - 1)) as T1. pose proof (T_S (i - 2)) as T2.
  replace (S (i - 1)) with i in T1 by lia. replace (S (i - 2)) with (i - 1)%nat in T2 by lia.
  assert (I : (fun j (st : arr * arr) => (forall k, (k < T i)%nat -> fst st k = lp k) /\
      ((1 <= j)%nat -> fst st (T i) = s * lp (T (i - 1)) - w * INR ((i - 1) * (i - 1)) * lp (T (i - 2))))
      (S (i - 2)) (loop 0 (i - 2) body (lp, ldp))).
  { apply (loop_inv (fun j (st : arr * arr) => (forall k, (k < T i)%nat -> fst st k = lp k) /\
      ((1 <= j)%nat -> fst st (T i) = s * lp (T (i - 1)) - w * INR ((i - 1) * (i - 1)) * lp (T (i - 2))))); [lia| |].
    - split; [reflexivity|lia].
    - intros j [lp1 ldp1] Hj [H1 H2]. cbn [fst] in *. unfold body. cbn [fst]. split.
      + intros k Hk. rewrite upd_other by lia. apply H1, Hk.
      + intros _. destruct j as [|j].
        * rewrite Nat.add_0_r, upd_same, !H1 by lia. rewrite Nat.mul_0_l, Nat.sub_0_r.
          replace (T i - i)%nat with (T (i - 1)) by lia.
          replace (T i + 1 - i - i)%nat with (T (i - 2)) by lia. reflexivity.
        * rewrite upd_other by lia. apply H2. lia. }
  cbv beta in I. destruct (loop 0 (i - 2) body (lp, ldp)) as [lp1 ldp1]. destruct I as [_ I]. cbn [fst] in *.
  rewrite !upd_other by lia. apply I. lia.
Qed.

(** ... and after the second loop *)
Lemma pass2_first ps prs n (st : arr * arr) : (2 <= n)%nat ->
  fst (fst (loop 2 n (pass2 ps prs) (st, 1))) (T n) = fst st (T n) * F n 0.
Proof.
  intros Hn.
  assert (I : (fun i (u : arr * arr * R) => snd u = F (i - 1) 0 /\
      fst (fst u) (T n) = if Nat.ltb n i then fst st (T n) * F n 0 else fst st (T n))
      (S n) (loop 2 n (pass2 ps prs) (st, 1))).
  { apply (loop_inv (fun i (u : arr * arr * R) => snd u = F (i - 1) 0 /\
      fst (fst u) (T n) = if Nat.ltb n i then fst st (T n) * F n 0 else fst st (T n))); [lia| |].
    - cbn [fst snd]. replace (2 - 1)%nat with 1%nat by lia. rewrite F_10. split; [reflexivity|].
      destruct (Nat.ltb_spec n 2); [lia|reflexivity].
    - intros i [[lp ldp] sqn0] Hi [H1 H2]. cbn [fst snd] in H1, H2. destruct (Nat.ltb_spec n i); [lia|].
      unfold pass2. cbv zeta. change (i * (i + 1) / 2)%nat with (T i).
      assert (Q0 : sqn0 * (INR (2 * i - 1) / INR i) = F i 0).
      { rewrite H1. destruct i as [|i]; [lia|]. rewrite F_step. replace (S i - 1)%nat with i by lia. reflexivity. }
      rewrite Q0. match goal with |- context [loop 2 i ?b ?x] => set (body := b); set (x0 := x) end.
      assert (J : (fun j (u : arr * arr * R) => fst (fst u) (T n) =
          if Nat.ltb n (S i) then fst st (T n) * F n 0 else fst st (T n)) (S i) (loop 2 i body x0)).
      { apply (loop_inv (fun j (u : arr * arr * R) => fst (fst u) (T n) =
          if Nat.ltb n (S i) then fst st (T n) * F n 0 else fst st (T n))); [lia| |].
        - unfold x0. cbn [fst].
          destruct (Nat.ltb_spec n (S i)).
          + assert (n = i) as -> by lia. rewrite upd_other by lia. rewrite upd_same, H2. reflexivity.
          + pose proof (T_mono i n ltac:(lia)). rewrite !upd_other by lia. exact H2.
        - intros j [[lp1 ldp1] q] Hj HI. cbn [fst] in *. unfold body. cbn [fst].
          assert (T n <> T i + j)%nat by
            (destruct (Nat.eq_dec n i) as [->|]; [lia|pose proof (T_mono i n ltac:(lia)); lia]).
          rewrite upd_other by assumption. exact HI. }
      cbv beta in J. destruct (loop 2 i body x0) as [[lp1 ldp1] q]. cbn [fst snd] in *.
      replace (S i - 1)%nat with i by lia. split; [reflexivity|]. exact J. }
  cbv beta in I. destruct I as [_ I]. rewrite I. destruct (Nat.ltb_spec n (S n)); [reflexivity|lia].
Qed.

(** The first pass of which the weight wraps around *)

Lemma F_pos n : 0 < F n 0.
Proof. unfold F. rewrite nf_0. pose proof (gc_pos n 0). apply Rdiv_lt_0_compat; lra. Qed.

(** the Legendre polynomials are 1 at 1 *)
Lemma pole_two n : g n 0 (PI / 2) * F n 0 = 1 /\ g (S n) 0 (PI / 2) * F (S n) 0 = 1.
Proof.
  induction n as [|n [IH1 IH2]].
  - rewrite g_00, F_0, g_subdiag, F_10, g_00, sin_PI2. lra.
  - split; [exact IH2|]. rewrite g_rec by lia. rewrite sin_PI2.
    rewrite (F_step (S n)). rewrite (F_step n) in *.
    pose proof (F_pos n) as P. set (f := F n 0) in *. clearbody f.
    set (a := g n 0 (PI / 2)) in *. set (b := g (S n) 0 (PI / 2)) in *. clearbody a b.
    assert (E1 : INR (2 * S n - 1) = 2 * INR n + 1) by (rewrite minus_INR, mult_INR, !S_INR by lia; cbn [INR]; ring).
    assert (E2 : INR (2 * S (S n) - 1) = 2 * INR n + 3) by (rewrite minus_INR, mult_INR, !S_INR by lia; cbn [INR]; ring).
    assert (E3 : INR (S (S n)) = INR n + 2) by (rewrite !S_INR; ring).
    assert (E4 : INR (S n) = INR n + 1) by (rewrite !S_INR; ring).
    rewrite E1, E4 in IH2. rewrite E1, E2, E3, E4. clear E1 E2 E3 E4.
    match goal with |- context [INR (?x - 0 * 0)] => replace (INR (x - 0 * 0)) with ((INR n + 1) * (INR n + 1))
      by (rewrite Nat.mul_0_l, Nat.sub_0_r, mult_INR; f_equal; rewrite <- S_INR; f_equal; lia) end.
    match goal with |- context [1 / INR ?x] => replace (INR x) with ((2 * INR n + 3) * (2 * INR n + 1))
      by (rewrite mult_INR, !minus_INR, !mult_INR, !S_INR by lia; cbn [INR]; ring) end.
    pose proof (pos_INR n) as K. set (k := INR n) in *. clearbody k.
    assert (a = 1 / f) as -> by (rewrite <- IH1; field; lra).
    assert (b = (k + 1) / (f * (2 * k + 1))) as ->.
    { apply (Rmult_eq_reg_r (f * ((2 * k + 1) / (k + 1)))).
      - rewrite IH2. field. lra.
      - apply Rgt_not_eq. apply Rmult_lt_0_compat; [lra|]. apply Rdiv_lt_0_compat; lra. }
    field. lra.
Qed.

Lemma wrapped_weight : ev wrapping ((2%Z * 23172%Z - 1%Z) * (2%Z * 23172%Z - 3%Z)) = Some (-2147386333)%Z.
Proof. reflexivity. Qed.

Lemma pole_low first_wrapped lp ldp junk : Z.of_nat first_wrapped = 23172%Z -> exists p dp,
  i_legendre_low wrapping lp ldp first_wrapped 1 0 (shc_presqrt first_wrapped junk) (shc_prersqrt first_wrapped junk)
    = Some (p, dp) /\ 2.9 < p (T first_wrapped).
Proof.
  intros N. pose proof wrapping_conforming as C.
  rewrite i_low_passes.
  destruct first_wrapped as [|n] eqn:En; [lia|]. rewrite loopi_snoc by lia.
  rewrite (loopi_eq wrapping (i_pass1 wrapping 1 0) (fun i => pass1 1 0 (1 / INR ((2 * i - 1) * (2 * i - 3))) i) 2 n _ C
    ltac:(lia) ltac:(lia)) by (intros i st Hi; apply pass1_exact; (assumption || lia)).
  match goal with |- context [loop 2 n ?b ?x] => set (st := loop 2 n b x) end.
  assert (I : gauss_rows lp ldp (PI / 2) (S n) st).
  { unfold st. apply (loop_inv (gauss_rows lp ldp (PI / 2))); [lia| |].
    - pose proof (gauss_init lp ldp (PI / 2)) as G. rewrite sin_PI2, cos_PI2 in G. exact G.
    - intros i s Hi Hs. pose proof (gauss_pass lp ldp (PI / 2) i s ltac:(lia) Hs) as G.
      rewrite sin_PI2, cos_PI2 in G. exact G. }
  clearbody st.
  rewrite (pass1_any wrapping 1 0 (S n) st (-2147386333) C) by (try (rewrite N; exact wrapped_weight); lia).
  rewrite (ev_exact wrapping _ C) by fit.
  set (st1 := pass1 1 0 _ (S n) st).
  assert (V : fst st1 (T (S n)) = fst st (T n) - 1 / IZR (-2147386333) * INR (n * n) * fst st (T (n - 1))).
  { unfold st1. rewrite pass1_first by lia. replace (S n - 1)%nat with n by lia.
    replace (S n - 2)%nat with (n - 1)%nat by lia. ring. }
  clearbody st1. destruct st1 as [lp1 ldp1].
  rewrite (loopi_eq wrapping (i_pass2 wrapping _ _) (pass2 _ _) 2 (S n) _ C
    ltac:(lia) ltac:(lia)) by (intros i u Hi; apply pass2_exact; (assumption || lia)).
  pose proof (pass2_first (shc_presqrt (S n) junk) (shc_prersqrt (S n) junk) (S n) (lp1, ldp1) ltac:(lia)) as W.
  destruct (loop 2 (S n) _ _) as [[p dp] q]. cbn [fst] in *.
  exists p, dp. split; [reflexivity|]. rewrite W, V.
  destruct I as [I _].
  destruct (I n 0%nat ltac:(lia) ltac:(lia)) as [I1 _]. destruct (I (n - 1)%nat 0%nat ltac:(lia) ltac:(lia)) as [I2 _].
  rewrite Nat.add_0_r in I1, I2. rewrite I1, I2.
  destruct (pole_two (n - 1)) as [P1 P2]. replace (S (n - 1)) with n in P2 by lia.
  assert (NR : INR n = 23171) by (rewrite INR_IZR_INZ; f_equal; lia).
  assert (S1 : F (S n) 0 = F n 0 * (46343 / 23172)).
  { rewrite F_step. f_equal. f_equal.
    - rewrite INR_IZR_INZ. f_equal. lia.
    - rewrite S_INR, NR. lra. }
  assert (S2 : F n 0 = F (n - 1) 0 * (46341 / 23171)).
  { pose proof (F_step (n - 1)) as E. replace (S (n - 1)) with n in E by lia. rewrite E. f_equal. f_equal.
    - rewrite INR_IZR_INZ. f_equal. lia.
    - exact NR. }
  rewrite mult_INR, NR, S1.
  set (a := g n 0 (PI / 2)) in *. set (b := g (n - 1) 0 (PI / 2)) in *.
  replace ((a - 1 / IZR (-2147386333) * (23171 * 23171) * b) * (F n 0 * (46343 / 23172)))
    with (46343 / 23172 * (a * F n 0) + (23171 * 23171) / 2147386333 * (46343 / 23172) * (b * F n 0)) by (cbn; field).
  rewrite P2. rewrite S2.
  replace (b * (F (n - 1) 0 * (46341 / 23171))) with (46341 / 23171 * (b * F (n - 1) 0)) by ring.
  rewrite P1. lra.
Qed.

Lemma pole_wrapped first_wrapped mem junk : Z.of_nat first_wrapped = 23172%Z -> exists p dp,
  i_legendre_call wrapping [90] first_wrapped mem junk = Some (p, dp) /\ 2.9 < p (nm_index first_wrapped 0).
Proof.
  intros N. unfold i_legendre_call.
  rewrite presqrt_exact, prersqrt_exact by (try apply wrapping_conforming; lia).
  cbn [i_legendre_items]. unfold i_legendre.
  replace (90 * DG2RAD) with (PI / 2) by (unfold DG2RAD; field). rewrite sin_PI2.
  replace ((1 - 1) * (1 + 1)) with 0 by ring. rewrite sqrt_0, Rabs_R0.
  assert (Rltb 0 (1 / 10 ^ 10) = true) as ->.
  { unfold Rltb. destruct (Rlt_dec 0 (1 / 10 ^ 10)) as [|Hn]; [reflexivity|]. exfalso. apply Hn. lra. }
  rewrite orb_true_r.
  destruct (pole_low first_wrapped (ptr (fst mem) 0) (ptr (snd mem) 0) junk N) as (p & dp & E & V).
  rewrite E. eexists. eexists. split; [reflexivity|].
  rewrite T_index, Nat.add_0_r. replace (T first_wrapped) with (0 + T first_wrapped)%nat by lia.
  rewrite unptr_high. exact V.
Qed.
