(** SHCALC computes the spherical harmonics and their derivatives. *)

From Coq Require Import Bool List Reals Arith Lia Lra.
From Coquelicot Require Import Coquelicot.
From Verif Require Import ArrModel LoopProofs LegendreSpec QdBasisModel QdBasisSpec QdBasisProofs LegendreGauss.
Import ListNotations.
Open Scope R_scope.

(** the first elements of the array are those of the harmonics *)
Definition holds (Q : harmonic -> R -> Prop) (a : arr) (l : list harmonic) : Prop :=
  forall k x, nth_error l k = Some x -> Q x (a k).

Lemma holds_snoc (Q : harmonic -> R -> Prop) a l x v i : i = length l -> holds Q a l -> Q x v -> holds Q (upd a i v) (l ++ [x]).
Proof.
  intros -> H Hv k y. destruct (Nat.lt_ge_cases k (length l)) as [L|L].
  - rewrite nth_error_app1 by exact L. intro E. rewrite upd_other by lia. now apply H.
  - rewrite nth_error_app2 by exact L. destruct (k - length l)%nat as [|j] eqn:Ej; cbn [nth_error].
    + intro E. replace k with (length l) by lia. rewrite upd_same. congruence.
    + destruct j; discriminate.
Qed.

(** the harmonics written so far *)
Definition zonal (n : nat) : list harmonic := map (fun n => Harmonic n 0 false) (seq 0 n).
Definition of_order (m n : nat) : list harmonic :=
  flat_map (fun n => [Harmonic n m false; Harmonic n m true]) (seq m (n - m)).
Definition before (nmax m n : nat) : list harmonic :=
  zonal (S nmax) ++ flat_map (fun m => of_order m (S nmax)) (seq 1 (m - 1)) ++ of_order m n.

Lemma zonal_step n : zonal (S n) = zonal n ++ [Harmonic n 0 false].
Proof. unfold zonal. rewrite seq_S, map_app. reflexivity. Qed.
Lemma of_order_step m n : (m <= n)%nat -> of_order m (S n) = of_order m n ++ [Harmonic n m false; Harmonic n m true].
Proof.
  intro H. unfold of_order. replace (S n - m)%nat with (S (n - m)) by lia. rewrite seq_S, flat_map_app.
  replace (m + (n - m))%nat with n by lia. reflexivity.
Qed.
Lemma before_step nmax m n : (m <= n)%nat ->
  before nmax m (S n) = (before nmax m n ++ [Harmonic n m false]) ++ [Harmonic n m true].
Proof. intro H. unfold before. rewrite of_order_step by exact H. rewrite <- !app_assoc. reflexivity. Qed.
Lemma before_next nmax m : (1 <= m)%nat -> before nmax m (S nmax) = before nmax (S m) (S m).
Proof.
  intro H. unfold before. replace (S m - 1)%nat with (S (m - 1)) by lia. rewrite seq_S, flat_map_app.
  replace (1 + (m - 1))%nat with m by lia. cbn [flat_map].
  replace (of_order (S m) (S m)) with (@nil harmonic) by (unfold of_order; now rewrite Nat.sub_diag).
  rewrite !app_nil_r. reflexivity.
Qed.
Lemma before_first nmax : before nmax 1 1 = zonal (S nmax).
Proof. unfold before. cbn. now rewrite app_nil_r. Qed.
Lemma before_all nmax mmax : (1 <= mmax)%nat -> before nmax (S mmax) (S mmax) = harmonics nmax mmax.
Proof.
  intro H. unfold before, harmonics, of_order. rewrite Nat.sub_diag. cbn [seq flat_map]. rewrite app_nil_r.
  replace (S mmax - 1)%nat with mmax by lia. reflexivity.
Qed.

Lemma harmonics_length nmax mmax : (1 <= mmax <= nmax)%nat ->
  length (harmonics nmax mmax) = (mmax * (2 * nmax - mmax + 1) + nmax + 1)%nat.
Proof.
  intro H. unfold harmonics. rewrite app_length, map_length, seq_length.
  assert (G : forall k, (k <= mmax)%nat ->
    length (flat_map (fun m => flat_map (fun n => [Harmonic n m false; Harmonic n m true]) (seq m (S nmax - m))) (seq 1 k))
    = (k * (2 * nmax - k + 1))%nat).
  { assert (E : forall m l, length (flat_map (fun n => [Harmonic n m false; Harmonic n m true]) l) = (2 * length l)%nat).
    { intros m l. induction l as [|a l IH]; cbn [flat_map length app]; lia. }
    induction k as [|k IH]; intro Hk; [reflexivity|].
    rewrite seq_S, flat_map_app, app_length, IH by lia. cbn [flat_map]. rewrite app_nil_r, E, seq_length. nia. }
  rewrite G by lia. lia.
Qed.

(** the derivative by the longitude without a factor of the sine of the colatitude *)
Definition east_part (x : harmonic) (t p : R) : R :=
  let '(Harmonic n m s) := x in INR m * w n m t * (if s then cos (INR m * p) else - sin (INR m * p)).

Lemma east_part_derive x t p : is_derive (fun p => harmonic_value x t p) p (sin t * east_part x t p).
Proof.
  destruct x as [n m s]. unfold harmonic_value, east_part. destruct m as [|m].
  - change (INR 0) with 0. apply (Rderive_ext (fun _ => normalised n 0 t * (if s then 0 else 1))).
    + intro x. rewrite Rmult_0_l, sin_0, cos_0. reflexivity.
    + replace (sin t * _) with 0 by ring. apply @is_derive_const.
  - replace (sin t * _) with (normalised n (S m) t * (INR (S m) * (if s then cos (INR (S m) * p) else - sin (INR (S m) * p)))).
    + apply @is_derive_scal. generalize (INR (S m)). intro k. destruct s; auto_derive; trivial; ring.
    + rewrite <- w_normalised by lia. ring.
Qed.

Section Shcalc.
Variables (nmax mmax : nat) (t p : R) (vecflag : bool).
Hypothesis Hmax : (1 <= mmax <= nmax)%nat.

Definition is_value (x : harmonic) (v : R) : Prop := v = harmonic_value x t p.
Definition is_dtheta (x : harmonic) (v : R) : Prop := is_derive (fun t => harmonic_value x t p) t v.
Definition is_dphi (x : harmonic) (v : R) : Prop := v = east_part x t p.

Variables (pbar vbar wbar : arr2).
Hypothesis HC : forall j i, (1 <= j <= mmax)%nat -> (j <= i <= nmax)%nat -> cell t (pbar, vbar, wbar) i j.
Hypothesis HP : forall i, (i <= nmax)%nat -> pbar i 0%nat = normalised i 0 t.
Hypothesis HV : forall i, (i <= nmax)%nat -> is_derive (normalised i 0) t (vbar i 0%nat).

Lemma zonal_value n : (n <= nmax)%nat ->
  is_value (Harmonic n 0 false) (pbar n 0%nat) /\ is_dtheta (Harmonic n 0 false) (vbar n 0%nat) /\
  is_dphi (Harmonic n 0 false) 0.
Proof.
  intro H. unfold is_value, is_dtheta, is_dphi, harmonic_value. change (INR 0) with 0. rewrite HP by exact H.
  split; [rewrite Rmult_0_l, cos_0; ring|]. split.
  - apply (Rderive_ext (normalised n 0)); [intro x; rewrite Rmult_0_l, cos_0; ring|]. now apply HV.
  - cbn [east_part]. change (INR 0) with 0. ring.
Qed.

Lemma pair_value n m s : (1 <= m <= mmax)%nat -> (m <= n <= nmax)%nat ->
  let f := if (s : bool) then sin (INR m * p) else cos (INR m * p) in
  let g := if s then cos (INR m * p) else - sin (INR m * p) in
  is_value (Harmonic n m s) (pbar n m * f) /\ is_dtheta (Harmonic n m s) (vbar n m * f) /\
  is_dphi (Harmonic n m s) (wbar n m * g).
Proof.
  intros Hm Hn f g. destruct (HC m n Hm Hn) as (EP & EV & EW).
  unfold is_value, is_dtheta, is_dphi, harmonic_value. split; [unfold f; now rewrite EP|]. split.
  - apply (Rderive_ext (fun t => f * normalised n m t)); [intro x; apply Rmult_comm|].
    rewrite Rmult_comm. now apply @is_derive_scal.
  - rewrite EW. reflexivity.
Qed.

Definition good (l : list harmonic) (st : arr * arr * arr * nat * nat) : Prop :=
  let '(sh, gt, gp, i, i1) := st in
  holds is_value sh l /\ i = length l /\
  (vecflag = true -> holds is_dtheta gt l /\ holds is_dphi gp l /\ i1 = length l).

Lemma zonal_loop a b c : good (zonal (S nmax)) (loop 0 nmax (shcalc_zonal pbar vbar) (a, b, c, 0%nat, 0%nat)).
Proof.
  apply (loop_inv (fun n st => good (zonal n) st)); [lia| |].
  - assert (E : forall Q f, holds Q f []) by (intros Q f [|k] x; discriminate).
    split; [apply E|split; [reflexivity|]]. intros _. split; [apply E|split; [apply E|reflexivity]].
  - intros n [[[[sh gt] gp] i] i1] Hn (H1 & H2 & H3). unfold shcalc_zonal. rewrite zonal_step.
    destruct (zonal_value n ltac:(lia)) as (V1 & V2 & V3).
    split; [now apply holds_snoc|]. split; [rewrite app_length; cbn [length]; lia|].
    intro F. destruct (H3 F) as (H4 & H5 & H6). split; [now apply holds_snoc|]. split; [now apply holds_snoc|].
    rewrite app_length; cbn [length]; lia.
Qed.

Lemma order_step m st : (1 <= m <= mmax)%nat -> good (before nmax m m) st ->
  good (before nmax (S m) (S m)) (shcalc_order vecflag nmax p pbar vbar wbar m st).
Proof.
  intros Hm. destruct st as [[[[sh gt] gp] i] i1]. intros (H1 & H2 & H3). unfold shcalc_order.
  rewrite <- before_next by lia. set (cm_ := cos (INR m * p)). set (sm_ := sin (INR m * p)).
  assert (I1 : (fun n '(sh, i) => holds is_value sh (before nmax m n) /\ i = length (before nmax m n)) (S nmax)
     (loop m nmax (shcalc_values pbar cm_ sm_ m) (sh, i))).
  { apply (loop_inv (fun n '(sh, i) => holds is_value sh (before nmax m n) /\ i = length (before nmax m n))); [lia|now split|].
    intros n [s k] Hn (G1 & G2). unfold shcalc_values. rewrite before_step by lia.
    destruct (pair_value n m false ltac:(lia) ltac:(lia)) as (V1 & _). destruct (pair_value n m true ltac:(lia) ltac:(lia)) as (V2 & _).
    split; [|rewrite !app_length; cbn [length]; lia].
    apply holds_snoc; [rewrite app_length; cbn [length]; lia| |exact V2]. now apply holds_snoc. }
  cbv beta in I1. destruct (loop m nmax (shcalc_values _ _ _ _) _) as [sh1 j]. destruct I1 as (G1 & G2).
  destruct vecflag eqn:Fl.
  - destruct (H3 eq_refl) as (H4 & H5 & H6).
    assert (I2 : (fun n '(gt, gp, i) => holds is_dtheta gt (before nmax m n) /\ holds is_dphi gp (before nmax m n) /\
        i = length (before nmax m n)) (S nmax) (loop m nmax (shcalc_gradients vbar wbar cm_ sm_ m) (gt, gp, i1))).
    { apply (loop_inv (fun n '(gt, gp, i) => holds is_dtheta gt (before nmax m n) /\ holds is_dphi gp (before nmax m n) /\
        i = length (before nmax m n))); [lia|now split; [|split]|].
      intros n [[x y] k] Hn (K1 & K2 & K3). unfold shcalc_gradients. rewrite before_step by lia.
      destruct (pair_value n m false ltac:(lia) ltac:(lia)) as (_ & V1 & W1).
      destruct (pair_value n m true ltac:(lia) ltac:(lia)) as (_ & V2 & W2).
      replace (wbar n m * - sin (INR m * p)) with (- wbar n m * sm_) in W1 by (unfold sm_; ring).
      assert (L : (k + 1)%nat = length (before nmax m n ++ [Harmonic n m false])) by (rewrite app_length; cbn [length]; lia).
      split; [|split; [|rewrite !app_length; cbn [length]; lia]].
      - apply holds_snoc; [exact L| |exact V2]. now apply holds_snoc.
      - apply holds_snoc; [exact L| |exact W2]. now apply holds_snoc. }
    cbv beta in I2. destruct (loop m nmax (shcalc_gradients _ _ _ _ _) _) as [[gt1 gp1] j1]. destruct I2 as (K1 & K2 & K3).
    split; [exact G1|]. split; [exact G2|]. intros _. now split; [|split].
  - split; [exact G1|]. split; [exact G2|]. congruence.
Qed.

Lemma order_loop st : good (zonal (S nmax)) st ->
  good (harmonics nmax mmax) (loop 1 mmax (shcalc_order vecflag nmax p pbar vbar wbar) st).
Proof.
  intro H. rewrite <- before_all by lia.
  apply (loop_inv (fun m st => good (before nmax m m) st)); [lia|now rewrite before_first|].
  intros m s Hm G. apply order_step; [lia|exact G].
Qed.
End Shcalc.

Definition v00 (a : sh_arrays) : R := snd (fst (pvw a)) 0%nat 0%nat.

Lemma shcalc_spec vecflag nmax mmax t p a : (1 <= mmax <= nmax)%nat -> v00 a = 0 ->
  let a' := shcalc vecflag nmax mmax t p a in
  holds (is_value t p) (a_sh a') (harmonics nmax mmax) /\
  (vecflag = true -> holds (is_dtheta t p) (a_shgradtheta a') (harmonics nmax mmax) /\
    holds (is_dphi t p) (a_shgradphi a') (harmonics nmax mmax)).
Proof.
  intros H HV0. unfold shcalc. unfold v00 in HV0. destruct (pvw a) as [[P V] W]. cbn [fst snd] in HV0.
  pose proof (alfbasis_state nmax mmax t H P V W) as S. destruct (alfbasis nmax mmax t P V W) as [[pbar vbar] wbar].
  destruct S as (S1 & S2 & S3 & S4).
  assert (S5 : forall i, (i <= nmax)%nat -> is_derive (normalised i 0) t (vbar i 0%nat)).
  { intros i Hi. destruct i; [rewrite S4, HV0; apply dnormalised_00|apply S3; lia]. }
  assert (G : good t p vecflag (harmonics nmax mmax) (loop 1 mmax (shcalc_order vecflag nmax p pbar vbar wbar)
    (loop 0 nmax (shcalc_zonal pbar vbar) (a_sh a, a_shgradtheta a, a_shgradphi a, 0%nat, 0%nat)))).
  { eapply order_loop; eauto. eapply zonal_loop; eauto. }
  destruct (loop 1 mmax _ _) as [[[[sh gt] gp] i] i1]. destruct G as (G1 & _ & G3).
  cbn [a_sh a_shgradtheta a_shgradphi]. split; [exact G1|]. intro F. destruct (G3 F) as (G4 & G5 & _). now split.
Qed.

(** the element (0,0) of vbar is never changed *)
Lemma shcalc_v00 vecflag nmax mmax t p a : (1 <= mmax <= nmax)%nat -> v00 (shcalc vecflag nmax mmax t p a) = v00 a.
Proof.
  intro H. unfold shcalc, v00. destruct (pvw a) as [[P V] W].
  pose proof (alfbasis_state nmax mmax t H P V W) as S. destruct (alfbasis nmax mmax t P V W) as [[pbar vbar] wbar].
  destruct S as (_ & _ & _ & S). destruct (loop 1 mmax _ _) as [[[[sh gt] gp] i] i1]. exact S.
Qed.
