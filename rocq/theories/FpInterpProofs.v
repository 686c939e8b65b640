(** Proofs about the double precision interpolation. *)

From Coq Require Import Bool List Arith ZArith Reals Lra Lia.
From Flocq Require Import Core Relative Plus_error.
From Verif Require Import Ord ROrd BisectModel BisectSpec BisectProofs InterpModel InterpSpec InterpProofs
  SizeModel SizeProofs FpSpec FpProofs FpInterpModel.
Import ListNotations.
Open Scope R_scope.

Definition u : R := / 9007199254740992.
Definition eta : R := / 2 * bpow radix2 (-1074).

Lemma u_pos : 0 < u. Proof. unfold u. lra. Qed.
Lemma half_ulp_u : / 2 * bpow radix2 (-53 + 1) = u.
Proof. change (bpow radix2 (-53 + 1)) with (/ 4503599627370496). unfold u. lra. Qed.
Lemma eta_pos : 0 <= eta.
Proof. unfold eta. pose proof (bpow_ge_0 radix2 (-1074)). lra. Qed.
Lemma eta_small : eta <= / 100 * u.
Proof.
  unfold eta. apply Rle_trans with (/ 2 * bpow radix2 (-60)).
  - apply Rmult_le_compat_l; [lra|]. apply bpow_le. lia.
  - change (bpow radix2 (-60)) with (/ 1152921504606846976). unfold u. lra.
Qed.

(** Relative errors; sums and differences have no underflow *)
Lemma sum_err x y : fmt x -> fmt y -> exists e, Rabs e <= u /\ rnd (x + y) = (x + y) * (1 + e).
Proof.
  intros Hx Hy. destruct (FLT_plus_error_N_ex radix2 (-1074) 53 (fun x => negb (Z.even x)) x y Hx Hy) as (e & E & H).
  exists e. split; [|exact H]. eapply Rle_trans; [exact E|]. replace (u_ro radix2 53) with u by (symmetry; exact half_ulp_u). pose proof u_pos.
  apply (Rmult_le_reg_r (1 + u)); [lra|]. unfold Rdiv. rewrite Rmult_assoc, Rinv_l, Rmult_1_r by lra.
  assert (0 <= u * u) by (apply Rmult_le_pos; lra). lra.
Qed.

Lemma diff_err x y : fmt x -> fmt y -> exists e, Rabs e <= u /\ rnd (x - y) = (x - y) * (1 + e).
Proof. intros Hx Hy. apply (sum_err x (- y)); [exact Hx|apply generic_format_opp; exact Hy]. Qed.

Lemma prod_err x : exists e h, Rabs e <= u /\ Rabs h <= eta /\ rnd x = x * (1 + e) + h.
Proof.
  destruct (error_N_FLT radix2 (-1074) 53 ltac:(lia) (fun x => negb (Z.even x)) x) as (e & h & E & H & _ & R).
  exists e, h. split; [rewrite <- half_ulp_u; exact E|]. split; [exact H|exact R].
Qed.

(** The result of the two-point formula *)
Definition alpha_fl (ta tb t : R) : R := rnd (rnd (t - ta) / rnd (tb - ta)).
Definition blend (al ca cb : R) : R := rnd (rnd (rnd (1 - al) * ca) + rnd (al * cb)).

Lemma alpha_err ta tb t : fmt ta -> fmt tb -> fmt t -> ta < tb ->
  Rabs (alpha_fl ta tb t - (t - ta) / (tb - ta)) <= 4 * u * Rabs ((t - ta) / (tb - ta)) + eta.
Proof.
  intros Fa Fb Ft L. destruct (diff_err tb ta Fb Fa) as (e2 & E2 & R2).
  unfold alpha_fl. destruct (diff_err t ta Ft Fa) as (e1' & E1' & ->). rewrite R2.
  destruct (prod_err ((t - ta) * (1 + e1') / ((tb - ta) * (1 + e2)))) as (e3 & h & E3 & Hh & ->).
  assert (U : u = / 9007199254740992) by reflexivity. apply Rabs_le_inv in E1', E2, E3.
  set (a := (t - ta) / (tb - ta)).
  replace ((t - ta) * (1 + e1') / ((tb - ta) * (1 + e2)) * (1 + e3) + h - a)
    with (a * ((e1' + e3 + e1' * e3 - e2) / (1 + e2)) + h) by (unfold a; field; lra).
  eapply Rle_trans; [apply Rabs_triang|]. apply Rplus_le_compat; [|exact Hh].
  rewrite Rabs_mult, Rmult_comm. apply Rmult_le_compat_r; [apply Rabs_pos|].
  unfold Rdiv. rewrite Rabs_mult, (Rabs_pos_eq (/ (1 + e2))) by (left; apply Rinv_0_lt_compat; lra).
  apply (Rmult_le_reg_r (1 + e2)); [lra|]. rewrite Rmult_assoc, Rinv_l, Rmult_1_r by lra.
  assert (P : Rabs (e1' * e3) <= u * / 100).
  { rewrite Rabs_mult. apply Rmult_le_compat; try apply Rabs_pos; apply Rabs_le; lra. }
  apply Rabs_le_inv in P. apply Rle_trans with (301 / 100 * u).
  - apply Rabs_le. lra.
  - assert (4 * u * (1 - / 100) <= 4 * u * (1 + e2)) by (apply Rmult_le_compat_l; lra). lra.
Qed.

Lemma blend_err al a ca cb : fmt al -> fmt ca -> fmt cb -> Rabs (al - a) <= 4 * u * Rabs a + eta ->
  Rabs (blend al ca cb - ((1 - a) * ca + a * cb)) <=
    8 * u * (1 + Rabs a) * (Rabs ca + Rabs cb) + bpow radix2 (-1073).
Proof.
  intros Fal Fca Fcb Ea. unfold blend.
  assert (F1 : fmt 1) by (apply (int_fmt 1); lia).
  destruct (diff_err 1 al F1 Fal) as (e4 & E4 & ->). set (b0 := (1 - al) * (1 + e4)).
  pose proof u_pos as U0. pose proof eta_pos as H0. pose proof eta_small as H1.
  assert (U : u = / 9007199254740992) by reflexivity.
  set (A := Rabs a) in *. assert (A0 : 0 <= A) by apply Rabs_pos.
  assert (Ea' : Rabs (al - a) <= u * (4 * A + / 100)) by lra.
  assert (B1 : Rabs (1 - a) <= 1 + A).
  { unfold A. pose proof (Rabs_triang 1 (- a)). rewrite Rabs_Ropp, (Rabs_pos_eq 1) in H by lra. exact H. }
  assert (Eb : Rabs (b0 - (1 - a)) <= u * (502 / 100 * (1 + A))).
  { unfold b0. replace ((1 - al) * (1 + e4) - (1 - a)) with ((1 - a) * e4 + (- (al - a)) * (1 + e4)) by ring.
    eapply Rle_trans; [apply Rabs_triang|]. rewrite !Rabs_mult, Rabs_Ropp.
    assert (Rabs (1 + e4) <= 1 + / 1000).
    { apply Rabs_le_inv in E4. apply Rabs_le. lra. }
    apply Rle_trans with ((1 + A) * u + u * (4 * A + / 100) * (1 + / 1000)).
    - apply Rplus_le_compat; apply Rmult_le_compat; try apply Rabs_pos; assumption.
    - assert (0 <= u * A) by (apply Rmult_le_pos; lra). lra. }
  destruct (prod_err (b0 * ca)) as (e5 & h5 & E5 & Hh5 & Ep). destruct (prod_err (al * cb)) as (e6 & h6 & E6 & Hh6 & Eq).
  destruct (sum_err (rnd (b0 * ca)) (rnd (al * cb)) (rnd_fmt _) (rnd_fmt _)) as (e7 & E7 & ->).
  set (C0 := Rabs ca). set (C1 := Rabs cb). assert (C00 : 0 <= C0) by apply Rabs_pos. assert (C10 : 0 <= C1) by apply Rabs_pos.
  assert (P0 : Rabs (rnd (b0 * ca) - (1 - a) * ca) <= u * (603 / 100 * (1 + A)) * C0 + eta).
  { rewrite Ep. replace (b0 * ca * (1 + e5) + h5 - (1 - a) * ca) with (((b0 - (1 - a)) * (1 + e5) + (1 - a) * e5) * ca + h5) by ring.
    eapply Rle_trans; [apply Rabs_triang|]. apply Rplus_le_compat; [|exact Hh5]. rewrite Rabs_mult. apply Rmult_le_compat_r; [exact C00|].
    eapply Rle_trans; [apply Rabs_triang|]. rewrite !Rabs_mult.
    assert (Rabs (1 + e5) <= 1 + / 1000) by (apply Rabs_le_inv in E5; apply Rabs_le; lra).
    apply Rle_trans with (u * (502 / 100 * (1 + A)) * (1 + / 1000) + (1 + A) * u).
    - apply Rplus_le_compat; apply Rmult_le_compat; try apply Rabs_pos; assumption.
    - assert (0 <= u * A) by (apply Rmult_le_pos; lra). lra. }
  assert (P1 : Rabs (rnd (al * cb) - a * cb) <= u * (603 / 100 * (1 + A)) * C1 + eta).
  { rewrite Eq. replace (al * cb * (1 + e6) + h6 - a * cb) with (((al - a) * (1 + e6) + a * e6) * cb + h6) by ring.
    eapply Rle_trans; [apply Rabs_triang|]. apply Rplus_le_compat; [|exact Hh6]. rewrite Rabs_mult. apply Rmult_le_compat_r; [exact C10|].
    eapply Rle_trans; [apply Rabs_triang|]. rewrite !Rabs_mult. fold A.
    assert (Rabs (1 + e6) <= 1 + / 1000) by (apply Rabs_le_inv in E6; apply Rabs_le; lra).
    apply Rle_trans with (u * (4 * A + / 100) * (1 + / 1000) + A * u).
    - apply Rplus_le_compat; apply Rmult_le_compat; try apply Rabs_pos; try assumption; apply Rle_refl.
    - assert (0 <= u * A) by (apply Rmult_le_pos; lra). lra. }
  set (p0 := rnd (b0 * ca)) in *. set (p1 := rnd (al * cb)) in *.
  set (X := (1 + A) * (C0 + C1)). assert (X0 : 0 <= X) by (apply Rmult_le_pos; lra).
  assert (S1 : Rabs (p0 + p1 - ((1 - a) * ca + a * cb)) <= u * (603 / 100) * X + 2 * eta).
  { replace (p0 + p1 - ((1 - a) * ca + a * cb)) with ((p0 - (1 - a) * ca) + (p1 - a * cb)) by ring.
    eapply Rle_trans; [apply Rabs_triang|]. unfold X. lra. }
  assert (S2 : Rabs ((1 - a) * ca + a * cb) <= X).
  { eapply Rle_trans; [apply Rabs_triang|]. rewrite !Rabs_mult. fold A C0 C1. unfold X.
    assert (Rabs (1 - a) * C0 <= (1 + A) * C0) by (apply Rmult_le_compat_r; assumption).
    assert (A * C1 <= (1 + A) * C1) by (apply Rmult_le_compat_r; lra). lra. }
  assert (UX : 0 <= u * X) by (apply Rmult_le_pos; lra).
  assert (S3 : Rabs (p0 + p1) <= 2 * X + 2 * eta).
  { replace (p0 + p1) with ((p0 + p1 - ((1 - a) * ca + a * cb)) + ((1 - a) * ca + a * cb)) by ring.
    eapply Rle_trans; [apply Rabs_triang|]. assert (u * (603 / 100) * X <= 1 * X) by (apply Rmult_le_compat_r; lra). lra. }
  assert (S4 : Rabs ((p0 + p1) * e7) <= u * (109 / 100) * X + eta).
  { rewrite Rabs_mult, Rmult_comm. apply Rle_trans with (u * Rabs (p0 + p1)); [apply Rmult_le_compat_r; [apply Rabs_pos|exact E7]|].
    assert (Rabs (p0 + p1) <= (1 + u * (603 / 100)) * X + 2 * eta).
    { replace (p0 + p1) with ((p0 + p1 - ((1 - a) * ca + a * cb)) + ((1 - a) * ca + a * cb)) by ring.
      eapply Rle_trans; [apply Rabs_triang|]. lra. }
    apply Rle_trans with (u * ((1 + u * (603 / 100)) * X + 2 * eta)); [apply Rmult_le_compat_l; lra|].
    assert ((1 + u * (603 / 100)) * (u * X) <= (109 / 100) * (u * X)) by (apply Rmult_le_compat_r; lra).
    assert (u * (2 * eta) <= / 2 * (2 * eta)) by (apply Rmult_le_compat_r; lra). lra. }
  replace ((p0 + p1) * (1 + e7) - ((1 - a) * ca + a * cb)) with ((p0 + p1 - ((1 - a) * ca + a * cb)) + (p0 + p1) * e7) by ring.
  eapply Rle_trans; [apply Rabs_triang|].
  replace (bpow radix2 (-1073)) with (4 * eta).
  - replace (8 * u * (1 + A) * (C0 + C1)) with (8 * (u * X)) by (unfold X; ring). lra.
  - unfold eta. change (-1073)%Z with (1 + -1074)%Z. rewrite bpow_plus. change (bpow radix2 1) with 2. lra.
Qed.

(** Exact at the ends of the segment *)
Lemma rnd_diff_neq x y : fmt x -> fmt y -> y < x -> rnd (x - y) <> 0.
Proof.
  intros Fx Fy L. destruct (diff_err x y Fx Fy) as (e & E & ->). apply Rabs_le_inv in E. unfold u in E.
  apply Rmult_integral_contrapositive. split; lra.
Qed.

Lemma blend_left ta tb ca cb : fmt ca -> blend (alpha_fl ta tb ta) ca cb = ca.
Proof.
  intro F. unfold blend, alpha_fl. replace (ta - ta) with 0 by ring. rewrite rnd_0.
  unfold Rdiv. rewrite Rmult_0_l, rnd_0, Rminus_0_r, (rnd_int 1), Rmult_1_l, (rnd_id ca F), Rmult_0_l, rnd_0, Rplus_0_r by lia.
  apply rnd_id. exact F.
Qed.

Lemma blend_right ta tb ca cb : fmt ta -> fmt tb -> ta < tb -> fmt cb -> blend (alpha_fl ta tb tb) ca cb = cb.
Proof.
  intros Fa Fb L F. unfold blend, alpha_fl. unfold Rdiv. rewrite Rinv_r by (apply rnd_diff_neq; assumption).
  rewrite (rnd_int 1) by lia. replace (1 - 1) with 0 by ring.
  rewrite rnd_0, Rmult_0_l, rnd_0, Rmult_1_l, (rnd_id cb F), Rplus_0_l.
  apply rnd_id. exact F.
Qed.

(** ** The interpolated series *)

Lemma interp1_fl_seg t0 c0 t i k ta ca tb cb extrapolate last :
  bisect_right (Some t) t0 = Some i -> clip i 0 (Z.of_nat (length t0) - 2) = Z.of_nat k ->
  segment t0 c0 k ta ca tb cb -> is_last (Some t) t0 = Some last ->
  interp_one_fl t0 c0 INTERP_C1 extrapolate (Some t) =
    Some (if extrapolate || (i =? Z.of_nat k)%Z || last then Some (blend (alpha_fl ta tb t) ca cb) else None).
Proof.
  intros Eb Ec (S1 & S2 & S3 & S4) El. unfold interp_one_fl, get_interp_basis_fl, get_interp1_basis_fl.
  rewrite Eb, Ec, El. replace (Z.of_nat k + 1)%Z with (Z.of_nat (S k)) by lia.
  rewrite !aread_of_nat, S1, S3. cbn [b_i0 b_i].
  destruct (extrapolate || (i =? Z.of_nat k)%Z || last); [|reflexivity].
  unfold interp_eval_fl, interp1_eval_fl. cbn [b_i b_0 b_1].
  replace (Z.of_nat k + 1)%Z with (Z.of_nat (S k)) by lia.
  rewrite !aread_of_nat, S2, S4. reflexivity.
Qed.

Lemma interp1d1_fl_seg t0 c0 t i k ta ca tb cb extrapolate last :
  bisect_right (Some t) t0 = Some i -> clip i 0 (Z.of_nat (length t0) - 2) = Z.of_nat k ->
  segment t0 c0 k ta ca tb cb -> is_last (Some t) t0 = Some last ->
  interp_one_fl t0 c0 INTERP_C1D1 extrapolate (Some t) =
    Some (if extrapolate || (i =? Z.of_nat k)%Z || last
          then Some (rnd (rnd (- rnd (1 / rnd (tb - ta)) * ca) + rnd (rnd (1 / rnd (tb - ta)) * cb))) else None).
Proof.
  intros Eb Ec (S1 & S2 & S3 & S4) El. unfold interp_one_fl, get_interp_basis_fl, get_interp1d1_basis_fl.
  rewrite Eb, Ec, El. replace (Z.of_nat k + 1)%Z with (Z.of_nat (S k)) by lia.
  rewrite !aread_of_nat, S1, S3. cbn [b_i0 b_i].
  destruct (extrapolate || (i =? Z.of_nat k)%Z || last); [|reflexivity].
  unfold interp_eval_fl, interp1_eval_fl. cbn [b_i b_0 b_1].
  replace (Z.of_nat k + 1)%Z with (Z.of_nat (S k)) by lia.
  rewrite !aread_of_nat, S2, S4. reflexivity.
Qed.

(** Where a time is: its interval and the segment used *)
Lemma locate t0 c0 t : increasing t0 -> length c0 = length t0 -> (2 <= length t0)%nat ->
  exists i k ta ca tb cb last, bisect_right (Some t) t0 = Some i /\
    clip i 0 (Z.of_nat (length t0) - 2) = Z.of_nat k /\ segment t0 c0 k ta ca tb cb /\
    is_last (Some t) t0 = Some last /\
    ((ta <= t < tb /\ (i =? Z.of_nat k)%Z || last = true) \/
     (t = tb /\ S (S k) = length t0 /\ (i =? Z.of_nat k)%Z || last = true) \/
     (t < ta /\ k = 0%nat /\ (i =? Z.of_nat k)%Z || last = false) \/
     (tb < t /\ S (S k) = length t0 /\ (i =? Z.of_nat k)%Z || last = false)).
Proof.
  intros I L N. destruct (bisect_R t0 t (increasing_sorted _ I)) as (i & Eb & B & H).
  destruct (is_last_R t0 t) as (z & Hz & El); [intros ->; simpl in N; lia|].
  destruct (nodes_below t0 t I N) as [(ta & Ha & T)|[(k & ta & tb & Ha & Hb & T)|(tl & Hl & T)]].
  - assert (i = (-1)%Z) as -> by (apply (before_index t0 t i ta); auto; lia).
    destruct (segment_ex t0 c0 0 L) as (ta' & ca & tb & cb & S); [lia|]. pose proof S as (S1 & _).
    assert (ta' = ta) as -> by congruence.
    assert (ta < z) by (apply (I 0%nat (length t0 - 1)%nat); auto; lia).
    exists (-1)%Z, 0%nat, ta, ca, tb, cb, (Reqb t z). do 4 (split; [auto|]).
    right. right. left. split; [exact T|]. split; [reflexivity|].
    assert (Reqb t z = false) as -> by (apply Reqb_neq; lra). reflexivity.
  - pose proof (seg_len _ _ _ Hb) as Hk. assert (i = Z.of_nat k) as -> by (apply (seg_index t0 t i k ta tb); auto; lra).
    destruct (segment_ex t0 c0 k L Hk) as (ta' & ca & tb' & cb & S). pose proof S as (S1 & _ & S3 & _).
    assert (ta' = ta) as -> by congruence. assert (tb' = tb) as -> by congruence.
    exists (Z.of_nat k), k, ta, ca, tb, cb, (Reqb t z).
    assert (Cl : clip (Z.of_nat k) 0 (Z.of_nat (length t0) - 2) = Z.of_nat k).
    { unfold clip. destruct (Z.ltb_spec (Z.of_nat k) 0); [lia|].
      destruct (Z.ltb_spec (Z.of_nat (length t0) - 2) (Z.of_nat k)); lia. }
    do 4 (split; [auto|]). left. split; [exact T|]. rewrite Z.eqb_refl. reflexivity.
  - assert (Hi : i = Z.of_nat (length t0 - 1)) by (assert (Z.of_nat (length t0 - 1) <= i)%Z by (apply (H _ _ Hl); exact T); lia).
    set (k := (length t0 - 2)%nat). assert (Hk : (S k < length t0)%nat) by (unfold k; lia).
    destruct (segment_ex t0 c0 k L Hk) as (ta & ca & tb & cb & S). pose proof S as (S1 & _ & S3 & _).
    replace (Datatypes.S k) with (length t0 - 1)%nat in S3 by (unfold k; lia).
    assert (tb = tl) as -> by congruence. assert (z = tl) as -> by congruence.
    exists i, k, ta, ca, tl, cb, (Reqb t tl).
    assert (Cl : clip i 0 (Z.of_nat (length t0) - 2) = Z.of_nat k).
    { rewrite Hi. unfold clip. destruct (Z.ltb_spec (Z.of_nat (length t0 - 1)) 0); [lia|].
      destruct (Z.ltb_spec (Z.of_nat (length t0) - 2) (Z.of_nat (length t0 - 1))); unfold k; lia. }
    do 4 (split; [auto|]).
    + assert ((i =? Z.of_nat k)%Z = false) as -> by (apply Z.eqb_neq; unfold k; lia). right.
      destruct (Req_dec t tl) as [E|E].
      * left. split; [exact E|]. split; [unfold k; lia|]. apply Reqb_eq in E. rewrite E. reflexivity.
      * right. right. split; [lra|]. split; [unfold k; lia|]. assert (Reqb t tl = false) as -> by (apply Reqb_neq; exact E). reflexivity.
Qed.

Lemma doubles_fmt v k a : doubles v -> nth_error v k = Some a -> fmt a.
Proof. intros D E. apply double_fmt. unfold doubles in D. rewrite List.Forall_forall in D. apply D. eapply nth_error_In; eauto. Qed.

Lemma seg_fmt t0 c0 k ta ca tb cb : doubles t0 -> doubles c0 -> segment t0 c0 k ta ca tb cb -> fmt ta /\ fmt ca /\ fmt tb /\ fmt cb.
Proof. intros D D' (S1 & S2 & S3 & S4). split; [|split; [|split]]; [exact (doubles_fmt _ _ _ D S1)|exact (doubles_fmt _ _ _ D' S2)|exact (doubles_fmt _ _ _ D S3)|exact (doubles_fmt _ _ _ D' S4)]. Qed.

Lemma pow_m50 : powerRZ 2 (-50) = 8 * u.
Proof. rewrite <- bpow_powerRZ. change (bpow radix2 (-50)) with (/ 1125899906842624). unfold u. lra. Qed.

Lemma blend_line ta tb t ca cb : fmt ta -> fmt tb -> fmt t -> fmt ca -> fmt cb -> ta < tb ->
  Rabs (blend (alpha_fl ta tb t) ca cb - line ta ca tb cb t) <=
    powerRZ 2 (-50) * (1 + Rabs ((t - ta) / (tb - ta))) * (Rabs ca + Rabs cb) + powerRZ 2 (-1073).
Proof.
  intros Fa Fb Ft Fca Fcb L. rewrite <- line_form by exact L. rewrite pow_m50, <- bpow_powerRZ. apply blend_err; auto; [apply rnd_fmt|].
  apply alpha_err; assumption.
Qed.

Lemma seg_unique t0 c0 k k' ta ca tb cb ta' ca' tb' cb' t : increasing t0 ->
  segment t0 c0 k ta ca tb cb -> segment t0 c0 k' ta' ca' tb' cb' -> ta <= t < tb -> ta' <= t < tb' -> k = k'.
Proof.
  intros I (S1 & _ & S3 & _) (S1' & _ & S3' & _) T T'.
  destruct (Nat.lt_trichotomy k k') as [H|[H|H]]; [exfalso|exact H|exfalso].
  - destruct (Nat.eq_dec (S k) k') as [E|E]; [rewrite E in S3; assert (tb = ta') by congruence; lra|].
    pose proof (I (S k) k' _ _ ltac:(lia) S3 S1'). lra.
  - destruct (Nat.eq_dec (S k') k) as [E|E]; [rewrite E in S3'; assert (tb' = ta) by congruence; lra|].
    pose proof (I (S k') k _ _ ltac:(lia) S3' S1). lra.
Qed.

(** At a node *)
Lemma fl_node t0 c0 extrapolate k tk ck :
  increasing t0 -> length c0 = length t0 -> (2 <= length t0)%nat -> doubles t0 -> doubles c0 ->
  nth_error t0 k = Some tk -> nth_error c0 k = Some ck ->
  interp_one_fl t0 c0 INTERP_C1 extrapolate (Some tk) = Some (Some ck).
Proof.
  intros I L N D D' Ht Hc. destruct (locate t0 c0 tk I L N) as (i & j & ta & ca & tb & cb & last & Eb & Ec & S & El & C).
  rewrite (interp1_fl_seg t0 c0 tk i j ta ca tb cb extrapolate last Eb Ec S El).
  pose proof (segment_lt _ _ _ _ _ _ _ I S) as Lt. destruct (seg_fmt _ _ _ _ _ _ _ D D' S) as (Fa & Fca & Fb & Fcb).
  pose proof S as (S1 & S2 & S3 & S4).
  assert (Hk : (k < length t0)%nat) by (apply nth_error_Some; congruence).
  destruct C as [(T & F)|[(T & Hl & F)|[(T & Hj & F)|(T & Hl & F)]]].
  - assert (E : k = j).
    { destruct (Nat.lt_trichotomy k j) as [H|[H|H]]; [exfalso|exact H|exfalso].
      - pose proof (I k j _ _ H Ht S1). lra.
      - destruct (Nat.eq_dec k (Datatypes.S j)) as [E|E]; [rewrite E in Ht; assert (tk = tb) by congruence; lra|].
        pose proof (I (Datatypes.S j) k _ _ ltac:(lia) S3 Ht). lra. }
    subst j. assert (tk = ta) as -> by congruence. assert (ck = ca) as -> by congruence.
    rewrite <- orb_assoc, F, orb_true_r. rewrite blend_left by exact Fca. reflexivity.
  - assert (E : k = Datatypes.S j).
    { destruct (Nat.eq_dec k (Datatypes.S j)) as [E|E]; [exact E|exfalso].
      pose proof (I k (Datatypes.S j) _ _ ltac:(lia) Ht S3). lra. }
    subst k. assert (ck = cb) as -> by congruence. rewrite <- orb_assoc, F, orb_true_r, T.
    rewrite blend_right by assumption. reflexivity.
  - exfalso. subst j. destruct k as [|k]; [assert (tk = ta) by congruence; lra|].
    pose proof (I 0%nat (Datatypes.S k) _ _ ltac:(lia) S1 Ht). lra.
  - exfalso. destruct (Nat.eq_dec k (Datatypes.S j)) as [E|E]; [rewrite E in Ht; assert (tk = tb) by congruence; lra|].
    pose proof (I k (Datatypes.S j) _ _ ltac:(lia) Ht S3). lra.
Qed.

(** Between two nodes *)
Lemma fl_between t0 c0 extrapolate t k ta ca tb cb :
  increasing t0 -> length c0 = length t0 -> doubles t0 -> doubles c0 -> double t ->
  segment t0 c0 k ta ca tb cb -> ta <= t <= tb ->
  exists r, interp_one_fl t0 c0 INTERP_C1 extrapolate (Some t) = Some (Some r) /\
    Rabs (r - line ta ca tb cb t) <= powerRZ 2 (-49) * (Rabs ca + Rabs cb) + powerRZ 2 (-1073).
Proof.
  intros I L D D' Dt S T. pose proof (segment_lt _ _ _ _ _ _ _ I S) as Lt.
  destruct (seg_fmt _ _ _ _ _ _ _ D D' S) as (Fa & Fca & Fb & Fcb). apply double_fmt in Dt.
  pose proof S as (S1 & S2 & S3 & S4). pose proof (seg_len _ _ _ S3) as Hk.
  assert (P : powerRZ 2 (-49) = 2 * powerRZ 2 (-50)).
  { rewrite <- !bpow_powerRZ. change (-49)%Z with (1 + -50)%Z. rewrite bpow_plus. reflexivity. }
  assert (P0 : 0 < powerRZ 2 (-50)) by (apply powerRZ_lt; lra).
  assert (P1 : 0 < powerRZ 2 (-1073)) by (apply powerRZ_lt; lra).
  assert (C0 : 0 <= Rabs ca + Rabs cb) by (pose proof (Rabs_pos ca); pose proof (Rabs_pos cb); lra).
  destruct (Req_dec t tb) as [E|E].
  - subst t. exists cb. rewrite (fl_node t0 c0 extrapolate (Datatypes.S k) tb cb I L ltac:(lia) D D' S3 S4). split; [reflexivity|].
    replace (line ta ca tb cb tb) with cb by (unfold line; field; lra). rewrite Rminus_diag_eq by reflexivity. rewrite Rabs_R0.
    assert (0 <= powerRZ 2 (-49) * (Rabs ca + Rabs cb)) by (apply Rmult_le_pos; lra). lra.
  - destruct (locate t0 c0 t I L ltac:(lia)) as (i & j & ta' & ca' & tb' & cb' & last & Eb & Ec & S' & El & C).
    pose proof S' as (S1' & S2' & S3' & S4').
    assert (X : j = k /\ (i =? Z.of_nat j)%Z || last = true).
    { destruct C as [(T' & F)|[(T' & Hl & F)|[(T' & Hj & F)|(T' & Hl & F)]]].
      - split; [|exact F]. apply (seg_unique t0 c0 j k ta' ca' tb' cb' ta ca tb cb t); auto; lra.
      - exfalso. destruct (Nat.eq_dec (Datatypes.S k) (Datatypes.S j)) as [X|X]; [rewrite X in S3; assert (tb = tb') by congruence; lra|].
        pose proof (I (Datatypes.S k) (Datatypes.S j) _ _ ltac:(lia) S3 S3'). lra.
      - exfalso. subst j. destruct k as [|k]; [assert (ta = ta') by congruence; lra|].
        pose proof (I 0%nat (Datatypes.S k) _ _ ltac:(lia) S1' S1). lra.
      - exfalso. destruct (Nat.eq_dec (Datatypes.S k) (Datatypes.S j)) as [X|X]; [rewrite X in S3; assert (tb = tb') by congruence; lra|].
        pose proof (I (Datatypes.S k) (Datatypes.S j) _ _ ltac:(lia) S3 S3'). lra. }
    destruct X as [-> F]. assert (ta' = ta) as -> by congruence. assert (tb' = tb) as -> by congruence.
    assert (ca' = ca) as -> by congruence. assert (cb' = cb) as -> by congruence.
    rewrite (interp1_fl_seg t0 c0 t i k ta ca tb cb extrapolate last Eb Ec S El), <- orb_assoc, F, orb_true_r.
    eexists. split; [reflexivity|]. eapply Rle_trans; [apply blend_line; assumption|].
    apply Rplus_le_compat_r, Rmult_le_compat_r; [exact C0|]. rewrite P, Rmult_comm. apply Rmult_le_compat_r; [lra|].
    assert (Rabs ((t - ta) / (tb - ta)) <= 1); [|lra]. apply Rabs_le.
    assert (0 <= (t - ta) / (tb - ta)) by (apply Rmult_le_pos; [lra|left; apply Rinv_0_lt_compat; lra]).
    split; [lra|]. apply (Rmult_le_reg_r (tb - ta)); [lra|]. unfold Rdiv. rewrite Rmult_assoc, Rinv_l by lra. lra.
Qed.

(** Outside of the nodes *)
Lemma fl_before t0 c0 (extrapolate : bool) t ta ca tb cb :
  increasing t0 -> length c0 = length t0 -> doubles t0 -> doubles c0 -> double t ->
  segment t0 c0 0 ta ca tb cb -> t < ta ->
  if extrapolate then exists r, interp_one_fl t0 c0 INTERP_C1 true (Some t) = Some (Some r) /\
    Rabs (r - line ta ca tb cb t) <=
      powerRZ 2 (-50) * (1 + Rabs ((t - ta) / (tb - ta))) * (Rabs ca + Rabs cb) + powerRZ 2 (-1073)
  else interp_one_fl t0 c0 INTERP_C1 false (Some t) = Some None.
Proof.
  intros I L D D' Dt S T. pose proof (segment_lt _ _ _ _ _ _ _ I S) as Lt.
  destruct (seg_fmt _ _ _ _ _ _ _ D D' S) as (Fa & Fca & Fb & Fcb). apply double_fmt in Dt.
  pose proof S as (S1 & S2 & S3 & S4). pose proof (seg_len _ _ _ S3) as Hk.
  destruct (locate t0 c0 t I L ltac:(lia)) as (i & j & ta' & ca' & tb' & cb' & last & Eb & Ec & S' & El & C).
  pose proof (segment_lt _ _ _ _ _ _ _ I S') as Lt'. pose proof S' as (S1' & S2' & S3' & S4').
  assert (Hle : ta <= ta') by (destruct j as [|j]; [assert (ta = ta') by congruence; lra|];
    pose proof (I 0%nat (Datatypes.S j) _ _ ltac:(lia) S1 S1'); lra).
  destruct C as [(T' & F)|[(T' & Hl & F)|[(T' & Hj & F)|(T' & Hl & F)]]]; try (exfalso; lra).
  subst j. assert (ta' = ta) as -> by congruence. assert (tb' = tb) as -> by congruence.
  assert (ca' = ca) as -> by congruence. assert (cb' = cb) as -> by congruence.
  destruct extrapolate.
  - rewrite (interp1_fl_seg t0 c0 t i 0 ta ca tb cb true last Eb Ec S El). eexists. split; [reflexivity|]. apply blend_line; assumption.
  - rewrite (interp1_fl_seg t0 c0 t i 0 ta ca tb cb false last Eb Ec S El), <- orb_assoc, F. reflexivity.
Qed.

Lemma fl_after t0 c0 (extrapolate : bool) t k ta ca tb cb :
  increasing t0 -> length c0 = length t0 -> doubles t0 -> doubles c0 -> double t -> S (S k) = length t0 ->
  segment t0 c0 k ta ca tb cb -> tb < t ->
  if extrapolate then exists r, interp_one_fl t0 c0 INTERP_C1 true (Some t) = Some (Some r) /\
    Rabs (r - line ta ca tb cb t) <=
      powerRZ 2 (-50) * (1 + Rabs ((t - ta) / (tb - ta))) * (Rabs ca + Rabs cb) + powerRZ 2 (-1073)
  else interp_one_fl t0 c0 INTERP_C1 false (Some t) = Some None.
Proof.
  intros I L D D' Dt Hk S T. pose proof (segment_lt _ _ _ _ _ _ _ I S) as Lt.
  destruct (seg_fmt _ _ _ _ _ _ _ D D' S) as (Fa & Fca & Fb & Fcb). apply double_fmt in Dt.
  pose proof S as (S1 & S2 & S3 & S4).
  destruct (locate t0 c0 t I L ltac:(lia)) as (i & j & ta' & ca' & tb' & cb' & last & Eb & Ec & S' & El & C).
  pose proof (segment_lt _ _ _ _ _ _ _ I S') as Lt'. pose proof S' as (S1' & S2' & S3' & S4').
  assert (Hj : (Datatypes.S j < length t0)%nat) by (apply nth_error_Some; congruence).
  assert (Hle : tb' <= tb) by (destruct (Nat.eq_dec j k) as [->|X]; [assert (tb = tb') by congruence; lra|];
    pose proof (I (Datatypes.S j) (Datatypes.S k) _ _ ltac:(lia) S3' S3); lra).
  destruct C as [(T' & F)|[(T' & Hl & F)|[(T' & Hj' & F)|(T' & Hl & F)]]]; try (exfalso; lra).
  assert (j = k) as -> by lia. assert (ta' = ta) as -> by congruence. assert (tb' = tb) as -> by congruence.
  assert (ca' = ca) as -> by congruence. assert (cb' = cb) as -> by congruence.
  destruct extrapolate.
  - rewrite (interp1_fl_seg t0 c0 t i k ta ca tb cb true last Eb Ec S El). eexists. split; [reflexivity|]. apply blend_line; assumption.
  - rewrite (interp1_fl_seg t0 c0 t i k ta ca tb cb false last Eb Ec S El), <- orb_assoc, F. reflexivity.
Qed.

Lemma fl_nan t0 c0 kind extrapolate : length c0 = length t0 -> (2 <= length t0)%nat ->
  kind = INTERP_C1 -> interp_one_fl t0 c0 kind extrapolate None = Some None.
Proof.
  intros L N ->. unfold interp_one_fl, get_interp_basis_fl, get_interp1_basis_fl. rewrite bisect_right_nan.
  destruct (segment_ex t0 c0 0 L) as (ta & ca & tb & cb & S1 & S2 & S3 & S4); [lia|].
  assert (clip (-1) 0 (Z.of_nat (length t0) - 2) = 0%Z) as -> by reflexivity.
  change (aread t0 0) with (nth_error t0 0). change (aread t0 (0 + 1)) with (nth_error t0 1).
  rewrite S1, S3, is_last_nan by (intros ->; discriminate). cbn [b_i0 b_i].
  destruct (extrapolate || (-1 =? 0)%Z || false); [|reflexivity].
  unfold interp_eval_fl, interp1_eval_fl. cbn [b_i b_0 b_1].
  change (aread c0 0) with (nth_error c0 0). change (aread c0 (0 + 1)) with (nth_error c0 1).
  rewrite S2, S4. reflexivity.
Qed.

(** The constant kind has no rounding *)
Lemma fl_constant t0 c0 extrapolate t : interp_one_fl t0 c0 INTERP_C0 extrapolate t = interp_one t0 c0 INTERP_C0 extrapolate t.
Proof. reflexivity. Qed.

(** ** The derivative *)

Definition slope_fl (ta tb ca cb : R) : R :=
  rnd (rnd (- rnd (1 / rnd (tb - ta)) * ca) + rnd (rnd (1 / rnd (tb - ta)) * cb)).

(** the reciprocal has no underflow for lengths that are not extreme *)
Lemma recip_err d : bpow radix2 (-1000) <= d <= bpow radix2 1000 -> exists e, Rabs e <= u /\ rnd (1 / d) = 1 / d * (1 + e).
Proof.
  intros [D1 D2]. assert (P : 0 < d) by (pose proof (bpow_gt_0 radix2 (-1000)); lra).
  assert (B : bpow radix2 (-1000) <= Rabs (1 / d)).
  { rewrite Rabs_pos_eq by (apply Rmult_le_pos; [lra|left; apply Rinv_0_lt_compat; exact P]).
    apply (Rmult_le_reg_r d); [exact P|]. unfold Rdiv. rewrite Rmult_assoc, Rinv_l, Rmult_1_r by lra.
    apply Rle_trans with (bpow radix2 (-1000) * bpow radix2 1000); [apply Rmult_le_compat_l; [apply bpow_ge_0|exact D2]|].
    rewrite <- bpow_plus. apply Req_le. reflexivity. }
  destruct (relative_error_N_FLT_ex radix2 (-1074) 53 ltac:(lia) (fun x => negb (Z.even x)) (1 / d)) as (e & E & R).
  - eapply Rle_trans; [|exact B]. apply bpow_le. lia.
  - exists e. split; [rewrite <- half_ulp_u; exact E|exact R].
Qed.

Lemma slope_err ta tb ca cb : fmt ta -> fmt tb -> fmt ca -> fmt cb ->
  powerRZ 2 (-990) <= tb - ta <= powerRZ 2 990 ->
  Rabs (slope_fl ta tb ca cb - (cb - ca) / (tb - ta)) <=
    powerRZ 2 (-50) * (Rabs ca + Rabs cb) / (tb - ta) + powerRZ 2 (-1073).
Proof.
  intros Fa Fb Fca Fcb Hd. rewrite <- !bpow_powerRZ in Hd. rewrite pow_m50, <- bpow_powerRZ. unfold slope_fl.
  destruct (diff_err tb ta Fb Fa) as (e2 & E2 & ->). set (d := tb - ta) in *.
  pose proof u_pos as U0. pose proof eta_pos as H0. pose proof eta_small as H1.
  assert (U : u = / 9007199254740992) by reflexivity.
  assert (P : 0 < d) by (pose proof (bpow_gt_0 radix2 (-990)); lra).
  apply Rabs_le_inv in E2.
  assert (B1 : bpow radix2 (-1000) <= d * (1 + e2)).
  { apply Rle_trans with (bpow radix2 (-990) * bpow radix2 (-10)).
    - rewrite <- bpow_plus. apply Req_le. reflexivity.
    - apply Rmult_le_compat; try apply bpow_ge_0; [lra|]. change (bpow radix2 (-10)) with (/ 1024). lra. }
  assert (B2 : d * (1 + e2) <= bpow radix2 1000).
  { apply Rle_trans with (bpow radix2 990 * bpow radix2 10).
    - apply Rmult_le_compat; try lra. change (bpow radix2 10) with 1024. lra.
    - rewrite <- bpow_plus. apply Req_le. reflexivity. }
  destruct (recip_err _ (conj B1 B2)) as (e3 & E3 & R3). rewrite R3. apply Rabs_le_inv in E3.
  set (al := 1 / (d * (1 + e2)) * (1 + e3)).
  assert (Ea : Rabs (al - / d) <= 201 / 100 * u * / d).
  { unfold al. replace (1 / (d * (1 + e2)) * (1 + e3) - / d) with ((e3 - e2) / (1 + e2) * / d) by (field; lra).
    rewrite Rabs_mult, (Rabs_pos_eq (/ d)) by (left; apply Rinv_0_lt_compat; exact P).
    apply Rmult_le_compat_r; [left; apply Rinv_0_lt_compat; exact P|]. unfold Rdiv.
    rewrite Rabs_mult, (Rabs_pos_eq (/ (1 + e2))) by (left; apply Rinv_0_lt_compat; lra).
    apply (Rmult_le_reg_r (1 + e2)); [lra|]. rewrite Rmult_assoc, Rinv_l, Rmult_1_r by lra.
    apply Rle_trans with (2 * u); [apply Rabs_le; lra|].
    assert (201 / 100 * u * (1 - / 1000) <= 201 / 100 * u * (1 + e2)) by (apply Rmult_le_compat_l; lra). lra. }
  assert (I0 : 0 < / d) by (apply Rinv_0_lt_compat; exact P).
  assert (Aal : Rabs al <= 101 / 100 * / d).
  { replace al with ((al - / d) + / d) by ring. eapply Rle_trans; [apply Rabs_triang|]. rewrite (Rabs_pos_eq (/ d)) by lra.
    assert (201 / 100 * u * / d <= / 100 * / d) by (apply Rmult_le_compat_r; lra). lra. }
  destruct (prod_err (- al * ca)) as (e5 & h5 & E5 & Hh5 & Ep). destruct (prod_err (al * cb)) as (e6 & h6 & E6 & Hh6 & Eq).
  destruct (sum_err (rnd (- al * ca)) (rnd (al * cb)) (rnd_fmt _) (rnd_fmt _)) as (e7 & E7 & ->).
  set (C0 := Rabs ca). set (C1 := Rabs cb). assert (C00 : 0 <= C0) by apply Rabs_pos. assert (C10 : 0 <= C1) by apply Rabs_pos.
  assert (G : forall c e h p, Rabs e <= u -> Rabs h <= eta -> p = al * c * (1 + e) + h ->
    Rabs (p - / d * c) <= 303 / 100 * u * / d * Rabs c + eta).
  { intros c e h p Ee Eh ->. replace (al * c * (1 + e) + h - / d * c) with (((al - / d) + al * e) * c + h) by ring.
    eapply Rle_trans; [apply Rabs_triang|]. apply Rplus_le_compat; [|exact Eh]. rewrite Rabs_mult. apply Rmult_le_compat_r; [apply Rabs_pos|].
    eapply Rle_trans; [apply Rabs_triang|]. rewrite Rabs_mult.
    assert (Rabs al * Rabs e <= 101 / 100 * / d * u) by (apply Rmult_le_compat; try apply Rabs_pos; assumption).
    assert (0 <= u * / d) by (apply Rmult_le_pos; lra). lra. }
  assert (P0 := G (- ca) e5 h5 (rnd (- al * ca)) E5 Hh5 ltac:(rewrite Ep; ring)). rewrite Rabs_Ropp in P0. fold C0 in P0.
  assert (P1 := G cb e6 h6 (rnd (al * cb)) E6 Hh6 Eq). fold C1 in P1.
  set (p0 := rnd (- al * ca)) in *. set (p1 := rnd (al * cb)) in *.
  set (X := / d * (C0 + C1)). assert (X0 : 0 <= X) by (apply Rmult_le_pos; lra).
  set (sl := (cb - ca) / d).
  assert (Esl : sl = / d * (- ca) + / d * cb) by (unfold sl; field; lra).
  assert (S1 : Rabs (p0 + p1 - sl) <= 303 / 100 * u * X + 2 * eta).
  { rewrite Esl. replace (p0 + p1 - (/ d * (- ca) + / d * cb)) with ((p0 - / d * (- ca)) + (p1 - / d * cb)) by ring.
    eapply Rle_trans; [apply Rabs_triang|]. unfold X. lra. }
  assert (S2 : Rabs sl <= X).
  { rewrite Esl. eapply Rle_trans; [apply Rabs_triang|]. rewrite !Rabs_mult, Rabs_Ropp, (Rabs_pos_eq (/ d)) by lra. fold C0 C1. unfold X. lra. }
  assert (UX : 0 <= u * X) by (apply Rmult_le_pos; lra).
  assert (S4 : Rabs ((p0 + p1) * e7) <= 109 / 100 * u * X + eta).
  { rewrite Rabs_mult, Rmult_comm. apply Rle_trans with (u * Rabs (p0 + p1)); [apply Rmult_le_compat_r; [apply Rabs_pos|exact E7]|].
    assert (Rabs (p0 + p1) <= (1 + 303 / 100 * u) * X + 2 * eta).
    { replace (p0 + p1) with ((p0 + p1 - sl) + sl) by ring. eapply Rle_trans; [apply Rabs_triang|]. lra. }
    apply Rle_trans with (u * ((1 + 303 / 100 * u) * X + 2 * eta)); [apply Rmult_le_compat_l; lra|].
    assert ((1 + 303 / 100 * u) * (u * X) <= (109 / 100) * (u * X)) by (apply Rmult_le_compat_r; lra).
    assert (u * (2 * eta) <= / 2 * (2 * eta)) by (apply Rmult_le_compat_r; lra). lra. }
  replace ((p0 + p1) * (1 + e7) - sl) with ((p0 + p1 - sl) + (p0 + p1) * e7) by ring.
  eapply Rle_trans; [apply Rabs_triang|].
  replace (bpow radix2 (-1073)) with (4 * eta).
  - replace (8 * u * (C0 + C1) / d) with (8 * (u * X)) by (unfold X; field; lra). lra.
  - unfold eta. change (-1073)%Z with (1 + -1074)%Z. rewrite bpow_plus. change (bpow radix2 1) with 2. lra.
Qed.

(** The slope of the segment of the time; the time of the last node belongs to the last one *)
Lemma fl_derivative t0 c0 extrapolate t k ta ca tb cb :
  increasing t0 -> length c0 = length t0 -> doubles t0 -> doubles c0 ->
  segment t0 c0 k ta ca tb cb -> ta <= t < tb -> powerRZ 2 (-990) <= tb - ta <= powerRZ 2 990 ->
  exists r, interp_one_fl t0 c0 INTERP_C1D1 extrapolate (Some t) = Some (Some r) /\
    Rabs (r - (cb - ca) / (tb - ta)) <= powerRZ 2 (-50) * (Rabs ca + Rabs cb) / (tb - ta) + powerRZ 2 (-1073).
Proof.
  intros I L D D' S T Hd. pose proof (segment_lt _ _ _ _ _ _ _ I S) as Lt.
  destruct (seg_fmt _ _ _ _ _ _ _ D D' S) as (Fa & Fca & Fb & Fcb).
  pose proof S as (S1 & S2 & S3 & S4). pose proof (seg_len _ _ _ S3) as Hk.
  destruct (locate t0 c0 t I L ltac:(lia)) as (i & j & ta' & ca' & tb' & cb' & last & Eb & Ec & S' & El & C).
  pose proof S' as (S1' & S2' & S3' & S4'). pose proof (seg_len _ _ _ S3') as Hj.
  assert (X : j = k /\ (i =? Z.of_nat j)%Z || last = true).
  { destruct C as [(T' & F)|[(T' & Hl & F)|[(T' & H0 & F)|(T' & Hl & F)]]].
    - split; [|exact F]. apply (seg_unique t0 c0 j k ta' ca' tb' cb' ta ca tb cb t); auto; lra.
    - exfalso. destruct (Nat.eq_dec (Datatypes.S k) (Datatypes.S j)) as [X|X]; [rewrite X in S3; assert (tb = tb') by congruence; lra|].
      pose proof (I (Datatypes.S k) (Datatypes.S j) _ _ ltac:(lia) S3 S3'). lra.
    - exfalso. subst j. destruct k as [|k]; [assert (ta = ta') by congruence; lra|].
      pose proof (I 0%nat (Datatypes.S k) _ _ ltac:(lia) S1' S1). lra.
    - exfalso. destruct (Nat.eq_dec (Datatypes.S k) (Datatypes.S j)) as [X|X]; [rewrite X in S3; assert (tb = tb') by congruence; lra|].
      pose proof (I (Datatypes.S k) (Datatypes.S j) _ _ ltac:(lia) S3 S3'). lra. }
  destruct X as [-> F]. assert (ta' = ta) as -> by congruence. assert (tb' = tb) as -> by congruence.
  assert (ca' = ca) as -> by congruence. assert (cb' = cb) as -> by congruence.
  rewrite (interp1d1_fl_seg t0 c0 t i k ta ca tb cb extrapolate last Eb Ec S El), <- orb_assoc, F, orb_true_r.
  eexists. split; [reflexivity|]. apply slope_err; assumption.
Qed.

(** ** The array function *)

Lemma fl_element time time0 coeff0 kind extrapolate res i j t c0 :
  interp_fl time time0 coeff0 kind extrapolate = Returned res ->
  nth_error time i = Some t -> nth_error coeff0 j = Some c0 ->
  length c0 = length time0 /\ (min_nt kind <= length time0)%nat /\
  exists row, nth_error res i = Some row /\ length row = length coeff0 /\
    nth_error row j = Some (interp_one_fl time0 c0 kind extrapolate t).
Proof.
  unfold interp_fl. intros H Ht Hc.
  destruct (forallb _ coeff0 && _) eqn:E; [|discriminate]. apply andb_true_iff in E. destruct E as [E1 E2].
  rewrite forallb_forall in E1. pose proof (E1 c0 (nth_error_In _ _ Hc)) as E3. apply Nat.eqb_eq in E3. apply Nat.leb_le in E2.
  split; [exact E3|]. split; [exact E2|].
  assert (res = map (fun t => map (fun c0 => interp_one_fl time0 c0 kind extrapolate t) coeff0) time) as -> by congruence.
  eexists. split; [apply map_nth_error; exact Ht|]. split; [apply map_length|].
  apply (map_nth_error (fun c0 => interp_one_fl time0 c0 kind extrapolate t) _ _ Hc).
Qed.

Lemma fl_raises time time0 coeff0 kind extrapolate :
  interp_fl time time0 coeff0 kind extrapolate = Raised <-> interp time time0 coeff0 kind extrapolate = Raised.
Proof. unfold interp_fl, interp. destruct (_ && _); split; congruence. Qed.

(** ** An example *)

Lemma ex_series : increasing [1; 3; 7] /\ doubles [1; 3; 7] /\ doubles [10; 4; 5] /\
  interp_one_fl [1; 3; 7] [10; 4; 5] INTERP_C1 false (Some 7) = Some (Some 5) /\
  interp_one_fl [1; 3; 7] [10; 4; 5] INTERP_C1 false (Some 3) = Some (Some 4) /\
  segment [1; 3; 7] [10; 4; 5] 0 1 10 3 4 /\ line 1 10 3 4 2 = 7.
Proof.
  assert (I : increasing [1; 3; 7]).
  { intros i j a b Hij Ha Hb.
    destruct i as [|[|[|i]]]; destruct j as [|[|[|j]]]; simpl in Ha, Hb; try lia; try (destruct i; discriminate); try (destruct j; discriminate);
      injection Ha as <-; injection Hb as <-; lra. }
  assert (W : forall n, (Z.abs n < 2 ^ 53)%Z -> double (IZR n)).
  { intros n Hn. exists n, 0%Z. split; [change (powerRZ 2 0) with 1; ring|lia]. }
  assert (D1 : doubles [1; 3; 7]) by (repeat constructor; apply W; lia).
  assert (D2 : doubles [10; 4; 5]) by (repeat constructor; apply W; lia).
  split; [exact I|]. split; [exact D1|]. split; [exact D2|].
  split; [apply (fl_node _ _ _ 2); auto; simpl; lia|]. split; [apply (fl_node _ _ _ 1); auto; simpl; lia|].
  split; [split; [|split; [|split]]; reflexivity|unfold line; lra].
Qed.
