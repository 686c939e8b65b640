(** The loop over the points and the sequence of the calls. *)

From Coq Require Import Bool List String Reals Arith Lia Lra.
From Verif Require Import ArrModel GeoModel QdSunModel QdMltModel QdBasisModel QdApexModel.
From Verif Require Import CoordSpec SunSpec QdBasisSpec QdApexSpec Atan2Proofs QdSunProofs QdMltProofs QdApexProofs.
Import ListNotations.
Open Scope R_scope.

Lemma inv_unloaded vecflag glat glon alt out st : loadflag st = true ->
  apxg2q vecflag glat glon alt out st = (out, missing_base, st).
Proof. intro L. unfold apxg2q. now rewrite L. Qed.

(** the invariant holds after any call *)
Lemma loop_state any vecflag fs name points : forall st eo out values st',
  inv fs st -> qd_loop any vecflag fs name points st eo out = Returns (values, st') -> inv fs st'.
Proof.
  revert any. induction points as [|p rest IH]; intros any st eo out values st' I; cbn [qd_loop].
  - intro E. injection E as <- <-. exact I.
  - set (reloaded := match t_dy p with Some _ => _ | None => _ end).
    destruct reloaded as [[st1 eo1]|] eqn:ER; [|discriminate].
    assert (I1 : inv fs st1).
    { revert ER. unfold reloaded. destruct (t_dy p) as [e|].
      - destruct (Rlt_dec epoch_limit (Rabs (e - eo))).
        + destruct (loadapxsh (any 0%nat) fs name e st) as [s|] eqn:EL; [|discriminate]. intro E. injection E as <- <-.
          now apply (load_inv _ _ _ _ _ _ I EL).
        + intro E. injection E as <- <-. exact I.
      - intro E. injection E as <- <-. exact I. }
    clearbody reloaded. destruct (convrt4 (gclat p) (gcrad p)) as [gdlat gdalt].
    destruct (apxg2q vecflag gdlat (gclon p) gdalt out st1) as [[out1 b] st2] eqn:EA.
    assert (I2 : inv fs st2).
    { destruct (loadflag st1) eqn:L.
      - rewrite inv_unloaded in EA by exact L. injection EA as <- <- <-. exact I1.
      - now apply (apxg2q_step _ _ _ _ _ _ _ _ _ _ I1 L EA). }
    destruct (qd_loop (fun k => any (S k)) vecflag fs name rest st2 eo1 out1) as [[vs s]|] eqn:EQ; [|discriminate].
    intro E. assert (st' = s) by congruence. subst. exact (IH _ _ _ _ _ _ I2 EQ).
Qed.

Lemma session_state fs calls : forall st results st', inv fs st -> qd_session fs calls st = Returns (results, st') -> inv fs st'.
Proof.
  induction calls as [|c rest IH]; intros st results st' I; cbn [qd_session].
  - intro E. injection E as <- <-. exact I.
  - unfold eval_qdlatlon. destruct (qd_loop _ _ _ _ _ _ _ _) as [[v s]|] eqn:EQ; [|discriminate].
    destruct (qd_session fs rest s) as [[rs s']|] eqn:ES; [|discriminate]. intro E. assert (st' = s') by congruence. subst.
    exact (IH _ _ _ (loop_state _ _ _ _ _ _ _ _ _ _ I EQ) ES).
Qed.
Lemma initial_inv fs any : inv fs (initial_apex any).
Proof. left. reflexivity. Qed.

(** ** The altitude *)
Lemma cos_lower x : 1 - x * x / 2 <= cos x.
Proof.
  assert (E : cos x = 1 - 2 * sin (x / 2) * sin (x / 2)) by (rewrite <- cos_2a_sin; f_equal; lra). rewrite E. clear E.
  assert (H : sin (x / 2) * sin (x / 2) <= x / 2 * (x / 2)).
  { assert (G : forall y, 0 <= y -> sin y * sin y <= y * y).
    { intros y Hy. destruct (Req_dec y 0) as [->|N]; [rewrite sin_0; lra|].
      destruct (Rle_dec y 1) as [L|L].
      - pose proof (sin_lt_x y ltac:(lra)). pose proof PI2_1. pose proof PI2_Rlt_PI. pose proof (sin_ge_0 y ltac:(lra) ltac:(lra)). nra.
      - pose proof (SIN_bound y). nra. }
    destruct (Rle_dec 0 (x / 2)) as [L|L]; [now apply G|].
    specialize (G (- (x / 2)) ltac:(lra)). rewrite sin_neg in G. nra. }
  nra.
Qed.

Definition dltcl (gclat rkm : R) : R :=
  let scl := sin (gclat * DTOR) in
  let ri := REQ / rkm in
  let a2 := ri * (A21 + ri * (A22 + ri * A23)) in
  let a4 := ri * (A41 + ri * (A42 + ri * (A43 + ri * A44))) in
  let a6 := ri * (A61 + ri * (A62 + ri * A63)) in
  let a8 := ri * (A81 + ri * (A82 + ri * (A83 + ri * A84))) in
  let ccl := sqrt (1 - scl * scl) in
  let s2cl := 2 * scl * ccl in
  let c2cl := 2 * ccl * ccl - 1 in
  let s4cl := 2 * s2cl * c2cl in
  let c4cl := 2 * c2cl * c2cl - 1 in
  let s8cl := 2 * s4cl * c4cl in
  let s6cl := s2cl * c4cl + c2cl * s4cl in
  s2cl * a2 + s4cl * a4 + s6cl * a6 + s8cl * a8.

(** the multiple angles, with the latitude from -90 to 90 *)
Lemma dltcl_sines gclat rkm : 0 <= cos (gclat * DTOR) ->
  let lat := gclat * DTOR in
  let ri := REQ / rkm in
  dltcl gclat rkm =
    sin (2 * lat) * (ri * (A21 + ri * (A22 + ri * A23))) + sin (4 * lat) * (ri * (A41 + ri * (A42 + ri * (A43 + ri * A44))))
    + sin (6 * lat) * (ri * (A61 + ri * (A62 + ri * A63))) + sin (8 * lat) * (ri * (A81 + ri * (A82 + ri * (A83 + ri * A84)))).
Proof.
  intros C lat ri. unfold dltcl. fold lat in C |- *. fold ri.
  assert (CC : sqrt (1 - sin lat * sin lat) = cos lat).
  { replace (1 - sin lat * sin lat) with (cos lat * cos lat); [now apply sqrt_square|].
    pose proof (sin2_cos2 lat) as E. unfold Rsqr in E. lra. }
  rewrite CC.
  assert (S2 : 2 * sin lat * cos lat = sin (2 * lat)) by (symmetry; apply sin_2a).
  assert (C2 : 2 * cos lat * cos lat - 1 = cos (2 * lat)) by (symmetry; apply cos_2a_cos).
  rewrite S2, C2.
  assert (S4 : 2 * sin (2 * lat) * cos (2 * lat) = sin (4 * lat)) by (rewrite <- sin_2a; f_equal; lra).
  assert (C4 : 2 * cos (2 * lat) * cos (2 * lat) - 1 = cos (4 * lat)) by (rewrite <- cos_2a_cos; f_equal; lra).
  rewrite S4, C4.
  assert (S8 : 2 * sin (4 * lat) * cos (4 * lat) = sin (8 * lat)) by (rewrite <- sin_2a; f_equal; lra).
  assert (S6 : sin (2 * lat) * cos (4 * lat) + cos (2 * lat) * sin (4 * lat) = sin (6 * lat)) by (rewrite <- sin_plus; f_equal; lra).
  rewrite S8, S6. reflexivity.
Qed.

Lemma E2_bound : 0.006694 <= E2 <= 0.006695.
Proof. unfold E2, REP, REQ. lra. Qed.
Lemma E4_bound : 0.0000448 <= E4 <= 0.0000449.
Proof. unfold E4. pose proof E2_bound. split; nra. Qed.
Lemma E6_bound : 0 <= E6 <= 0.000000301.
Proof. unfold E6. pose proof E2_bound. pose proof E4_bound. split; nra. Qed.
Lemma E8_bound : 0 <= E8 <= 0.0000000021.
Proof. unfold E8. pose proof E4_bound. split; nra. Qed.

Lemma small_product a b m n : - m <= a <= m -> - n <= b <= n -> - (m * n) <= a * b <= m * n.
Proof. intros. split; nra. Qed.

Lemma delta_bound gclat rkm : 6000 <= rkm -> -0.0045 <= dltcl gclat rkm <= 0.0045.
Proof.
  intro Hr. unfold dltcl. set (scl := sin (gclat * DTOR)). set (ri := REQ / rkm).
  assert (Hs : -1 <= scl <= 1) by apply SIN_bound.
  set (ccl := sqrt (1 - scl * scl)).
  assert (Hc0 : 0 <= ccl) by apply sqrt_pos.
  assert (Hc : ccl * ccl = 1 - scl * scl) by (apply sqrt_sqrt; nra).
  assert (Hri : 0 <= ri <= 1.0631).
  { unfold ri, REQ. split.
    - apply Rlt_le, Rdiv_lt_0_compat; lra.
    - apply (Rmult_le_reg_r rkm); [lra|]. replace (6378.137 / rkm * rkm) with 6378.137 by (field; lra). lra. }
  clearbody ri ccl scl. clear Hr.
  set (s2 := 2 * scl * ccl). set (c2 := 2 * ccl * ccl - 1).
  assert (U : forall x y, x * x + y * y = 1 -> -1 <= x <= 1).
  { intros x y E. pose proof (Rle_0_sqr y). unfold Rsqr in *. split; nra. }
  assert (Dbl : forall x y, x * x + y * y = 1 -> (2 * x * y) * (2 * x * y) + (2 * y * y - 1) * (2 * y * y - 1) = 1).
  { intros x y E. replace (2 * x * y * (2 * x * y) + (2 * y * y - 1) * (2 * y * y - 1))
      with (1 + 4 * (y * y) * (x * x + y * y - 1)) by ring. rewrite E. ring. }
  assert (P2 : s2 * s2 + c2 * c2 = 1) by (apply Dbl; lra).
  assert (B2 : -1 <= s2 <= 1) by (now apply (U _ c2)).
  set (s4 := 2 * s2 * c2). set (c4 := 2 * c2 * c2 - 1).
  assert (P4 : s4 * s4 + c4 * c4 = 1) by (now apply Dbl).
  assert (B4 : -1 <= s4 <= 1) by (now apply (U _ c4)).
  set (s8 := 2 * s4 * c4). assert (B8 : -1 <= s8 <= 1) by (apply (U _ (2 * c4 * c4 - 1)); now apply Dbl).
  set (s6 := s2 * c4 + c2 * s4). assert (B6 : -1 <= s6 <= 1).
  { assert (s6 * s6 <= 1); [|split; nra].
    replace (s6 * s6) with ((s2 * s2 + c2 * c2) * (s4 * s4 + c4 * c4) - (s2 * s4 - c2 * c4) * (s2 * s4 - c2 * c4)) by (unfold s6; ring).
    rewrite P2, P4. pose proof (Rle_0_sqr (s2 * s4 - c2 * c4)). unfold Rsqr in *. lra. }
  pose proof E2_bound. pose proof E4_bound. pose proof E6_bound. pose proof E8_bound.
  assert (Q : forall a m, - m <= a <= m -> - (1.0631 * m) <= ri * a <= 1.0631 * m) by (intros; apply small_product; lra).
  assert (X2 : Ropp 0.0039 <= ri * (A21 + ri * (A22 + ri * A23)) <= 0.0039).
  { pose proof (Q A23 2e-8 ltac:(unfold A23; lra)).
    pose proof (Q (A22 + ri * A23) 4e-8 ltac:(unfold A22 at 1 2; lra)).
    pose proof (Q (A21 + ri * (A22 + ri * A23)) 0.003354 ltac:(unfold A21 at 1 2; lra)). lra. }
  assert (X4 : Ropp 0.00004 <= ri * (A41 + ri * (A42 + ri * (A43 + ri * A44))) <= 0.00004).
  { pose proof (Q A44 1e-9 ltac:(unfold A44; lra)).
    pose proof (Q (A43 + ri * A44) 3e-9 ltac:(unfold A43 at 1 2; lra)).
    pose proof (Q (A42 + ri * (A43 + ri * A44)) 0.0000115 ltac:(unfold A42 at 1 2; lra)).
    pose proof (Q (A41 + ri * (A42 + ri * (A43 + ri * A44))) 0.000025 ltac:(unfold A41 at 1 2; lra)). lra. }
  assert (X6 : Ropp 1e-5 <= ri * (A61 + ri * (A62 + ri * A63)) <= 1e-5).
  { pose proof (Q A63 1e-7 ltac:(unfold A63; lra)).
    pose proof (Q (A62 + ri * A63) 1e-6 ltac:(unfold A62 at 1 2; lra)).
    pose proof (Q (A61 + ri * (A62 + ri * A63)) 2e-6 ltac:(unfold A61 at 1 2; lra)). lra. }
  assert (X8 : Ropp 1e-5 <= ri * (A81 + ri * (A82 + ri * (A83 + ri * A84))) <= 1e-5).
  { pose proof (Q A84 1e-9 ltac:(unfold A84; lra)).
    pose proof (Q (A83 + ri * A84) 1e-8 ltac:(unfold A83 at 1 2; lra)).
    pose proof (Q (A82 + ri * (A83 + ri * A84)) 1e-7 ltac:(unfold A82 at 1 2; lra)).
    pose proof (Q (A81 + ri * (A82 + ri * (A83 + ri * A84))) 1e-6 ltac:(unfold A81 at 1 2; lra)). lra. }
  assert (M : forall x y m, -1 <= x <= 1 -> - m <= y <= m -> - m <= x * y <= m).
  { intros x y m Hx Hy. pose proof (small_product x y 1 m ltac:(lra) Hy). lra. }
  pose proof (M _ _ _ B2 X2). pose proof (M _ _ _ B4 X4). pose proof (M _ _ _ B6 X6). pose proof (M _ _ _ B8 X8). lra.
Qed.

Lemma altitude_bound gclat rkm : 6000 <= rkm -> -400 < snd (convrt4 gclat rkm).
Proof.
  intro H. change (snd (convrt4 gclat rkm)) with
    (rkm * cos (dltcl gclat rkm) - REQ * sqrt (1 - E2 * sin ((dltcl gclat rkm * RTOD + gclat) * DTOR) * sin ((dltcl gclat rkm * RTOD + gclat) * DTOR))).
  pose proof (delta_bound gclat rkm H) as D. set (d := dltcl gclat rkm) in *. pose proof (cos_lower d) as C.
  set (s := sin _). assert (Q : sqrt (1 - E2 * s * s) <= 1).
  { rewrite <- sqrt_1 at 2. apply sqrt_le_1_alt. pose proof E2_bound. pose proof (Rle_0_sqr s). unfold Rsqr in *. nra. }
  assert (C' : 0.9999 <= cos d) by nra. unfold REQ. nra.
Qed.

(** ** The values *)
Definition pure_point (vecflag : bool) (f : apex_file) (epoch : R) (p : point) : (R * R) * base_vectors :=
  let '(gdlat, gdalt) := convrt4 (gclat p) (gcrad p) in pure_out vecflag f epoch gdlat (gclon p) gdalt.

(** the time of the coefficients *)
Definition used (eo : R) (p : point) : R :=
  match t_dy p with
  | Some e => if Rlt_dec epoch_limit (Rabs (e - eo)) then e else eo
  | None => eo
  end.
Fixpoint pure_loop (vecflag : bool) (f : apex_file) (points : list point) (eo : R) : list ((R * R) * base_vectors) :=
  match points with
  | [] => []
  | p :: rest => pure_point vecflag f (used eo p) p :: pure_loop vecflag f rest (used eo p)
  end.

Lemma loop_pure any vecflag fs name f points : fs name = Some (Some f) -> well_formed f -> forall st eo out,
  (forall p, In p points -> 6000 <= gcrad p) ->
  inv fs st ->
  (loadflag st = false /\ datafilelast st = name /\ epochlast st = eo) \/
  (forall p rest, points = p :: rest -> exists e, t_dy p = Some e /\ epoch_limit < Rabs (e - eo)) ->
  exists st', qd_loop any vecflag fs name points st eo out = Returns (pure_loop vecflag f points eo, st').
Proof.
  intros F W. revert any. induction points as [|p rest IH]; intros any st eo out Hr I Hl; cbn [qd_loop pure_loop].
  - eauto.
  - set (reloaded := match t_dy p with Some _ => _ | None => _ end).
    assert (R1 : exists st1, reloaded = Returns (st1, used eo p) /\ inv fs st1 /\ loadflag st1 = false /\ datafilelast st1 = name /\
              epochlast st1 = used eo p /\ file st1 = f).
    { assert (G : loadflag st = false /\ datafilelast st = name /\ epochlast st = eo -> file st = f).
      { intros (L & D & _). destruct I as [I|(I & _)]; [congruence|]. rewrite D in I. congruence. }
      assert (Q : used eo p = eo -> (forall e, t_dy p = Some e -> ~ epoch_limit < Rabs (e - eo)) -> loadflag st = false /\ datafilelast st = name /\ epochlast st = eo).
      { intros U V. destruct Hl as [Hl|Hl]; [exact Hl|]. destruct (Hl p rest eq_refl) as (e & E1 & E2). now apply V in E1. }
      unfold reloaded, used. destruct (t_dy p) as [e|] eqn:T.
      - destruct (Rlt_dec epoch_limit (Rabs (e - eo))) as [Lt|Nl].
        + destruct (loadapxsh (any 0%nat) fs name e st) as [s|] eqn:EL.
          * destruct (load_inv _ _ _ _ _ _ I EL) as (I1 & L1 & D1 & E1 & F1). exists s. repeat split; auto. congruence.
          * exfalso. revert EL. unfold loadapxsh. rewrite F. destruct (negb _ || _); discriminate.
        + exists st. destruct Q as (L & D & E); [unfold used; rewrite T; now destruct (Rlt_dec _ _)|intros e' Ee; congruence|].
          repeat split; auto.
      - exists st. destruct Q as (L & D & E); [unfold used; now rewrite T|discriminate|]. repeat split; auto. }
    destruct R1 as (st1 & -> & I1 & L1 & D1 & E1 & F1).
    unfold pure_point at 1. pose proof (altitude_bound (gclat p) (gcrad p) (Hr p ltac:(now left))) as HA.
    destruct (convrt4 (gclat p) (gcrad p)) as [gdlat gdalt]. cbn [snd] in HA.
    destruct (apxg2q vecflag gdlat (gclon p) gdalt out st1) as [[out1 b] st2] eqn:EA.
    destruct (apxg2q_step _ _ _ _ _ _ _ _ _ _ I1 L1 EA) as (I2 & L2 & D2 & E2 & F2 & V).
    rewrite F1, E1 in V. specialize (V W ltac:(lra)).
    destruct (IH (fun k => any (S k)) st2 (used eo p) out1) as (st3 & ->).
    + intros q Hq. apply Hr. now right.
    + exact I2.
    + left. repeat split; congruence.
    + exists st3. now rewrite V.
Qed.

Lemma eval_pure any vecflag fs name f points st : fs name = Some (Some f) -> well_formed f -> inv fs st ->
  (forall p, In p points -> usual_point p) ->
  exists st', eval_qdlatlon any vecflag fs name points st = Returns (pure_loop vecflag f points (-9999.9), st').
Proof.
  intros F W I H. unfold eval_qdlatlon. apply (loop_pure _ _ _ _ f); auto.
  - intros p Hp. apply (H p Hp).
  - right. intros p rest ->. destruct (H p ltac:(now left)) as (_ & _ & t & T1 & T2). eauto.
Qed.

Lemma pure_loop_length vecflag f points : forall eo, List.length (pure_loop vecflag f points eo) = List.length points.
Proof. induction points as [|p rest IH]; intro eo; cbn; [reflexivity|]. now rewrite IH. Qed.

Lemma pure_loop_nth vecflag f points : forall eo i p v, nth_error points i = Some p ->
  nth_error (pure_loop vecflag f points eo) i = Some v -> forall t, t_dy p = Some t ->
  (exists j p' t', (j <= i)%nat /\ nth_error points j = Some p' /\ t_dy p' = Some t' /\ Rabs (t - t') <= epoch_limit /\
     v = pure_point vecflag f t' p) \/
  (Rabs (t - eo) <= epoch_limit /\ v = pure_point vecflag f eo p).
Proof.
  induction points as [|q rest IH]; intros eo i p v Hp Hv t Ht; [destruct i; discriminate|].
  destruct i as [|i]; cbn [nth_error pure_loop] in Hp, Hv.
  - injection Hp as <-. injection Hv as <-. unfold used. rewrite Ht. destruct (Rlt_dec epoch_limit (Rabs (t - eo))) as [L|L].
    + left. exists 0%nat, q, t. repeat split; auto. replace (t - t) with 0 by lra. rewrite Rabs_R0. unfold epoch_limit. lra.
    + right. split; [lra|reflexivity].
  - destruct (IH _ _ _ _ Hp Hv t Ht) as [(j & p' & t' & A & B & C & D)|(A & B)].
    + left. exists (S j), p', t'. split; [lia|]. cbn [nth_error]. auto.
    + unfold used in A, B. destruct (t_dy q) as [e|] eqn:Tq; [|right; auto].
      destruct (Rlt_dec epoch_limit (Rabs (e - eo))); [|right; auto].
      left. exists 0%nat, q, e. split; [lia|]. cbn [nth_error]. auto.
Qed.
