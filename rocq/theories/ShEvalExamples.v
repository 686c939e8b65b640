(** Scaling factors, the region close to the poles and examples. *)

From Coq Require Import Bool List Reals Arith ZArith Lra Lia.
From Coquelicot Require Import Coquelicot.
From Verif Require Import ArrModel LegendreModel LegendreSpec LoopProofs LegendrePoly LegendreGauss LegendreLow LegendreHigh
  LegendreProofs GeoModel SizeModel SizeProofs CoefModel ShEvalModel ShEvalSpec ShEvalSum ShEvalDeriv ShEvalHarmonic
  ShEvalProofs ShEvalGradProofs ShEvalLinProofs.
Import ListNotations.
Open Scope R_scope.

Lemma sheval_scaled x csize coef ci co mode internal deg sp sg mem odims out :
  sheval x csize coef ci co mode internal deg 1 (1, 1, 1) mem = Ok (odims, out) ->
  sheval x csize coef ci co mode internal deg sp sg mem = Ok (odims, map (scaled sp sg) out).
Proof.
  intro H.
  destruct (sheval_same_shape x csize coef coef ci co mode mode internal deg deg 1 (1, 1, 1) sp sg mem mem _ eq_refl ltac:(tauto) H) as [[od1 out1] H1].
  rewrite H1. destruct (sheval_value _ _ _ _ _ _ _ _ _ _ _ _ _ H) as [-> ->].
  destruct (sheval_value _ _ _ _ _ _ _ _ _ _ _ _ _ H1) as [-> ->]. rewrite map_map. do 2 f_equal. apply map_ext. intro ix.
  destruct sg as [[s0 s1] s2]. destruct (at_index x ix) as [[a b] c].
  set (A := cfg0 internal (eff_degree csize deg) ci co sp (s0, s1, s2)).
  set (B := cfg0 internal (eff_degree csize deg) ci co 1 (1, 1, 1)).
  unfold point_value. change (input_coordinates B a b c) with (input_coordinates A a b c).
  destruct (input_coordinates A a b c) as [[[clat clon] crad] glat].
  change (value (degree B) (is_internal B) clat clon crad (crad_ref B) (at_index coef ix) mode)
    with (value (degree A) (is_internal A) clat clon crad (crad_ref A) (at_index coef ix) mode).
  destruct (value (degree A) (is_internal A) clat clon crad (crad_ref A) (at_index coef ix) mode) as [v g].
  unfold scaled. cbn [fst snd].
  change (scale_potential A) with sp. change (scale_potential B) with 1.
  apply f_equal2.
  - destruct v; [f_equal; ring|reflexivity].
  - destruct g as [g|]; [|reflexivity]. change (project_gradient B clat clon glat g) with (project_gradient A clat clon glat g).
    destruct (project_gradient A clat clon glat g) as [[[fx fy] fz]|]; [|reflexivity].
    change (scale_gradient0 A) with s0. change (scale_gradient1 A) with s1. change (scale_gradient2 A) with s2.
    change (scale_gradient0 B) with 1. change (scale_gradient1 B) with 1. change (scale_gradient2 B) with 1.
    f_equal. apply f_equal2; [apply f_equal2|]; ring.
Qed.

Lemma potential_any_output csize deg D coef internal co sp sg lat lon rad mem :
  (1 <= csize < 2 ^ 50)%Z -> expansion_degree csize deg D -> -90 <= lat <= 90 -> rad <> 0 ->
  sheval (nd0 (lat, lon, rad)) csize (nd0 coef) CT_GEOCENTRIC_SPHERICAL co SM_POTENTIAL internal deg sp sg mem =
  Ok ([], [(Some (sp * potential internal 6371.2 (fun n m => coef (n * (n + 1) / 2 + m)%nat) D
    rad (lat * (PI / 180)) (lon * (PI / 180))), None)]).
Proof.
  intros Hc HD Hl Hr. destruct (call_ok_size csize deg Hc) as [H1 H2]. rewrite sheval_point by assumption.
  rewrite (eff_degree_spec csize deg D Hc HD). destruct sg as [[s0 s1] s2].
  set (A := cfg0 internal D CT_GEOCENTRIC_SPHERICAL co sp (s0, s1, s2)).
  assert (E : exists g, input_coordinates A lat lon rad = (DG2RAD * lat, DG2RAD * lon, rad, g)) by (eexists; reflexivity).
  destruct E as [g E]. unfold point_value. rewrite E. cbn [value].
  change (degree A) with D. change (is_internal A) with internal. change (crad_ref A) with 6371.2. change (scale_potential A) with sp.
  rewrite val_v_eq by auto using lat_range, ref_nz. rewrite !deg_rad, (Rmult_comm _ sp). reflexivity.
Qed.

Lemma ref_one : 6371.2 / 6371.2 = 1.
Proof. unfold Rdiv. apply Rinv_r. lra. Qed.
Lemma Rdiv_1 x : x / 1 = x.
Proof. field. Qed.

(** ** Close to the poles *)
Lemma sheval_near_pole csize deg D coef internal lat lon rad mem :
  (1 <= csize < 2 ^ 50)%Z -> expansion_degree csize deg D -> rad <> 0 -> Rabs (cos (DG2RAD * lat)) < 1 / 10 ^ 10 ->
  exists north up, sheval (nd0 (lat, lon, rad)) csize (nd0 coef) CT_GEOCENTRIC_SPHERICAL CT_GEOCENTRIC_SPHERICAL SM_GRADIENT internal deg
      1 (1, 1, 1) mem = Ok ([], [(None, Some (north,
   / rad * (6371.2 * sum_f_R0 (fun n => radial internal 6371.2 n rad *
    (if Nat.leb 1 n then harmonic' (table coef n 1) 1 (DG2RAD * lon) * (nf n 1 * legendre_deriv n 1 (sin (DG2RAD * lat))) else 0)) D), up))]).
Proof.
  intros Hc HD Hr Hcos. pose proof (call_ok_size csize deg Hc) as Hok. rewrite sph_call by exact Hok.
  cbn [value option_map]. rewrite (eff_degree_spec csize deg D Hc HD). rewrite !Rmult_1_r.
  do 2 eexists. rewrite val_az_near by auto using ref_nz. reflexivity.
Qed.

Definition g22 (k : nat) : R * R := if Nat.eqb k 5 then (1, 0) else (0, 0).
Lemma deg6 : expansion_degree 6 (-1) 2.
Proof. exists 2%nat. split; [lia|reflexivity]. Qed.
Lemma deg3 : expansion_degree 3 (-1) 1.
Proof. exists 1%nat. split; [lia|reflexivity]. Qed.

Lemma nf_pos n m : 0 < nf n m.
Proof.
  unfold nf. apply sqrt_lt_R0. destruct (Nat.eqb m 0);
  repeat match goal with |- context [INR (fact ?k)] => lazymatch goal with H : 0 < INR (fact k) |- _ => fail | _ => pose proof (INR_fact_lt_0 k) end end.
  all: try (apply Rdiv_lt_0_compat; [try apply Rmult_lt_0_compat; lra|lra]).
Qed.

Lemma schmidt22_pos th : cos th <> 0 -> 0 < schmidt 2 2 th.
Proof.
  intro C. rewrite schmidt_nf, L_diag. apply Rmult_lt_0_compat.
  - apply Rmult_lt_0_compat; [apply nf_pos|]. assert (0 < cos th * cos th) by (apply Rsqr_pos_lt in C; exact C). cbn [pow]. lra.
  - apply Rdiv_lt_0_compat; [apply INR_fact_lt_0|]. apply Rmult_lt_0_compat; [apply pow_lt; lra|apply INR_fact_lt_0].
Qed.

Lemma near_pole_lat : let lat := 90 - 1 / 10 ^ 10 in -90 < lat < 90 /\ 0 < cos (DG2RAD * lat) < 1 / 10 ^ 10.
Proof.
  cbv zeta. assert (E0 : 0 < 1 / 10 ^ 10 < 1) by lra. split; [lra|].
  replace (DG2RAD * (90 - 1 / 10 ^ 10)) with (PI / 2 - DG2RAD * (1 / 10 ^ 10)) by (unfold DG2RAD; field).
  rewrite <- sin_cos_comm || rewrite cos_shift.
  assert (P : 0 < DG2RAD < 1) by (unfold DG2RAD; pose proof PI_RGT_0; pose proof PI_4; lra).
  assert (Q : 0 < DG2RAD * (1 / 10 ^ 10) < 1 / 10 ^ 10) by (split; nra). pose proof PI2_1.
  split; [apply sin_gt_0; lra|]. pose proof (sin_lt_x _ (proj1 Q)). lra.
Qed.

Lemma near_pole_refuted : exists csize coef internal deg mem pot lat lon rad north east up,
  (1 <= csize < 2 ^ 50)%Z /\
  (forall lat lon rad,
     sheval (nd0 (lat, lon, rad)) csize (nd0 coef) CT_GEOCENTRIC_SPHERICAL CT_GEOCENTRIC_SPHERICAL SM_POTENTIAL internal deg
       1 (1, 1, 1) mem = Ok ([], [(Some (pot lat lon rad), None)])) /\
  -90 < lat < 90 /\ 0 < rad /\
  sheval (nd0 (lat, lon, rad)) csize (nd0 coef) CT_GEOCENTRIC_SPHERICAL CT_GEOCENTRIC_SPHERICAL SM_GRADIENT internal deg
    1 (1, 1, 1) mem = Ok ([], [(None, Some (north, east, up))]) /\
  ~ is_derive (fun l => pot lat l rad) lon (PI / 180 * (rad * cos (lat * (PI / 180)) * east)).
Proof.
  set (mem := (fun _ : nat => 0, fun _ : nat => 0, fun _ : nat => (0, 0), fun _ : nat => 0, fun _ : nat => 0, fun _ : nat => 0)).
  assert (Hc : (1 <= 6 < 2 ^ 50)%Z) by lia.
  pose proof (call_ok_size 6 (-1) Hc) as Hok.
  destruct (pot_exists 6 (-1) g22 true mem Hok) as [pot Hpot].
  destruct near_pole_lat as [Hl Hcos]. set (lat := 90 - 1 / 10 ^ 10) in *.
  destruct (sheval_near_pole 6 (-1) 2 g22 true lat 45 6371.2 mem Hc deg6 ref_nz) as (n & u & E).
  { rewrite Rabs_pos_eq; lra. }
  exists 6%Z, g22, true, (-1)%Z, mem, pot, lat, 45, 6371.2, n. do 2 eexists.
  split; [exact Hc|]. split; [exact Hpot|]. split; [exact Hl|]. split; [lra|]. split; [exact E|].
  intro Dv. 
  pose proof (pot_lon_derive 6 (-1) g22 true mem Hok pot Hpot lat 45 6371.2 ltac:(lra) ref_nz) as Dv2.
  pose proof (is_derive_unique _ _ _ Dv) as U1. pose proof (is_derive_unique _ _ _ Dv2) as U2. rewrite U1 in U2. clear Dv Dv2 U1.
  rewrite (eff_degree_spec 6 (-1) 2 Hc deg6) in U2. unfold pot_az in U2. cbn [sum_f_R0 Nat.leb] in U2.
  change (table g22 1 1) with (0, 0) in U2. change (table g22 2 1) with (0, 0) in U2. change (table g22 0 0) with (0, 0) in U2.
  change (table g22 1 0) with (0, 0) in U2. change (table g22 2 0) with (0, 0) in U2. change (table g22 2 2) with (1, 0) in U2.
  unfold harmonic' in U2. cbn [fst snd INR] in U2.
  assert (P : 0 < DG2RAD) by (unfold DG2RAD; pose proof PI_RGT_0; lra).
  pose proof (schmidt22_pos (DG2RAD * lat) ltac:(lra)) as S22.
  assert (S1' : sin ((1 + 1) * (DG2RAD * 45)) = 1).
  { replace ((1 + 1) * (DG2RAD * 45)) with (PI / 2) by (unfold DG2RAD; field). apply sin_PI2. }
  rewrite S1' in U2. unfold radial in U2. rewrite ref_one in U2. rewrite !pow1 in U2.
  assert (0 < DG2RAD * schmidt 2 2 (DG2RAD * lat)) by nra.
  match type of U2 with ?a = ?b => assert (Qa : a = 0) by ring;
    assert (Qb : b = 6371.2 * (-2 * (DG2RAD * schmidt 2 2 (DG2RAD * lat)))) by ring end.
  rewrite Qa, Qb in U2.
  nra.
Qed.

(** ** Examples *)
(** an axial dipole and an equatorial dipole *)
Definition g10 (k : nat) : R * R := if Nat.eqb k 1 then (-30000, 0) else (0, 0).
Definition g11 (k : nat) : R * R := if Nat.eqb k 2 then (1, 0) else (0, 0).

Lemma schmidt_10 th : schmidt 1 0 th = sin th.
Proof.
  rewrite schmidt_nf, nf_0. change (legendre_deriv 1 0 (sin th)) with (legendre_deriv (S 0) 0 (sin th)).
  rewrite L_subdiag, L_diag. cbn. field.
Qed.
Lemma schmidt'_10 th : schmidt' 1 0 th = cos th.
Proof. unfold schmidt'. rewrite (Derive_ext _ sin) by apply schmidt_10. apply is_derive_unique, sin_is_derive. Qed.

(** the field of the axial dipole on the equator points along the meridian *)
Lemma ex_gradient mem : exists up,
  sheval (nd0 (0, 0, 6371.2)) 3 (nd0 g10) CT_GEOCENTRIC_SPHERICAL CT_GEOCENTRIC_SPHERICAL SM_GRADIENT true (-1)
    1 (1, 1, 1) mem = Ok ([], [(None, Some (-30000, 0, up))]) /\ up = 0.
Proof.
  assert (Hc : (1 <= 3 < 2 ^ 50)%Z) by lia. rewrite sph_call by now apply call_ok_size.
  rewrite (eff_degree_spec 3 (-1) 1 Hc deg3). cbn [value option_map]. rewrite !Rmult_1_r.
  match goal with |- context [val_el ?a ?b ?c ?d ?e ?f ?g] =>
    assert (E1 : val_el a b c d e f g = -30000); [|assert (E2 : val_az a b c d e f g = 0); [|assert (E3 : val_rd a b c d e f g = 0);
      [|rewrite E1, E2, E3; exists 0; split; reflexivity]]] end.
  - unfold val_el. cbn [sum_f_R0]. rewrite !table_index.
    change (table g10 0 0) with (0, 0). change (table g10 1 0) with (-30000, 0). change (table g10 1 1) with (0, 0).
    rewrite Rmult_0_r, sin_0, asin_0, schmidt'_10, cos_0. unfold harmonic. cbn [fst snd INR].
    rewrite ?Rmult_0_l, ?Rmult_0_r, ?cos_0. unfold rr. rewrite ref_one, Rdiv_1. rewrite !pow1. ring.
  - unfold val_az. rewrite Rmult_0_r, cos_0, Rabs_R1.
    assert (C : Rltb 1 (1 / 10 ^ 10) = false) by (unfold Rltb; destruct (Rlt_dec 1 (1 / 10 ^ 10)); [lra|reflexivity]).
    rewrite C, andb_false_r. cbn [sum_f_R0]. rewrite !table_index.
    change (table g10 0 0) with (0, 0). change (table g10 1 0) with (-30000, 0). change (table g10 1 1) with (0, 0).
    unfold harmonic'. cbn [fst snd INR]. unfold Rdiv. ring.
  - unfold val_rd. cbn [sum_f_R0]. rewrite !table_index.
    change (table g10 0 0) with (0, 0). change (table g10 1 0) with (-30000, 0). change (table g10 1 1) with (0, 0).
    rewrite Rmult_0_r, sin_0, asin_0, schmidt_10, sin_0. unfold harmonic. cbn [fst snd INR]. ring.
Qed.

(** the eastward field of the equatorial dipole at the pole *)
Lemma ex_pole mem : exists north up,
  sheval (nd0 (90, 90, 6371.2)) 3 (nd0 g11) CT_GEOCENTRIC_SPHERICAL CT_GEOCENTRIC_SPHERICAL SM_GRADIENT true (-1)
    1 (1, 1, 1) mem = Ok ([], [(None, Some (north, -1, up))]).
Proof.
  assert (Hc : (1 <= 3 < 2 ^ 50)%Z) by lia.
  assert (E90 : DG2RAD * 90 = PI / 2) by (unfold DG2RAD; field).
  destruct (sheval_near_pole 3 (-1) 1 g11 true 90 90 6371.2 mem Hc deg3 ref_nz) as (n & u & E).
  { rewrite E90, cos_PI2, Rabs_R0. lra. }
  exists n, u. etransitivity; [exact E|].
  match goal with |- context [(n, ?e, u)] => assert (E1 : e = -1); [|now rewrite E1] end.
  rewrite E90. cbn [sum_f_R0 Nat.leb]. change (table g11 1 1) with (1, 0). unfold harmonic'. cbn [fst snd INR].
  rewrite !Rmult_1_l, sin_PI2, L_diag. unfold radial. rewrite ref_one. rewrite !pow1.
  assert (N : nf 1 1 = 1) by (unfold nf; cbn; replace (2 * 1 / (1 + 1)) with 1 by field; apply sqrt_1).
  assert (Q : INR (fact (2 * 1)) / (2 ^ 1 * INR (fact 1)) = 1) by (cbn; field).
  rewrite N, Q. match goal with |- ?l = _ => transitivity (6371.2 / 6371.2 * -1); [unfold Rdiv; ring|] end.
  rewrite ref_one. ring.
Qed.

(** arrays of two positions and one set of coefficients, and the other way round *)
Definition ex_x : nd (R * R * R) :=
  {| dims := [2%nat]; get := fun ix => match ix with [0%nat] => (0, 0, 6371.2) | _ => (45, 10, 6800) end |}.
Lemma ex_batch mem : exists out,
  sheval ex_x 3 (nd0 g10) CT_GEOCENTRIC_SPHERICAL CT_GEOCENTRIC_CARTESIAN SM_POTENTIAL_AND_GRADIENT true (-1)
    1 (1, 1, 1) mem = Ok ([2%nat], out) /\ length out = 2%nat.
Proof.
  destruct (proj2 (sheval_succeeds ex_x 3 (nd0 g10) CT_GEOCENTRIC_SPHERICAL CT_GEOCENTRIC_CARTESIAN SM_POTENTIAL_AND_GRADIENT true (-1) 1 (1, 1, 1) mem)) as [[od out] E].
  { destruct (call_ok_size 3 (-1) ltac:(lia)). split; [assumption|]. split; [assumption|]. right. exists [2%nat]. reflexivity. }
  destruct (sheval_value _ _ _ _ _ _ _ _ _ _ _ _ _ E) as [-> ->]. eexists. split; [exact E|reflexivity].
Qed.

(** ** The statements in terms of the number of rows of the coefficients *)
Lemma sheval_shape x csize coef ci co mode internal deg sp sg mem :
  (1 <= csize < 2 ^ 50)%Z ->
  ((exists odims out, sheval x csize coef ci co mode internal deg sp sg mem = Ok (odims, out)) <->
    prefix (dims x) (dims coef) \/ prefix (dims coef) (dims x)) /\
  forall odims out, sheval x csize coef ci co mode internal deg sp sg mem = Ok (odims, out) ->
    prefix (dims x) odims /\ prefix (dims coef) odims /\ (odims = dims x \/ odims = dims coef).
Proof.
  intro Hc. destruct (call_ok_size csize deg Hc) as [H1 H2].
  pose proof (sheval_succeeds x csize coef ci co mode internal deg sp sg mem) as S0.
  assert (Q : (exists odims out, sheval x csize coef ci co mode internal deg sp sg mem = Ok (odims, out)) <->
    prefix (dims x) (dims coef) \/ prefix (dims coef) (dims x)).
  { split.
    - intros (a & b & E). assert (W : exists r, sheval x csize coef ci co mode internal deg sp sg mem = Ok r) by eauto.
      apply S0 in W. tauto.
    - intro P. destruct (proj2 S0 (conj H1 (conj H2 P))) as [[a b] E]. eauto. }
  split; [exact Q|]. intros odims out E.
  assert (P : prefix (dims x) (dims coef) \/ prefix (dims coef) (dims x)) by (apply Q; eauto).
  destruct (sheval_value _ _ _ _ _ _ _ _ _ _ _ _ _ E) as [-> _].
  assert (R0 : forall a, prefix a a) by (intro a; exists []; now rewrite app_nil_r).
  destruct (Nat.ltb_spec (length (dims x)) (length (dims coef))) as [L|L].
  - destruct P as [P|[c P]]; [repeat split; auto|]. rewrite P, app_length in L. lia.
  - destruct P as [[c P]|P]; [|repeat split; auto].
    assert (c = []) by (rewrite P, app_length in L; destruct c; [reflexivity|cbn in L; lia]). subst c.
    rewrite app_nil_r in P. rewrite P. repeat split; auto.
Qed.

Lemma gradient_derivative_api csize deg coef internal mem pot :
  (1 <= csize < 2 ^ 50)%Z ->
  (forall lat lon rad,
     sheval (nd0 (lat, lon, rad)) csize (nd0 coef) CT_GEOCENTRIC_SPHERICAL CT_GEOCENTRIC_SPHERICAL SM_POTENTIAL
       internal deg 1 (1, 1, 1) mem = Ok ([], [(Some (pot lat lon rad), None)])) ->
  forall lat lon rad, -90 < lat < 90 -> rad <> 0 ->
  exists north east up,
    sheval (nd0 (lat, lon, rad)) csize (nd0 coef) CT_GEOCENTRIC_SPHERICAL CT_GEOCENTRIC_SPHERICAL SM_GRADIENT
      internal deg 1 (1, 1, 1) mem = Ok ([], [(None, Some (north, east, up))]) /\
    is_derive (fun l => pot l lon rad) lat (PI / 180 * (rad * north)) /\
    (1 / 10 ^ 10 <= cos (lat * (PI / 180)) ->
     is_derive (fun l => pot lat l rad) lon (PI / 180 * (rad * cos (lat * (PI / 180)) * east))) /\
    is_derive (fun r => pot lat lon r) rad up.
Proof. intros Hc. exact (gradient_derivative csize deg coef internal mem (call_ok_size _ _ Hc) pot). Qed.

Lemma pot_exists_api csize deg coef internal mem : (1 <= csize < 2 ^ 50)%Z ->
  exists pot, forall lat lon rad,
  sheval (nd0 (lat, lon, rad)) csize (nd0 coef) CT_GEOCENTRIC_SPHERICAL CT_GEOCENTRIC_SPHERICAL SM_POTENTIAL internal deg
    1 (1, 1, 1) mem = Ok ([], [(Some (pot lat lon rad), None)]).
Proof. intro Hc. apply pot_exists. now apply call_ok_size. Qed.

Lemma pole_limit_api csize deg coef internal mem pot :
  (1 <= csize < 2 ^ 50)%Z ->
  (forall lat lon rad,
     sheval (nd0 (lat, lon, rad)) csize (nd0 coef) CT_GEOCENTRIC_SPHERICAL CT_GEOCENTRIC_SPHERICAL SM_POTENTIAL
       internal deg 1 (1, 1, 1) mem = Ok ([], [(Some (pot lat lon rad), None)])) ->
  forall pole lon rad, pole = 90 \/ pole = -90 -> rad <> 0 ->
  exists north east up,
    sheval (nd0 (pole, lon, rad)) csize (nd0 coef) CT_GEOCENTRIC_SPHERICAL CT_GEOCENTRIC_SPHERICAL SM_GRADIENT
      internal deg 1 (1, 1, 1) mem = Ok ([], [(None, Some (north, east, up))]) /\
    filterlim (fun lat => Derive (fun l => pot lat l rad) lon / (PI / 180 * (rad * cos (lat * (PI / 180)))))
      (within (fun lat => -90 < lat < 90) (locally pole)) (locally east).
Proof. intros Hc. exact (pole_limit_call csize deg coef internal mem (call_ok_size _ _ Hc) pot). Qed.

Lemma laplace_api csize deg coef internal mem pot :
  (1 <= csize < 2 ^ 50)%Z ->
  (forall lat lon rad,
     sheval (nd0 (lat, lon, rad)) csize (nd0 coef) CT_GEOCENTRIC_SPHERICAL CT_GEOCENTRIC_SPHERICAL SM_POTENTIAL
       internal deg 1 (1, 1, 1) mem = Ok ([], [(Some (pot lat lon rad), None)])) ->
  forall r th ph, r <> 0 -> - (PI / 2) < th < PI / 2 ->
  let W := fun r th ph => pot (th * (180 / PI)) (ph * (180 / PI)) r in
  exists d_r d_th d_ph,
    is_derive (fun u => u ^ 2 * Derive (fun w => W w th ph) u) r d_r /\
    is_derive (fun u => cos u * Derive (fun w => W r w ph) u) th d_th /\
    is_derive (fun u => Derive (fun w => W r th w) u) ph d_ph /\
    d_r / r ^ 2 + d_th / (r ^ 2 * cos th) + d_ph / (r ^ 2 * cos th ^ 2) = 0.
Proof. intros Hc. exact (laplace_call csize deg coef internal mem (call_ok_size _ _ Hc) pot). Qed.

Lemma pole_continuous csize deg coef internal mem east lon rad pole :
  (1 <= csize < 2 ^ 50)%Z -> pole = 90 \/ pole = -90 -> rad <> 0 ->
  (forall lat, exists north up,
     sheval (nd0 (lat, lon, rad)) csize (nd0 coef) CT_GEOCENTRIC_SPHERICAL CT_GEOCENTRIC_SPHERICAL SM_GRADIENT
       internal deg 1 (1, 1, 1) mem = Ok ([], [(None, Some (north, east lat, up))])) ->
  filterlim east (locally pole) (locally (east pole)).
Proof.
  intros Hc Hp Hr He. destruct (expansion_degree_exists csize deg Hc) as [D HD].
  set (h := fun t => / rad * (6371.2 * sum_f_R0 (fun n => radial internal 6371.2 n rad *
    (if Nat.leb 1 n then harmonic' (table coef n 1) 1 (DG2RAD * lon) * (nf n 1 * legendre_deriv n 1 (sin (DG2RAD * t))) else 0)) D)).
  assert (E : forall t, Rabs (cos (DG2RAD * t)) < 1 / 10 ^ 10 -> h t = east t).
  { intros t Ht. destruct (He t) as (n & u & E1). destruct (sheval_near_pole csize deg D coef internal t lon rad mem Hc HD Hr Ht) as (n' & u' & E2).
    rewrite E1 in E2. injection E2 as _ E2 _. symmetry. exact E2. }
  assert (C0 : cos (DG2RAD * pole) = 0).
  { assert (Hpole : DG2RAD * pole = PI / 2 \/ DG2RAD * pole = - (PI / 2)) by (unfold DG2RAD; destruct Hp as [-> | ->]; [left|right]; field).
    destruct Hpole as [-> | ->]; [|rewrite cos_neg]; apply cos_PI2. }
  assert (Ep : h pole = east pole) by (apply E; rewrite C0, Rabs_R0; lra).
  rewrite <- Ep. apply (filterlim_ext_loc h).
  - assert (K : continuity_pt (fun t => cos (DG2RAD * t)) pole).
    { apply derivable_continuous_pt, ex_derive_Reals_0. auto_derive. trivial. }
    apply continuity_pt_filterlim in K. rewrite C0 in K.
    assert (P : locally 0 (fun v => Rabs v < 1 / 10 ^ 10)).
    { assert (Pe : 0 < 1 / 10 ^ 10) by lra. exists (mkposreal _ Pe). intros v Hv.
      unfold ball in Hv. cbn -[pow] in Hv. unfold AbsRing_ball, abs, minus, plus, opp in Hv. cbn -[pow] in Hv.
      rewrite Ropp_0, Rplus_0_r in Hv. exact Hv. }
    specialize (K _ P). unfold filtermap in K. revert K. apply filter_imp. intros t Ht. apply E. exact Ht.
  - apply continuity_pt_filterlim. unfold h.
    apply (continuity_pt_mult (fun _ => / rad)); [now apply continuity_pt_const; intros ? ?|].
    apply (continuity_pt_mult (fun _ => 6371.2)); [now apply continuity_pt_const; intros ? ?|].
    apply sum_continuous. intros n Hn.
    apply (continuity_pt_mult (fun _ => radial internal 6371.2 n rad)); [now apply continuity_pt_const; intros ? ?|].
    destruct (Nat.leb 1 n); [|now apply continuity_pt_const; intros ? ?].
    apply (continuity_pt_mult (fun _ => harmonic' (table coef n 1) 1 (DG2RAD * lon))); [now apply continuity_pt_const; intros ? ?|].
    apply (continuity_pt_mult (fun _ => nf n 1)); [now apply continuity_pt_const; intros ? ?|].
    apply derivable_continuous_pt, ex_derive_Reals_0. eexists.
    apply (Rderive_comp (legendre_deriv n 1) (fun t => sin (DG2RAD * t))); [apply L_is_derive|].
    apply (Rderive_comp sin (fun t => DG2RAD * t)); [apply sin_is_derive|apply scale_derive].
Qed.

Lemma sheval_outputs x csize coef ci co mode internal deg sp sg mem odims out :
  sheval x csize coef ci co mode internal deg sp sg mem = Ok (odims, out) ->
  List.Forall (fun o => (fst o <> None <-> mode <> SM_GRADIENT) /\ (snd o <> None <-> mode <> SM_POTENTIAL)) out.
Proof.
  intro H. destruct (sheval_value _ _ _ _ _ _ _ _ _ _ _ _ _ H) as [_ ->]. apply List.Forall_forall.
  intros o Ho. apply in_map_iff in Ho. destruct Ho as (ix & <- & _).
  destruct sg as [[s0 s1] s2]. destruct (at_index x ix) as [[a b] c].
  set (A := cfg0 internal (eff_degree csize deg) ci co sp (s0, s1, s2)).
  assert (G : forall clat clon crad glat g, input_coordinates A a b c = (clat, clon, crad, glat) ->
    exists fx fy fz, project_gradient A clat clon glat g = Some (fx, fy, fz)).
  { intros clat clon crad glat [[g0 g1'] g2] E. unfold project_gradient. change (coord_out A) with co.
    unfold input_coordinates in E. change (coord_in A) with ci in E. change (coord_out A) with co in E.
    destruct co.
    - assert (exists gl, glat = Some gl) as [gl ->].
      { destruct ci.
        - destruct (geodetic2geocentric_sph a b c (elps_a A) (elps_eps2 A)) as [[? ?] ?]. injection E as _ _ _ <-. eauto.
        - destruct (geocentric_sph2geodetic c (DG2RAD * a) (DG2RAD * b) (elps_a A) (elps_eps2 A)) as [[? ?] ?]. injection E as _ _ _ <-. eauto.
        - destruct (cart2sph a b c) as [[? ?] ?]. destruct (geocentric_sph2geodetic r r0 r1 (elps_a A) (elps_eps2 A)) as [[? ?] ?].
          injection E as _ _ _ <-. eauto. }
      cbn [rot2d]. eauto.
    - eauto.
    - cbn [rot2d]. eauto. }
  unfold point_value. destruct (input_coordinates A a b c) as [[[clat clon] crad] glat] eqn:E.
  specialize (G clat clon crad glat (val_el (degree A) (is_internal A) clat clon crad (crad_ref A) (at_index coef ix),
    val_az (degree A) (is_internal A) clat clon crad (crad_ref A) (at_index coef ix),
    val_rd (degree A) (is_internal A) clat clon crad (crad_ref A) (at_index coef ix)) eq_refl).
  destruct G as (fx & fy & fz & G).
  destruct mode; cbn [value]; rewrite ?G; cbn [fst snd]; split; split; congruence.
Qed.
