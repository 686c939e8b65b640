(** The values returned by the evaluation: the potential, its derivatives, the behaviour at
    the poles, linearity, modes and truncation. *)

From Coq Require Import Bool List Reals Arith ZArith Lra Lia.
From Coquelicot Require Import Coquelicot.
From Verif Require Import ArrModel LegendreModel LegendreSpec LoopProofs LegendrePoly LegendreGauss LegendreLow LegendreHigh
  LegendreProofs GeoModel SizeModel SizeProofs CoefModel ShEvalModel ShEvalSpec ShEvalSum ShEvalDeriv ShEvalHarmonic ShEvalProofs.
Import ListNotations.
Open Scope R_scope.

Definition table (coef : coefs) (n m : nat) : R * R := coef (n * (n + 1) / 2 + m)%nat.
Lemma table_index coef n m : coef (nm_index n m) = table coef n m.
Proof. unfold table. now rewrite T_index. Qed.

Lemma rr_radial internal ref n r : r <> 0 -> ref <> 0 ->
  r * rr internal (r / ref) n = ref * radial internal ref n r.
Proof.
  intros Hr H0. unfold rr, radial. destruct internal.
  - replace (n + 2)%nat with (S (n + 1)) by lia. cbn [pow].
    replace (1 / (r / ref)) with (ref / r) by (field; auto). field. auto.
  - destruct n as [|n]; cbn [pow]; field; auto.
Qed.

Section Point.
Variables (degree : nat) (internal : bool) (th ph r ref : R) (coef : coefs).
Hypotheses (Hth : - (PI / 2) <= th <= PI / 2) (Hr : r <> 0) (Href : ref <> 0).

Lemma val_v_eq : val_v degree internal th ph r ref coef = potential internal ref (table coef) degree r th ph.
Proof.
  unfold val_v, potential. rewrite asin_sin by exact Hth. rewrite <- !sum_scal. apply sum_ext. intros n Hn.
  rewrite <- !Rmult_assoc, rr_radial by auto. f_equal.
Qed.
Lemma val_el_eq : r * val_el degree internal th ph r ref coef = pot_el internal ref (table coef) degree r th ph.
Proof.
  unfold val_el, pot_el. rewrite asin_sin by exact Hth. rewrite <- !sum_scal. apply sum_ext. intros n Hn.
  rewrite <- !Rmult_assoc, rr_radial by auto. f_equal.
Qed.
Lemma val_rd_eq : val_rd degree internal th ph r ref coef = pot_rd internal ref (table coef) degree r th ph.
Proof.
  unfold val_rd, pot_rd. rewrite asin_sin by exact Hth. rewrite <- !sum_scal. apply sum_ext. intros n Hn.
  rewrite <- !Rmult_assoc. f_equal.
  apply (Rmult_eq_reg_l r); [|exact Hr].
  transitivity (radial_rate internal n * (r * rr internal (r / ref) n)); [ring|].
  rewrite rr_radial by auto. field. exact Hr.
Qed.
Lemma val_az_eq : 1 / 10 ^ 10 <= Rabs (cos th) ->
  r * cos th * val_az degree internal th ph r ref coef = pot_az internal ref (table coef) degree r th ph.
Proof.
  intro Hc. unfold val_az. rewrite asin_sin by exact Hth.
  assert (C : Rltb (Rabs (cos th)) (1 / 10 ^ 10) = false).
  { unfold Rltb. destruct (Rlt_dec (Rabs (cos th)) (1 / 10 ^ 10)); [lra|reflexivity]. }
  assert (C0 : cos th <> 0).
  { intro E. rewrite E, Rabs_R0 in Hc. assert (0 < 1 / 10 ^ 10) by lra. lra. }
  rewrite C, andb_false_r. unfold pot_az.
  match goal with |- r * cos th * (?s / cos th) = _ => transitivity (r * s); [field; exact C0|] end.
  rewrite <- !sum_scal. apply sum_ext. intros n Hn.
  rewrite <- !Rmult_assoc, rr_radial by auto. f_equal.
Qed.
(** near the poles, where the terms of the orders above 1 are left out *)
Lemma val_az_near : Rabs (cos th) < 1 / 10 ^ 10 ->
  val_az degree internal th ph r ref coef = / r * (ref * sum_f_R0 (fun n => radial internal ref n r *
    (if Nat.leb 1 n then harmonic' (table coef n 1) 1 ph * (nf n 1 * legendre_deriv n 1 (sin th)) else 0)) degree).
Proof.
  intro Hc. unfold val_az.
  assert (C : Rltb (Rabs (cos th)) (1 / 10 ^ 10) = true).
  { unfold Rltb. destruct (Rlt_dec (Rabs (cos th)) (1 / 10 ^ 10)); [reflexivity|lra]. }
  rewrite C, andb_true_r. rewrite <- !sum_scal.
  destruct (Nat.ltb_spec 0 degree) as [D|D].
  - apply sum_ext. intros n Hn.
    change (coef (nm_index n 1)) with (coef (nm_index n 1)). rewrite table_index.
    apply (Rmult_eq_reg_l r); [|exact Hr]. rewrite <- !Rmult_assoc, rr_radial by auto.
    rewrite Rinv_r, Rmult_1_l by exact Hr. reflexivity.
  - assert (degree = 0)%nat by lia. subst degree. cbn [sum_f_R0 Nat.leb]. unfold harmonic'. cbn [INR].
    unfold Rdiv. ring.
Qed.
End Point.

(** ** The calls for a point in spherical coordinates *)
Definition call_ok (csize degree : Z) : Prop :=
  (0 <= size_to_degree csize)%Z /\ ~ ((2147483647 < size_to_degree csize)%Z /\ (degree < 0)%Z).

Lemma deg_rad lat : lat * (PI / 180) = DG2RAD * lat.
Proof. unfold DG2RAD. field. Qed.

Section Calls.
Variables (csize deg : Z) (coef : coefs) (internal : bool).
Hypothesis Hok : call_ok csize deg.
Let D := eff_degree csize deg.

Lemma sph_call mode lat lon rad sp s0 s1 s2 mem :
  sheval (nd0 (lat, lon, rad)) csize (nd0 coef) CT_GEOCENTRIC_SPHERICAL CT_GEOCENTRIC_SPHERICAL mode internal deg
    sp (s0, s1, s2) mem =
  Ok ([], [let '(v, g) := value D internal (DG2RAD * lat) (DG2RAD * lon) rad 6371.2 coef mode in
    (option_map (fun v => v * sp) v,
     option_map (fun '(a, b, c) => (a * s0, b * s1, c * s2)) g)]).
Proof using Hok.
  destruct Hok as [H1 H2]. rewrite sheval_point by assumption. fold D. do 3 f_equal.
  unfold point_value, cfg0. cbn [model_init fst input_coordinates coord_in coord_out project_gradient
    is_internal degree crad_ref scale_potential scale_gradient0 scale_gradient1 scale_gradient2].
  destruct mode; reflexivity.
Qed.
End Calls.

Lemma lat_range lat : -90 <= lat <= 90 -> - (PI / 2) <= DG2RAD * lat <= PI / 2.
Proof. intro H. unfold DG2RAD. pose proof PI_RGT_0. split; nra. Qed.
Lemma lat_range_lt lat : -90 < lat < 90 -> - (PI / 2) < DG2RAD * lat < PI / 2.
Proof. intro H. unfold DG2RAD. pose proof PI_RGT_0. split; nra. Qed.
Lemma ref_nz : 6371.2 <> 0.
Proof. lra. Qed.

(** the returned potential *)
Lemma potential_call csize deg coef internal lat lon rad mem :
  call_ok csize deg -> -90 <= lat <= 90 -> rad <> 0 ->
  sheval (nd0 (lat, lon, rad)) csize (nd0 coef) CT_GEOCENTRIC_SPHERICAL CT_GEOCENTRIC_SPHERICAL SM_POTENTIAL internal deg
    1 (1, 1, 1) mem =
  Ok ([], [(Some (potential internal 6371.2 (fun n m => coef (n * (n + 1) / 2 + m)%nat) (eff_degree csize deg)
    rad (lat * (PI / 180)) (lon * (PI / 180))), None)]).
Proof.
  intros Hok Hl Hr. rewrite sph_call by exact Hok. cbn [value option_map]. rewrite val_v_eq by (auto using lat_range, ref_nz).
  rewrite Rmult_1_r, !deg_rad. reflexivity.
Qed.

Section Field.
Variables (csize deg : Z) (coef : coefs) (internal : bool) (mem : arr * arr * coefs * arr * arr * arr).
Hypothesis Hok : call_ok csize deg.
Variable pot : R -> R -> R -> R.
Hypothesis Hpot : forall lat lon rad,
  sheval (nd0 (lat, lon, rad)) csize (nd0 coef) CT_GEOCENTRIC_SPHERICAL CT_GEOCENTRIC_SPHERICAL SM_POTENTIAL internal deg
    1 (1, 1, 1) mem = Ok ([], [(Some (pot lat lon rad), None)]).
Let D := eff_degree csize deg.
Let V := potential internal 6371.2 (table coef) D.

Lemma pot_V lat lon rad : -90 <= lat <= 90 -> rad <> 0 -> pot lat lon rad = V rad (DG2RAD * lat) (DG2RAD * lon).
Proof using Hok Hpot.
  intros Hl Hr. pose proof (Hpot lat lon rad) as E. rewrite potential_call in E by assumption.
  injection E as E. rewrite <- E, !deg_rad. reflexivity.
Qed.

Lemma scale_derive (c x : R) : is_derive (fun t : R => c * t) x c.
Proof. eapply Rderive_eq; [|apply Rderive_scal, @is_derive_id]. unfold one; cbn. ring. Qed.

Lemma pot_lon_derive lat lon rad : -90 <= lat <= 90 -> rad <> 0 ->
  is_derive (fun l => pot lat l rad) lon (DG2RAD * pot_az internal 6371.2 (table coef) D rad (DG2RAD * lat) (DG2RAD * lon)).
Proof using Hok Hpot.
  intros Hl Hr. apply (Rderive_ext (fun l => V rad (DG2RAD * lat) (DG2RAD * l))); [intro; symmetry; now apply pot_V|].
  apply (Rderive_comp (fun p => V rad (DG2RAD * lat) p)); [apply potential_az; auto using ref_nz|apply scale_derive].
Qed.

Lemma gradient_derivative lat lon rad : -90 < lat < 90 -> rad <> 0 ->
  exists north east up,
    sheval (nd0 (lat, lon, rad)) csize (nd0 coef) CT_GEOCENTRIC_SPHERICAL CT_GEOCENTRIC_SPHERICAL SM_GRADIENT internal deg
      1 (1, 1, 1) mem = Ok ([], [(None, Some (north, east, up))]) /\
    is_derive (fun l => pot l lon rad) lat (PI / 180 * (rad * north)) /\
    (1 / 10 ^ 10 <= cos (lat * (PI / 180)) ->
     is_derive (fun l => pot lat l rad) lon (PI / 180 * (rad * cos (lat * (PI / 180)) * east))) /\
    is_derive (fun r => pot lat lon r) rad up.
Proof using Hok Hpot.
  intros Hl Hr. assert (Hl' : -90 <= lat <= 90) by lra.
  rewrite sph_call by exact Hok. cbn [value option_map]. fold D. rewrite !Rmult_1_r.
  do 3 eexists. split; [reflexivity|]. change (PI / 180) with (PI / 180).
  assert (DG : PI / 180 = DG2RAD) by (unfold DG2RAD; field). rewrite DG.
  assert (Hth : - (PI / 2) <= DG2RAD * lat <= PI / 2) by now apply lat_range.
  split; [|split].
  - rewrite val_el_eq by auto using ref_nz.
    apply (is_derive_ext_loc (fun l => V rad (DG2RAD * l) (DG2RAD * lon))).
    + assert (P : 0 < Rmin (lat + 90) (90 - lat)) by (apply Rmin_glb_lt; lra).
      exists (mkposreal _ P). intros l Hb. symmetry. apply pot_V; [|exact Hr].
      unfold ball in Hb. cbn in Hb. unfold AbsRing_ball, abs, minus, plus, opp in Hb. cbn in Hb.
      apply Rabs_def2 in Hb. pose proof (Rmin_l (lat + 90) (90 - lat)). pose proof (Rmin_r (lat + 90) (90 - lat)). lra.
    + apply (Rderive_comp (fun t => V rad t (DG2RAD * lon))); [apply potential_el; auto using ref_nz|apply scale_derive].
  - intro Hc. rewrite (Rmult_comm lat) in Hc |- *.
    rewrite val_az_eq by (auto using ref_nz; try (rewrite Rabs_pos_eq; lra)). now apply pot_lon_derive.
  - rewrite val_rd_eq by auto using ref_nz.
    apply (is_derive_ext_loc (fun r => V r (DG2RAD * lat) (DG2RAD * lon))).
    + assert (P : 0 < Rabs rad) by now apply Rabs_pos_lt.
      exists (mkposreal _ P). intros r Hb. symmetry. apply pot_V; [exact Hl'|].
      unfold ball in Hb. cbn in Hb. unfold AbsRing_ball, abs, minus, plus, opp in Hb. cbn in Hb.
      intros ->. rewrite Rplus_0_l, Rabs_Ropp in Hb. lra.
    + apply potential_rd; auto using ref_nz.
Qed.

(** ** The poles *)
Lemma pole_limit_call (pole : R) lon rad : pole = 90 \/ pole = -90 -> rad <> 0 ->
  exists north east up,
    sheval (nd0 (pole, lon, rad)) csize (nd0 coef) CT_GEOCENTRIC_SPHERICAL CT_GEOCENTRIC_SPHERICAL SM_GRADIENT internal deg
      1 (1, 1, 1) mem = Ok ([], [(None, Some (north, east, up))]) /\
    filterlim (fun lat => Derive (fun l => pot lat l rad) lon / (PI / 180 * (rad * cos (lat * (PI / 180)))))
      (within (fun lat => -90 < lat < 90) (locally pole)) (locally east).
Proof using Hok Hpot.
  intros Hp Hr. rewrite sph_call by exact Hok. cbn [value option_map]. fold D. rewrite !Rmult_1_r.
  do 3 eexists. split; [reflexivity|].
  assert (DG : PI / 180 = DG2RAD) by (unfold DG2RAD; field). rewrite DG.
  assert (DGp : 0 < DG2RAD) by (rewrite <- DG; pose proof PI_RGT_0; lra).
  assert (Hpole : DG2RAD * pole = PI / 2 \/ DG2RAD * pole = - (PI / 2)) by (rewrite <- DG; destruct Hp as [-> | ->]; [left|right]; field).
  assert (C0 : cos (DG2RAD * pole) = 0) by (destruct Hpole as [-> | ->]; [|rewrite cos_neg]; apply cos_PI2).
  rewrite val_az_near by (auto using ref_nz; try (rewrite C0, Rabs_R0; lra)).
  rewrite <- az_over_cos_pole by exact C0.
  set (h := fun t => / rad * az_over_cos internal 6371.2 (table coef) D rad (DG2RAD * t) (DG2RAD * lon)).
  apply (filterlim_ext_loc h).
  - exists (mkposreal 1 Rlt_0_1). intros lat _ Hl.
    assert (E : Derive (fun l => pot lat l rad) lon = DG2RAD * pot_az internal 6371.2 (table coef) D rad (DG2RAD * lat) (DG2RAD * lon)).
    { apply is_derive_unique. apply pot_lon_derive; [lra|exact Hr]. }
    rewrite E. pose proof (lat_range_lt _ Hl) as Hl'. pose proof (cos_gt_0 _ (proj1 Hl') (proj2 Hl')) as C.
    unfold h. rewrite <- az_over_cos_eq by lra. rewrite (Rmult_comm lat). field. repeat split; lra.
  - refine (filterlim_filter_le_1 (F := locally pole) h _ _).
    + intros P HP. unfold within. revert HP. apply filter_imp. auto.
    + change (/ rad * az_over_cos internal 6371.2 (table coef) D rad (DG2RAD * pole) (DG2RAD * lon)) with (h pole).
      apply continuity_pt_filterlim. unfold h.
      apply (continuity_pt_mult (fun _ => / rad)); [now apply continuity_pt_const; intros ? ?|].
      apply (continuity_pt_comp (fun t => DG2RAD * t) (fun t => az_over_cos internal 6371.2 (table coef) D rad t (DG2RAD * lon))).
      * apply derivable_continuous_pt. apply ex_derive_Reals_0. eexists. apply scale_derive.
      * apply az_over_cos_continuous.
Qed.

(** ** Laplace's equation *)
Lemma laplace_call r th ph : r <> 0 -> - (PI / 2) < th < PI / 2 ->
  let W := fun r th ph => pot (th * (180 / PI)) (ph * (180 / PI)) r in
  exists d_r d_th d_ph,
    is_derive (fun u => u ^ 2 * Derive (fun w => W w th ph) u) r d_r /\
    is_derive (fun u => cos u * Derive (fun w => W r w ph) u) th d_th /\
    is_derive (fun u => Derive (fun w => W r th w) u) ph d_ph /\
    d_r / r ^ 2 + d_th / (r ^ 2 * cos th) + d_ph / (r ^ 2 * cos th ^ 2) = 0.
Proof using Hok Hpot.
  intros Hr Hth W. pose proof PI_RGT_0 as HP.
  assert (WV : forall r th ph, r <> 0 -> - (PI / 2) < th < PI / 2 -> W r th ph = V r th ph).
  { intros r1 t p H1 H2. unfold W. rewrite pot_V; [|split; unfold Rdiv; apply (Rmult_le_reg_r PI); field_simplify; lra|exact H1].
    unfold DG2RAD. f_equal; field; lra. }
  pose proof (cos_gt_0 _ (proj1 Hth) (proj2 Hth)) as C.
  destruct (laplace internal 6371.2 (table coef) D ref_nz r th ph Hr ltac:(lra)) as (d_r & d_th & d_ph & A1 & A2 & A3 & A4).
  fold D in A1, A2, A3. fold V in A1, A2, A3.
  assert (Nr : 0 < Rabs r) by now apply Rabs_pos_lt.
  assert (Nt : 0 < Rmin (th + PI / 2) (PI / 2 - th)) by (apply Rmin_glb_lt; lra).
  assert (Br : forall u, u <> 0 -> locally u (fun w => w <> 0)).
  { intros u Hu. exists (mkposreal _ (Rabs_pos_lt u Hu)). intros w Hb.
    unfold ball in Hb. cbn in Hb. unfold AbsRing_ball, abs, minus, plus, opp in Hb. cbn in Hb.
    intros ->. rewrite Rplus_0_l, Rabs_Ropp in Hb. lra. }
  assert (Bt : forall u, - (PI / 2) < u < PI / 2 -> locally u (fun w => - (PI / 2) < w < PI / 2)).
  { intros u Hu. assert (P : 0 < Rmin (u + PI / 2) (PI / 2 - u)) by (apply Rmin_glb_lt; lra).
    exists (mkposreal _ P). intros w Hb.
    unfold ball in Hb. cbn in Hb. unfold AbsRing_ball, abs, minus, plus, opp in Hb. cbn in Hb.
    apply Rabs_def2 in Hb. pose proof (Rmin_l (u + PI / 2) (PI / 2 - u)). pose proof (Rmin_r (u + PI / 2) (PI / 2 - u)). lra. }
  exists d_r, d_th, d_ph. split; [|split; [|split; [|exact A4]]].
  - revert A1. apply is_derive_ext_loc. generalize (Br r Hr). apply filter_imp. intros u Hu. f_equal.
    apply Derive_ext_loc. generalize (Br u Hu). apply filter_imp. intros w Hw. symmetry. now apply WV.
  - revert A2. apply is_derive_ext_loc. generalize (Bt th Hth). apply filter_imp. intros u Hu. f_equal.
    apply Derive_ext_loc. generalize (Bt u Hu). apply filter_imp. intros w Hw. symmetry. now apply WV.
  - revert A3. apply is_derive_ext. intro u. apply Derive_ext. intro w. symmetry. now apply WV.
Qed.
End Field.

(** The potential at the poles is returned as well: such a function [pot] exists. *)
Lemma pot_exists csize deg coef internal mem : call_ok csize deg -> exists pot, forall lat lon rad,
  sheval (nd0 (lat, lon, rad)) csize (nd0 coef) CT_GEOCENTRIC_SPHERICAL CT_GEOCENTRIC_SPHERICAL SM_POTENTIAL internal deg
    1 (1, 1, 1) mem = Ok ([], [(Some (pot lat lon rad), None)]).
Proof.
  intro Hok. eexists (fun lat lon rad => _). intros lat lon rad. rewrite sph_call by exact Hok. cbn [value option_map].
  reflexivity.
Qed.
