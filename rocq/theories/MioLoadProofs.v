(** Proofs about the MIO models above and below the ionosphere. *)

From Coq Require Import Bool List ZArith Reals Lra Lia Arith.
From Coquelicot Require Import Coquelicot.
From Verif Require Import Ord CoefModel ArrModel SizeModel LegendreModel LegendreSpec GeoModel ShEvalModel ShEvalSpec ShEvalDeriv ShEvalSum ShEvalProofs
  LegendreProofs ShEvalGradProofs ShEvalLinProofs SparseSpec TempSpec FourierModel
  FourierSpec FourierProofs FourierEvalProofs CoordModel CoordSpec Atan2Proofs CoordProofs ConvertProofs FrameProofs DipoleProofs ShFrameProofs
  ComposedModel ComposedSpec ComposedProofs MioModel MioSpec MioProofs MioLoadModel.
Import ListNotations.
Open Scope R_scope.

(** ** The coefficients *)
Lemma scale_items_some degree height nm l : scale_items degree height nm = Some l ->
  length l = length nm /\ forall i n m, nth_error nm i = Some (n, m) -> (0 <= n)%Z ->
    nth_error l i = Some (external_scale height (Z.to_nat n)).
Proof.
  revert l. induction nm as [|[n0 m0] nm IH]; intros l; cbn [scale_items].
  - intro E. injection E as <-. split; [reflexivity|]. intros [|i] n m; discriminate.
  - destruct (scale_item degree height n0) as [x|] eqn:Ex; [|discriminate].
    destruct (scale_items degree height nm) as [l'|]; [|discriminate]. intro E. injection E as <-.
    destruct (IH l' eq_refl) as [L V]. split; [cbn [length]; congruence|].
    intros [|i] n m; cbn [nth_error]; [|apply V]. intros E Hn. injection E as <- <-. unfold scale_item in Ex.
    rewrite (proj2 (Z.ltb_ge _ _) Hn) in Ex. destruct (_ && _); congruence.
Qed.

Lemma fourier_scaled k ab n1 n2 m1 m2 s1 s2 x y :
  fourier_value (fun i => (k * fst (ab i), k * snd (ab i))) n1 n2 m1 m2 s1 s2 x y = k * fourier_value ab n1 n2 m1 m2 s1 s2 x y.
Proof.
  unfold fourier_value, fsum. generalize (seq 0 n1) as l. induction l as [|p l IH]; cbn [map fold_right]; [ring|].
  rewrite IH, Rmult_plus_distr_l. f_equal. generalize (seq 0 n2) as l2. induction l2 as [|q l2 IH2]; cbn [map fold_right]; [ring|].
  rewrite IH2, Rmult_plus_distr_l. f_equal. destruct (ab (p * n2 + q)%nat) as [a b]. cbn [fst snd]. ring.
Qed.

(** the two sets of series of the data *)
Lemma external_sets data sb ib sa ia : get_coeff_external data false = Ok (sb, ib) -> get_coeff_external data true = Ok (sa, ia) ->
  ib = false /\ ia = true /\ fs_nm sb = d_nm data /\
  exists l, scale_items (d_degree_max data) (d_height data) (d_nm data) = Some l /\ length l = length (fs_ab sb) /\
    sa = {| fs_ab := map (fun p => let '(k, c) := p in fun i : nat => (k * fst (c i), k * snd (c i))) (combine l (fs_ab sb));
            fs_size1 := fs_size1 sb; fs_size2 := fs_size2 sb; fs_nm := fs_nm sb; fs_min1 := fs_min1 sb; fs_min2 := fs_min2 sb;
            fs_scale1 := fs_scale1 sb; fs_scale2 := fs_scale2 sb |}.
Proof.
  unfold get_coeff_external, convert_external_mio_coeff, mio_series.
  destruct (_ || _); [discriminate|]. cbn [bind]. intros E1 E2. injection E1 as <- <-.
  destruct (scale_items _ _ _) as [l|]; [|discriminate]. destruct (Nat.eqb_spec (length l) (length (d_qs data))) as [L|L]; [|discriminate].
  cbn [bind] in E2. injection E2 as <- <-. cbn [fs_nm fs_ab fs_size1 fs_size2 fs_min1 fs_min2 fs_scale1 fs_scale2].
  repeat split. exists l. repeat split. exact L.
Qed.

Definition combined (l : list R) (ab : list coefs) := map (fun p => let '(k, c) := p in fun i : nat => (k * fst (c i), k * snd (c i))) (combine l ab).

Lemma external_distinct data sb ib sa ia N : get_coeff_external data false = Ok (sb, ib) -> get_coeff_external data true = Ok (sa, ia) ->
  distinct_series sb N -> distinct_series sa N.
Proof.
  intros E1 E2 ((U1 & U2 & U3) & D & L & B). destruct (external_sets _ _ _ _ _ E1 E2) as (_ & _ & _ & l & _ & Hl & ->).
  split; [split; [|split]|split; [|split]]; cbn [fs_nm fs_ab fs_size1 fs_size2 fs_min1 fs_min2]; try assumption.
  rewrite map_length, combine_length, Hl, Nat.min_id. exact U1.
Qed.

(** the values of the coefficients of both sets *)
Lemma external_values data sb ib sa ia N t1 t2 cb ca : get_coeff_external data false = Ok (sb, ib) -> get_coeff_external data true = Ok (sa, ia) ->
  distinct_series sb N -> series_at sb t1 t2 cb -> series_at sa t1 t2 ca ->
  forall n m, valid_nm n m -> coef_nm ca n m = external_scale (d_height data) (Z.to_nat n) * coef_nm cb n m.
Proof.
  intros E1 E2 ((U1 & U2 & U3) & D & L & B) [B1 B2] [A1 A2] n m V.
  destruct (external_sets _ _ _ _ _ E1 E2) as (_ & _ & Enm & l & El & Hl & ->).
  destruct (scale_items_some _ _ _ _ El) as [_ Vl].
  cbn [fs_nm fs_ab] in A1, A2.
  destruct (in_dec (fun a b : Z * Z => ltac:(decide equality; apply Z.eq_dec)) (n, m) (fs_nm sb)) as [I|I].
  - apply In_nth_error in I as [i Hi].
    assert (exists ab, nth_error (fs_ab sb) i = Some ab) as [ab Hab].
    { destruct (nth_error (fs_ab sb) i) eqn:E; [eauto|]. apply nth_error_None in E. assert (i < length (fs_nm sb))%nat by (apply nth_error_Some; congruence). lia. }
    rewrite (B1 _ _ _ _ Hi Hab). rewrite Enm in Hi. pose proof (Vl _ _ _ Hi (proj1 V)) as Hk.
    rewrite <- Enm in Hi.
    set (k := external_scale (d_height data) (Z.to_nat n)) in *.
    rewrite (A1 i n m (fun j => (k * fst (ab j), k * snd (ab j))) Hi).
    2:{ pose proof (proj2 (nth_error_combine l (fs_ab sb) i _ _) (conj Hk Hab)) as Hcb.
        exact (map_nth_error (fun p : R * coefs => let '(k, c) := p in fun i : nat => (k * fst (c i), k * snd (c i))) i _ Hcb). }
    unfold series_value. cbn [fs_size1 fs_size2 fs_min1 fs_min2 fs_scale1 fs_scale2]. apply fourier_scaled.
  - rewrite (A2 _ _ V I), (B2 _ _ V I). ring.
Qed.

(** ** The radial component *)
Lemma coef_row c (n m : nat) : coef_nm c (Z.of_nat n) (Z.of_nat m) = fst (c (nm_index n m)) /\
  ((0 < m)%nat -> coef_nm c (Z.of_nat n) (- Z.of_nat m) = snd (c (nm_index n m))).
Proof.
  assert (E : Z.to_nat (Z.of_nat n * (Z.of_nat n + 1) / 2 + Z.of_nat m) = nm_index n m).
  { unfold nm_index. replace (Z.of_nat n * (Z.of_nat n + 1))%Z with (Z.of_nat (n * (n + 1))) by lia.
    change 2%Z with (Z.of_nat 2). rewrite <- Nat2Z.inj_div, <- Nat2Z.inj_add, Nat2Z.id. reflexivity. }
  unfold coef_nm. split.
  - rewrite Z.abs_eq by lia. rewrite E. destruct (Z.ltb_spec (Z.of_nat m) 0); [lia|reflexivity].
  - intro H. rewrite Z.abs_opp, Z.abs_eq by lia. rewrite E. destruct (Z.ltb_spec (- Z.of_nat m) 0); [reflexivity|lia].
Qed.

Lemma harmonic_scaled (k : Z -> R) c c' : (forall n m, valid_nm n m -> coef_nm c' n m = k n * coef_nm c n m) ->
  forall n m lon, (m <= n)%nat -> harmonic (c' (nm_index n m)) m lon = k (Z.of_nat n) * harmonic (c (nm_index n m)) m lon.
Proof.
  intros H n m lon Hm. unfold harmonic. destruct (coef_row c n m) as [A1 A2]. destruct (coef_row c' n m) as [B1 B2].
  rewrite <- A1, <- B1, (H (Z.of_nat n) (Z.of_nat m)) by (unfold valid_nm; lia).
  destruct m as [|m]; [cbn [INR]; rewrite Rmult_0_l, sin_0; ring|].
  rewrite <- A2, <- B2, (H (Z.of_nat n) (- Z.of_nat (S m))%Z) by (unfold valid_nm; lia || lia). ring.
Qed.

Lemma odd_power a n : (- a) ^ (2 * n + 1) = - (a ^ (2 * n + 1)).
Proof. rewrite !pow_add, !pow_mult, !pow_1. replace ((- a) ^ 2) with (a ^ 2) by ring. ring. Qed.

(** the coefficient of the degree n of both expansions at the radius of the ionosphere *)
Lemma radial_match height n : 0 < 6371.2 + height ->
  radial_rate true n * rr true ((6371.2 + height) / 6371.2) n * external_scale height n
  = radial_rate false n * rr false ((6371.2 + height) / 6371.2) n.
Proof.
  intro H. unfold external_scale, MIO_EARTH_RADIUS, radial_rate, rr.
  assert (R0 : 6371.2 <> 0) by lra.
  replace (1 + height / 6371.2) with ((6371.2 + height) / 6371.2)
    by (revert R0; generalize 6371.2; intros; now field).
  set (q := (6371.2 + height) / 6371.2).
  assert (Hq : 0 < q) by (apply Rdiv_lt_0_compat; lra). rewrite odd_power.
  assert (Hn : 0 < INR n + 1) by (pose proof (pos_INR n); lra).
  destruct n as [|n]; [cbn [INR]; unfold Rdiv; ring|].
  replace (1 / q) with (/ q) by (field; lra). rewrite pow_inv.
  replace (2 * S n + 1)%nat with ((S n + 2) + n)%nat by lia. rewrite (pow_add q (S n + 2) n).
  pose proof (pow_lt q (S n + 2) Hq) as Hp. pose proof (pow_lt q n Hq) as Hp'. field. lra.
Qed.

Lemma val_rd_match D height clat clon cb ca : 0 < 6371.2 + height ->
  (forall n m, valid_nm n m -> coef_nm ca n m = external_scale height (Z.to_nat n) * coef_nm cb n m) ->
  val_rd D true clat clon (6371.2 + height) 6371.2 ca = val_rd D false clat clon (6371.2 + height) 6371.2 cb.
Proof.
  intros H V. unfold val_rd. apply sum_eq. intros n Hn. cbv beta.
  transitivity (radial_rate true n * rr true ((6371.2 + height) / 6371.2) n *
    (external_scale height n * sum_f_R0 (fun m => harmonic (cb (nm_index n m)) m clon * schmidt n m (asin (sin clat))) n)).
  - f_equal. rewrite scal_sum. apply sum_eq. intros m Hm.
    rewrite (harmonic_scaled (fun n => external_scale height (Z.to_nat n)) cb ca V n m clon Hm), Nat2Z.id. ring.
  - rewrite <- Rmult_assoc, radial_match by exact H. reflexivity.
Qed.

Lemma val_rd_unique D internal clat clon r ref c c' : (forall n m, valid_nm n m -> coef_nm c' n m = coef_nm c n m) ->
  val_rd D internal clat clon r ref c' = val_rd D internal clat clon r ref c.
Proof.
  intro V. unfold val_rd. apply sum_eq. intros n Hn. f_equal. apply sum_eq. intros m Hm.
  rewrite (harmonic_scaled (fun _ => 1) c c'); [ring| |exact Hm]. intros. rewrite V by assumption. ring.
Qed.

Lemma rr_derive internal ref n r : r <> 0 -> ref <> 0 -> ex_derive (fun r => rr internal (r / ref) n) r.
Proof.
  intros H H'. assert (r / ref <> 0) by (unfold Rdiv; apply Rmult_integral_contrapositive_currified; [exact H|now apply Rinv_neq_0_compat]).
  unfold rr. destruct internal; [auto_derive; auto|]. destruct n; auto_derive; auto.
Qed.

Lemma sum_derive (f : nat -> R -> R) r n : (forall k, ex_derive (f k) r) -> ex_derive (fun r => sum_f_R0 (fun k => f k r) n) r.
Proof.
  intro H. induction n as [|n IH]; cbn [sum_f_R0]; [apply H|]. apply (ex_derive_plus (fun r => sum_f_R0 (fun k => f k r) n) (f (S n))); [exact IH|apply H].
Qed.

Lemma val_rd_continuous D internal clat clon ref c r : r <> 0 -> ref <> 0 ->
  continuous (fun r => val_rd D internal clat clon r ref c) r.
Proof.
  intros H H'. apply (@ex_derive_continuous R_AbsRing R_NormedModule). unfold val_rd. apply sum_derive. intro k.
  match goal with |- ex_derive (fun r => _ * _ * ?s) _ => set (S := s) end.
  apply (ex_derive_ext (fun r0 => (radial_rate internal k * S) * rr internal (r0 / ref) k)).
  { intro t. cbv beta. match goal with |- ?a = ?b => change (@eq R a b) end. ring. }
  apply (ex_derive_scal (fun r0 => rr internal (r0 / ref) k)). now apply rr_derive.
Qed.

(** far away and close to the centre *)
Lemma rr_limit n ref : 0 < ref -> is_lim (fun r => rr true (r / ref) n) p_infty 0.
Proof.
  intro H. unfold rr. apply (is_lim_ext_loc (fun r => ref ^ (n + 2) * / r ^ (n + 2))).
  { exists 1. intros r Hr. unfold Rdiv. rewrite Rmult_1_l, Rinv_mult, Rinv_inv, Rpow_mult_distr, pow_inv. ring. }
  replace (Finite 0) with (Rbar_mult (ref ^ (n + 2)) 0) by (cbn; f_equal; ring).
  apply is_lim_scal_l. replace (Finite 0) with (Rbar_inv p_infty) by reflexivity.
  apply is_lim_inv; [|discriminate].
  replace (n + 2)%nat with (S (n + 1)) by lia. generalize (n + 1)%nat as k. induction k as [|k IH].
  - apply (is_lim_ext (fun r => r)); [intro; ring|apply is_lim_id].
  - apply (is_lim_ext (fun r => r * r ^ S k)); [intro; reflexivity|].
    apply (is_lim_mult (fun r => r) (fun r => r ^ S k) p_infty p_infty p_infty); [apply is_lim_id|exact IH|exact I].
Qed.

Lemma sum_limit (f : nat -> R -> R) n : (forall k, is_lim (f k) p_infty 0) -> is_lim (fun r => sum_f_R0 (fun k => f k r) n) p_infty 0.
Proof.
  intro H. induction n as [|n IH]; cbn [sum_f_R0]; [apply H|].
  replace (Finite 0) with (Finite (0 + 0)) by (f_equal; ring). now apply is_lim_plus'.
Qed.

Lemma val_rd_limit D clat clon ref c : 0 < ref -> is_lim (fun r => val_rd D true clat clon r ref c) p_infty 0.
Proof.
  intro H. unfold val_rd. apply sum_limit. intro k.
  match goal with |- is_lim (fun r => _ * _ * ?s) _ _ => set (S := s) end.
  apply (is_lim_ext (fun r0 => (radial_rate true k * S) * rr true (r0 / ref) k)); [intro; ring|].
  replace (Finite 0) with (Rbar_mult (radial_rate true k * S) 0) by (cbn; f_equal; ring).
  now apply is_lim_scal_l, rr_limit.
Qed.

Lemma sum_bounded (f : nat -> R -> R) (P : R -> Prop) n : (forall k, exists M, forall r, P r -> Rabs (f k r) <= M) ->
  exists M, forall r, P r -> Rabs (sum_f_R0 (fun k => f k r) n) <= M.
Proof.
  intro H. induction n as [|n [M IH]]; cbn [sum_f_R0]; [apply H|].
  destruct (H (S n)) as [M' HM]. exists (M + M'). intros r Hr. eapply Rle_trans; [apply Rabs_triang|].
  specialize (IH r Hr). specialize (HM r Hr). lra.
Qed.

Lemma val_rd_bounded D clat clon ref c b : 0 < ref -> exists M, forall r, 0 < r <= b -> Rabs (val_rd D false clat clon r ref c) <= M.
Proof.
  intro H. unfold val_rd.
  apply (sum_bounded (fun n r => radial_rate false n * rr false (r / ref) n *
     sum_f_R0 (fun m => harmonic (c (nm_index n m)) m clon * schmidt n m (asin (sin clat))) n) (fun r => 0 < r <= b)).
  intro k. match goal with |- exists M, forall r, _ -> Rabs (_ * _ * ?s) <= M => set (S := s) end.
  destruct k as [|k].
  - exists 0. intros r _. unfold radial_rate. cbn [INR]. rewrite !Rmult_0_l, Rabs_R0. lra.
  - exists (Rabs (radial_rate false (Datatypes.S k)) * (b / ref) ^ k * Rabs S). intros r [Hr Hb]. cbn [rr].
    rewrite !Rabs_mult. apply Rmult_le_compat_r; [apply Rabs_pos|]. apply Rmult_le_compat_l; [apply Rabs_pos|].
    assert (0 < r / ref) by (now apply Rdiv_lt_0_compat).
    rewrite Rabs_pos_eq by (apply pow_le; lra). apply pow_incr. split; [lra|]. unfold Rdiv. apply Rmult_le_compat_r; [|exact Hb].
    apply Rlt_le, Rinv_0_lt_compat, H.
Qed.

(** ** The direction of a point does not depend on its radius *)
Lemma atan2_scaled y x k : 0 < k -> atan2 (k * y) (k * x) = atan2 y x.
Proof.
  intro H. unfold atan2.
  assert (E : x <> 0 -> k * y / (k * x) = y / x) by (intro; field; lra).
  assert (P : forall a, 0 < a -> 0 < k * a) by (intros; now apply Rmult_lt_0_compat).
  assert (N : forall a, a < 0 -> k * a < 0) by (intros a Ha; pose proof (P (- a) ltac:(lra)); lra).
  destruct (Rtotal_order x 0) as [Hx|[Hx|Hx]].
  - pose proof (N x Hx). destruct (Rlt_dec 0 (k * x)); [lra|]. destruct (Rlt_dec 0 x); [lra|].
    destruct (Rlt_dec (k * x) 0); [|lra]. destruct (Rlt_dec x 0); [|lra]. rewrite E by lra.
    destruct (Rlt_dec y 0) as [Hy|Hy]; destruct (Rlt_dec (k * y) 0) as [Hk|Hk]; try reflexivity.
    + pose proof (N y Hy). lra.
    + exfalso. destruct (Rtotal_order y 0) as [?|[->|Hy']]; [lra|rewrite Rmult_0_r in Hk; lra|pose proof (P y Hy'); lra].
  - subst x. rewrite Rmult_0_r. destruct (Rlt_dec 0 0); [lra|].
    destruct (Rtotal_order y 0) as [Hy|[Hy|Hy]].
    + pose proof (N y Hy). destruct (Rlt_dec 0 (k * y)); [lra|]. destruct (Rlt_dec 0 y); [lra|].
      destruct (Rlt_dec (k * y) 0); [|lra]. destruct (Rlt_dec y 0); [reflexivity|lra].
    + subst y. rewrite Rmult_0_r. reflexivity.
    + pose proof (P y Hy). destruct (Rlt_dec 0 (k * y)); [|lra]. destruct (Rlt_dec 0 y); [reflexivity|lra].
  - pose proof (P x Hx). destruct (Rlt_dec 0 (k * x)); [|lra]. destruct (Rlt_dec 0 x); [|lra]. now rewrite E by lra.
Qed.

Lemma cart_sph_scaled k v : 0 < k -> convert (scale k v) CT_GEOCENTRIC_CARTESIAN CT_GEOCENTRIC_SPHERICAL
  = let '(la, lo, r) := convert v CT_GEOCENTRIC_CARTESIAN CT_GEOCENTRIC_SPHERICAL in (la, lo, k * r).
Proof.
  intro H. destruct v as [[x y] z]. unfold convert. cbn [ct_eqb get_fconv scale]. unfold conv_cartECEF_to_sphECEF, cart2sph.
  rewrite (atan2_scaled y x k H).
  assert (E : norm3d (k * x) (k * y) (k * z) = k * norm3d x y z).
  { unfold norm3d. replace (k * x * (k * x) + k * y * (k * y) + k * z * (k * z)) with (k * k * (x * x + y * y + z * z)) by ring.
    rewrite sqrt_mult by nra. rewrite sqrt_square by lra. reflexivity. }
  rewrite E. apply triple_eq; try reflexivity. f_equal. f_equal.
  destruct (Req_dec (norm3d x y z) 0) as [Z|Z]; [|field; lra].
  rewrite Z, Rmult_0_r. unfold Rdiv. assert (z = 0); [|subst z; ring].
  unfold norm3d in Z. apply sqrt_eq_0 in Z; nra.
Qed.

Lemma dipole_direction lat lon lat_ngp lon_ngp : exists la lo, forall r, 0 < r ->
  convert_to_dipole (lat, lon, r) lat_ngp lon_ngp CT_GEOCENTRIC_SPHERICAL = (la, lo, r).
Proof.
  assert (P1 : position CT_GEOCENTRIC_SPHERICAL (lat, lon, 1) <> (0, 0, 0)).
  { intro E. pose proof (distance_sph lat lon 1 ltac:(lra)) as D. rewrite E in D. cbn [distance] in D.
    replace (0 * 0 + 0 * 0 + 0 * 0) with 0 in D by ring. rewrite sqrt_0 in D. lra. }
  pose proof (to_dipole_radius CT_GEOCENTRIC_SPHERICAL (lat, lon, 1) lat_ngp lon_ngp P1) as R1.
  rewrite distance_sph in R1 by lra.
  destruct (convert_to_dipole (lat, lon, 1) lat_ngp lon_ngp CT_GEOCENTRIC_SPHERICAL) as [[la lo] r1] eqn:E1. cbn [snd] in R1. subst r1.
  exists la, lo. intros r Hr. unfold convert_to_dipole in *. cbv zeta in *. rewrite cart_position in *.
  assert (Es : position CT_GEOCENTRIC_SPHERICAL (lat, lon, r) = scale r (position CT_GEOCENTRIC_SPHERICAL (lat, lon, 1))).
  { rewrite !position_sph_eq. cbn [scale]. apply triple_eq; ring. }
  rewrite Es, dot_smul, cart_sph_scaled by exact Hr. rewrite E1, Rmult_1_r. reflexivity.
Qed.

(** the rotation from the dipole frame keeps the radial component *)
Lemma up_sph2cart lat lon r : scale r (vrot_sph2cart up lat lon) = position CT_GEOCENTRIC_SPHERICAL (lat, lon, r).
Proof. rewrite position_sph_eq. unfold up. rewrite vrot_sph2cart_eq. cbv zeta. cbn [scale]. apply triple_eq; ring. Qed.

Lemma radial_kept g lat_ngp lon_ngp lat lon r : 0 < r ->
  snd (rotate_vectors_from_dipole g lat_ngp lon_ngp (convert_to_dipole (lat, lon, r) lat_ngp lon_ngp CT_GEOCENTRIC_SPHERICAL) (lat, lon, r)
         CT_GEOCENTRIC_SPHERICAL CT_GEOCENTRIC_SPHERICAL) = snd g.
Proof.
  intro Hr. set (p := position CT_GEOCENTRIC_SPHERICAL (lat, lon, r)).
  assert (P : p <> (0, 0, 0)).
  { intro E. pose proof (distance_sph lat lon r ltac:(lra)) as D. fold p in D. rewrite E in D. cbn [distance] in D.
    replace (0 * 0 + 0 * 0 + 0 * 0) with 0 in D by ring. rewrite sqrt_0 in D. lra. }
  destruct (dipole_direction lat lon lat_ngp lon_ngp) as (la & lo & Hd).
  destruct (to_dipole_position CT_GEOCENTRIC_SPHERICAL (lat, lon, r) lat_ngp lon_ngp P) as [Ep _]. fold p in Ep.
  rewrite (Hd r Hr) in Ep |- *. unfold rotate_vectors_from_dipole. cbn [ct_eqb].
  rewrite (convert_same CT_GEOCENTRIC_SPHERICAL). unfold vrot_from_dipole. cbv zeta. cbn [ct_eqb]. rewrite dot_transpose.
  set (m := get_dipole_rotation_matrix lat_ngp lon_ngp) in *. set (w := times_column m (vrot_sph2cart g la lo)).
  (* r * radial component of w *)
  assert (Sn : forall v a b, r * snd (vrot_cart2sph v a b) = scalar v (position CT_GEOCENTRIC_SPHERICAL (a, b, r))).
  { intros [[x y] z] a b. rewrite position_sph_eq, vrot_cart2sph_eq. cbv zeta. cbn [snd scalar]. ring. }
  apply Rmult_eq_reg_l with r; [|lra]. rewrite Sn. fold p. unfold w.
  assert (Ep' : p = times_column m (position CT_GEOCENTRIC_SPHERICAL (la, lo, r))).
  { rewrite Ep. unfold m. now rewrite (proj1 (matrix_orthogonal lat_ngp lon_ngp p)). }
  rewrite Ep'. unfold m. rewrite times_column_scalar, <- Sn.
  destruct g as [[x y] z]. rewrite vrot_sph2cart_eq. cbv zeta. rewrite vrot_cart2sph_eq. cbv zeta. cbn [snd].
  assert (H1 := sc2 (DG2RAD * la)). assert (H2 := sc2 (DG2RAD * lo)).
  set (s := sin (DG2RAD * la)) in *; set (k := cos (DG2RAD * la)) in *;
  set (s' := sin (DG2RAD * lo)) in *; set (k' := cos (DG2RAD * lo)) in *. f_equal.
  transitivity ((z * k - x * s) * (s' * s' + k' * k') * k + (z * s + x * k) * s); [ring|]. rewrite H2.
  transitivity (z * (s * s + k * k)); [ring|]. rewrite H1. ring.
Qed.

(** ** The radial component of the models *)
Section Radial.
Context {T : Type} {OT : TOrd T}.

Definition factor (m : @mio T) (s : option vec) (f107 : option (option R)) : R :=
  - match f107 with Some (Some f) => 1 + mio_wolf_ratio m * f | _ => 1 end * snd (match s with Some s => s | None => (1, 1, 1) end).

Lemma element_radial (m : @mio T) N t lat lon r s f107 lat_sol lon_sol out la lo c a b :
  usable_2dfs (mio_set m) -> f107 <> Some None -> in_range t (mio_validity m) -> 0 < r -> (N < 2 ^ 24)%Z -> (0 <= N)%Z ->
  (forall r, 0 < r -> convert_to_dipole (lat, lon, r) (fst (mio_north_pole m)) (snd (mio_north_pole m)) CT_GEOCENTRIC_SPHERICAL = (la, lo, r)) ->
  match lat_sol, lon_sol with Some x, Some y => a = x /\ b = y | _, _ => (a, b) = mio_subsol m t end ->
  series_at (mio_set m) (mio_year_fraction m t) (magnetic_universal_time (fst (mio_north_pole m)) (snd (mio_north_pole m)) a b) c ->
  mio_element m N (Some t) (lat, lon, r) CT_GEOCENTRIC_SPHERICAL CT_GEOCENTRIC_SPHERICAL s f107 lat_sol lon_sol out ->
  exists p q, out = Some (p, q, factor m s f107 * val_rd (Z.to_nat N) (mio_internal m) (DG2RAD * la) (DG2RAD * lo) r 6371.2 c).
Proof.
  intros Hu Hf Hr Hr0 HN HN0 Hd Hab Hc He.
  assert (He' : exists c w a b csize,
         match lat_sol, lon_sol with
         | Some x, Some y => a = x /\ b = y
         | _, _ => (a, b) = mio_subsol m t
         end /\
         series_at (mio_set m) (mio_year_fraction m t)
           (magnetic_universal_time (fst (mio_north_pole m)) (snd (mio_north_pole m)) a b) c /\
         (2 * csize = (N + 1) * (N + 2))%Z /\
         (forall mem, sheval_dipole (lat, lon, r) csize c (fst (mio_north_pole m)) (snd (mio_north_pole m)) CT_GEOCENTRIC_SPHERICAL CT_GEOCENTRIC_SPHERICAL SM_GRADIENT
            (mio_internal m) (-1) 1 (match s with Some s => s | None => (1, 1, 1) end) mem = Ok (None, Some w)) /\
         out = Some (scale (- match f107 with Some (Some f) => 1 + mio_wolf_ratio m * f | _ => 1 end) w)).
  { unfold mio_element in He. destruct f107 as [[f|]|]; [| |]; [|congruence|]; destruct He as [_ He]; exact (He Hr). }
  clear He. destruct He' as (c' & w & a' & b' & csize & Hab' & Hc' & Hcs & Hw & ->).
  assert (a' = a /\ b' = b) as [-> ->] by (destruct lat_sol, lon_sol; [destruct Hab, Hab'; split; congruence|split; congruence..]).
  specialize (Hw ((((((fun _ => 0), (fun _ => 0)), (fun _ => (0, 0))), (fun _ => 0)), (fun _ => 0)), (fun _ => 0))).
  unfold sheval_dipole in Hw. cbv zeta in Hw. rewrite (Hd r Hr0) in Hw.
  change {| dims := []; get := fun _ : list nat => (la, lo, r) |} with (nd0 (la, lo, r)) in Hw.
  change {| dims := []; get := fun _ : list nat => c' |} with (nd0 c') in Hw.
  assert (Csz : (1 <= csize < 2 ^ 50)%Z) by (destruct (degree_csize N (conj HN0 HN)) as (cs & E & B); lia).
  rewrite sheval_frame in Hw; [|exact Csz|discriminate]. rewrite (convert_same CT_GEOCENTRIC_SPHERICAL) in Hw. unfold frame_value in Hw.
  assert (Ee : eff_degree csize (-1) = Z.to_nat N).
  { apply eff_degree_spec; [exact Csz|]. exists (Z.to_nat N). rewrite Z2Nat.id by lia. split; [nia|reflexivity]. }
  rewrite Ee in Hw. cbn [value omap rotation bind snd] in Hw. rewrite vmul_1 in Hw.
  set (g := (val_el (Z.to_nat N) (mio_internal m) (DG2RAD * la) (DG2RAD * lo) r 6371.2 c',
             val_az (Z.to_nat N) (mio_internal m) (DG2RAD * la) (DG2RAD * lo) r 6371.2 c',
             val_rd (Z.to_nat N) (mio_internal m) (DG2RAD * la) (DG2RAD * lo) r 6371.2 c')) in *.
  match type of Hw with Ok (_, Some ?v) = _ => assert (Ew : w = v) by congruence end. rewrite Ew. clear Hw Ew.
  assert (Ec : snd g = val_rd (Z.to_nat N) (mio_internal m) (DG2RAD * la) (DG2RAD * lo) r 6371.2 c).
  { unfold g. cbn [snd]. apply val_rd_unique. intros n k V. destruct Hc as [C1 C2], Hc' as [C1' C2'].
    destruct (in_dec (fun a b : Z * Z => ltac:(decide equality; apply Z.eq_dec)) (n, k) (fs_nm (mio_set m))) as [I|I].
    - apply In_nth_error in I as [i Hi]. destruct (nth_error (fs_ab (mio_set m)) i) as [ab|] eqn:Ei.
      + now rewrite (C1 _ _ _ _ Hi Ei), (C1' _ _ _ _ Hi Ei).
      + exfalso. apply nth_error_None in Ei. destruct Hu as [L _].
        assert (Hi' : nth_error (fs_nm (mio_set m)) i <> None) by (rewrite Hi; discriminate).
        apply nth_error_Some in Hi'. rewrite <- L in Hi'. exact (Nat.lt_irrefl _ (Nat.lt_le_trans _ _ _ Hi' Ei)).
    - now rewrite (C2 _ _ V I), (C2' _ _ V I). }
  pose proof (radial_kept g (fst (mio_north_pole m)) (snd (mio_north_pole m)) lat lon r Hr0) as Rk. rewrite (Hd r Hr0), Ec in Rk.
  destruct (rotate_vectors_from_dipole g _ _ _ _ _ _) as [[v0 v1] v2]. cbn [snd] in Rk.
  unfold factor. destruct s as [[[s0 s1] s2]|]; cbn [vmul scale snd];
    eexists; eexists; f_equal; (apply triple_eq; [reflexivity|reflexivity|]); rewrite Rk; ring.
Qed.

(** ** Functions joined at a point *)
Lemma joined_continuous (G H : R -> R) b : 0 < b -> G b = H b -> (forall r, 0 < r -> continuous G r) -> (forall r, 0 < r -> continuous H r) ->
  forall r, 0 < r -> continuous (fun r => if Rle_dec r b then G r else H r) r.
Proof using.
  intros Hb E CG CH r Hr.
  assert (Ca : continuous (fun r => Rabs (r - b)) r).
  { apply (continuous_comp (fun r => r - b) Rabs); [|apply continuous_Rabs].
    apply (continuous_minus (fun r => r) (fun _ => b)); [apply continuous_id|apply continuous_const]. }
  apply (continuous_ext (fun r => G ((r + b - Rabs (r - b)) * / 2) + (H ((r + b + Rabs (r - b)) * / 2) + (- G b)))).
  { intro x. match goal with |- ?a = ?b => change (@eq R a b) end. unfold Rabs.
    destruct (Rcase_abs (x - b)), (Rle_dec x b); try lra.
    - replace ((x + b - - (x - b)) * / 2) with x by lra. replace ((x + b + - (x - b)) * / 2) with b by lra. lra.
    - replace ((x + b - (x - b)) * / 2) with b by lra. replace ((x + b + (x - b)) * / 2) with x by lra.
      replace x with b by lra. lra.
    - replace ((x + b - (x - b)) * / 2) with b by lra. replace ((x + b + (x - b)) * / 2) with x by lra. lra. }
  assert (A : Rabs (r - b) <= r + b /\ - Rabs (r - b) <= r + b) by (unfold Rabs; destruct (Rcase_abs (r - b)); lra).
  assert (A' : Rabs (r - b) < r + b) by (unfold Rabs; destruct (Rcase_abs (r - b)); lra).
  assert (A2 : 0 <= Rabs (r - b)) by apply Rabs_pos.
  assert (Cs : continuous (fun r => r + b) r) by (apply (continuous_plus (fun r => r) (fun _ => b)); [apply continuous_id|apply continuous_const]).
  apply (continuous_plus (fun r => G ((r + b - Rabs (r - b)) * / 2)) (fun r => H ((r + b + Rabs (r - b)) * / 2) + (- G b))).
  - apply (continuous_comp (fun r => (r + b - Rabs (r - b)) * / 2) G); [|apply CG; lra].
    apply (continuous_mult (fun r => r + b - Rabs (r - b)) (fun _ => / 2)); [|apply continuous_const].
    now apply (continuous_minus (fun r => r + b) (fun r => Rabs (r - b))).
  - apply (continuous_plus (fun r => H ((r + b + Rabs (r - b)) * / 2)) (fun _ => - G b)); [|apply continuous_const].
    apply (continuous_comp (fun r => (r + b + Rabs (r - b)) * / 2) H); [|apply CH; lra].
    apply (continuous_mult (fun r => r + b + Rabs (r - b)) (fun _ => / 2)); [|apply continuous_const].
    now apply (continuous_plus (fun r => r + b) (fun r => Rabs (r - b))).
Qed.

Lemma series_exists set N t1 t2 : distinct_series set N -> exists c, series_at set t1 t2 c.
Proof using.
  intros (U & D & L & B). destruct (fs_single set N t1 t2 U D L B) as (c & C1 & C2 & _). exists c. split; assumption.
Qed.
Lemma distinct_range set N : distinct_series set N -> (0 <= N)%Z /\ (N < 2 ^ 24)%Z.
Proof using.
  intros (U & Di & L & B). split; [|exact B]. destruct L as [_ [[-> _]|[m Hm]]]; [lia|].
  destruct U as (_ & V & _). destruct (V _ _ Hm) as [H _]. lia.
Qed.

Lemma external_continuous year_fraction subsol validity data below above N mem empty t lat lon s f107 lat_sol lon_sol :
  load_external year_fraction subsol validity data = Ok (below, above) ->
  distinct_series (mio_set below) N -> 0 < MIO_EARTH_RADIUS + d_height data -> in_range t validity -> f107 <> Some None ->
  exists Br : R -> R,
    (forall r, 0 < r -> exists res n e,
       external_eval data (below, above) mem empty (nd0 (Some t)) (nd0 (lat, lon, r)) CT_GEOCENTRIC_SPHERICAL CT_GEOCENTRIC_SPHERICAL s
         (option_map nd0 f107) (option_map nd0 lat_sol) (option_map nd0 lon_sol) = Ok res /\ get res [] = Some (n, e, Br r)) /\
    (forall r, 0 < r -> continuous Br r) /\
    is_lim Br p_infty 0 /\ exists M, forall r, 0 < r <= MIO_EARTH_RADIUS + d_height data -> Rabs (Br r) <= M.
Proof.
  intros E Ds Hh Ht Hf. unfold load_external in E.
  destruct (get_coeff_external data false) as [[sb ib]|] eqn:Eb; [|discriminate]. cbn [bind] in E.
  destruct (get_coeff_external data true) as [[sa ia]|] eqn:Ea; [|discriminate]. cbn [bind] in E.
  assert (below = create_mio_model year_fraction subsol validity (sb, ib) data /\ above = create_mio_model year_fraction subsol validity (sa, ia) data) as [-> ->]
    by (split; congruence). clear E.
  cbn [mio_set create_mio_model fst] in Ds.
  pose proof (external_distinct _ _ _ _ _ _ Eb Ea Ds) as Da.
  destruct (external_sets _ _ _ _ _ Eb Ea) as (-> & -> & _).
  destruct (distinct_range _ _ Ds) as [N0 N1].
  destruct (dipole_direction lat lon (d_lat_ngp data) (d_lon_ngp data)) as (la & lo & Hd).
  set (ab := match lat_sol, lon_sol with Some x, Some y => (x, y) | _, _ => subsol t end).
  set (t2 := magnetic_universal_time (d_lat_ngp data) (d_lon_ngp data) (fst ab) (snd ab)).
  destruct (series_exists sb N (year_fraction t) t2 Ds) as [cb Hcb].
  destruct (series_exists sa N (year_fraction t) t2 Da) as [ca Hca].
  set (mb := create_mio_model year_fraction subsol validity (sb, false) data) in *.
  set (ma := create_mio_model year_fraction subsol validity (sa, true) data) in *.
  set (G := fun r => factor mb s f107 * val_rd (Z.to_nat N) false (DG2RAD * la) (DG2RAD * lo) r 6371.2 cb).
  set (H := fun r => factor mb s f107 * val_rd (Z.to_nat N) true (DG2RAD * la) (DG2RAD * lo) r 6371.2 ca).
  assert (Hab : match lat_sol, lon_sol with Some x, Some y => fst ab = x /\ snd ab = y | _, _ => (fst ab, snd ab) = subsol t end).
  { unfold ab. destruct lat_sol, lon_sol; [split; reflexivity|symmetry; apply surjective_pairing..]. }
  exists (fun r => if Rle_dec r (6371.2 + d_height data) then G r else H r). split.
  - intros r Hr. unfold external_eval. cbn [fst snd].
    destruct (primary_value _ _ _ _ (d_height data) MIO_EARTH_RADIUS empty (nd0 (Some t)) (nd0 (lat, lon, r)) CT_GEOCENTRIC_SPHERICAL CT_GEOCENTRIC_SPHERICAL s
        (option_map nd0 f107) (option_map nd0 lat_sol) (option_map nd0 lon_sol) (mio_pointwise mb N mem Ds) (mio_pointwise ma N mem Da))
      as (res & -> & _ & V).
    { left; reflexivity. } { destruct f107; [left; reflexivity|exact I]. } { destruct lat_sol; [left; reflexivity|exact I]. }
    { destruct lon_sol; [left; reflexivity|exact I]. } { destruct f107; [|exact (fun F => F)]. intros [W _]; now apply W. }
    specialize (V [] (or_introl eq_refl)). cbv zeta in V. rewrite (convert_same CT_GEOCENTRIC_SPHERICAL) in V. cbn [nd0 get snd] in V.
    assert (O : forall A (o : option A), option_at (option_map nd0 o) [] = o) by (intros ? [?|]; reflexivity).
    rewrite !O in V. destruct V as [Vb Va]. exists res. unfold MIO_EARTH_RADIUS in Vb, Va.
    destruct (Rle_dec r (6371.2 + d_height data)) as [L|L].
    + destruct (element_radial mb N t lat lon r s f107 lat_sol lon_sol (get res []) la lo cb (fst ab) (snd ab)) as (p & q & Eq); try assumption.
      { apply Ds. } { exact (Vb L). }
      exists p, q. split; [reflexivity|exact Eq].
    + destruct (element_radial ma N t lat lon r s f107 lat_sol lon_sol (get res []) la lo ca (fst ab) (snd ab)) as (p & q & Eq); try assumption.
      { apply Da. } { apply Va. lra. }
      exists p, q. split; [reflexivity|exact Eq].
  - assert (Rp : 6371.2 <> 0) by lra. assert (Rp' : 0 < 6371.2) by lra. unfold MIO_EARTH_RADIUS in *.
    split; [apply joined_continuous; [exact Hh| | |]|split].
    + unfold G, H. f_equal. symmetry. apply val_rd_match; [exact Hh|]. exact (external_values _ _ _ _ _ _ _ _ _ _ Eb Ea Ds Hcb Hca).
    + intros r Hr. apply (continuous_scal_r (factor mb s f107) (fun r => val_rd (Z.to_nat N) false (DG2RAD * la) (DG2RAD * lo) r 6371.2 cb)).
      apply val_rd_continuous; [lra|exact Rp].
    + intros r Hr. apply (continuous_scal_r (factor mb s f107) (fun r => val_rd (Z.to_nat N) true (DG2RAD * la) (DG2RAD * lo) r 6371.2 ca)).
      apply val_rd_continuous; [lra|exact Rp].
    + apply (is_lim_ext_loc H).
      { exists (6371.2 + d_height data). intros r Hr. destruct (Rle_dec r (6371.2 + d_height data)); [lra|reflexivity]. }
      unfold H. replace (Finite 0) with (Rbar_mult (factor mb s f107) 0) by (cbn; f_equal; ring).
      now apply is_lim_scal_l, val_rd_limit.
    + destruct (val_rd_bounded (Z.to_nat N) (DG2RAD * la) (DG2RAD * lo) 6371.2 cb (6371.2 + d_height data) Rp') as [M HM].
      exists (Rabs (factor mb s f107) * M). intros r Hr. destruct (Rle_dec r (6371.2 + d_height data)) as [_|F]; [|now contradiction F].
      unfold G. rewrite Rabs_mult. apply Rmult_le_compat_l; [apply Rabs_pos|now apply HM].
Qed.
End Radial.

(** ** The accepted degrees *)

Lemma scale_item_iff degree height n : (exists x, scale_item degree height n = Some x) <-> (- (degree + 1) <= n <= degree)%Z /\ (0 <= degree)%Z.
Proof.
  unfold scale_item. destruct (Z.ltb_spec n 0) as [L|L].
  - destruct (Z.leb_spec 0 (n + (degree + 1))), (Z.ltb_spec (n + (degree + 1)) (degree + 1)); cbn [andb];
      (split; [intros (x & E); first [discriminate|lia]|intro; first [exfalso; lia|eauto]]).
  - destruct (Z.leb_spec 0 n), (Z.ltb_spec n (degree + 1)); cbn [andb];
      (split; [intros (x & E); first [discriminate|lia]|intro; first [exfalso; lia|eauto]]).
Qed.
Lemma scale_items_iff degree height nm :
  scale_items degree height nm = None <-> ~ List.Forall (fun p => (- (degree + 1) <= fst p <= degree)%Z /\ (0 <= degree)%Z) nm.
Proof.
  induction nm as [|[n m] nm IH]; cbn [scale_items].
  - split; [discriminate|]. intro H. exfalso. apply H. constructor.
  - rewrite List.Forall_cons_iff. cbn [fst]. rewrite <- (scale_item_iff degree height n).
    destruct (scale_item degree height n) as [x|]; [|split; [|reflexivity]; intros _ ((y & E) & _); discriminate].
    destruct (scale_items degree height nm) as [l|].
    + split; [discriminate|]. intro H. exfalso. apply H. split; [eauto|].
      assert (D : forall p : Z * Z, {(- (degree + 1) <= fst p <= degree)%Z /\ (0 <= degree)%Z} + {~ ((- (degree + 1) <= fst p <= degree)%Z /\ (0 <= degree)%Z)}).
      { intro p. destruct (Z_le_dec (- (degree + 1)) (fst p)), (Z_le_dec (fst p) degree), (Z_le_dec 0 degree); try (left; lia); right; lia. }
      destruct (Forall_dec _ D nm) as [F|F]; [exact F|]. apply IH in F. discriminate.
    + split; [|reflexivity]. intros _ (_ & F). apply (proj1 IH eq_refl). exact F.
Qed.
Lemma accepted_degrees {T} (year_fraction : T -> R) subsol validity data :
  (d_pmin data <= d_pmax data)%Z -> (d_smin data <= d_smax data)%Z ->
  load_external year_fraction subsol validity data = Err IndexError <->
  ~ List.Forall (fun p => (- (d_degree_max data + 1) <= fst p <= d_degree_max data)%Z /\ (0 <= d_degree_max data)%Z) (d_nm data).
Proof.
  intros Hp Hs. rewrite <- (scale_items_iff _ (d_height data)). unfold load_external, get_coeff_external, mio_series, convert_external_mio_coeff.
  replace ((d_pmax data <? d_pmin data)%Z || (d_smax data <? d_smin data)%Z) with false
    by (destruct (Z.ltb_spec (d_pmax data) (d_pmin data)), (Z.ltb_spec (d_smax data) (d_smin data)); try reflexivity; lia).
  cbn [bind]. destruct (scale_items _ _ _) as [l|]; cbn [bind]; [|tauto].
  destruct (Nat.eqb _ _); cbn [bind]; split; discriminate.
Qed.
