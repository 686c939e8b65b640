(** Proofs about the field of the MMA models. *)
From Coq Require Import Bool List Arith ZArith Reals Lia Lra.
From Coquelicot Require Import Coquelicot.
From Verif Require Import Ord ROrd RbarOrd IntervalsModel BisectModel InterpModel InterpSpec SnapshotProofs ArrModel CoefModel LegendreModel LegendreSpec GeoModel ShEvalModel ShEvalSpec
  SparseModel SparseSpec SparseProofs SeriesModel SeriesSpec SeriesProofs SeriesLineProofs TimeModel TempModel TempSpec TempProofs TempEquivProofs
  CoordModel CoordSpec CoordProofs ConvertProofs DipoleProofs FrameProofs FieldModel FieldSpec GradientProofs FieldProofs FileFieldSpec FileFieldProofs CompFieldSpec CompFieldProofs
  MmaModel MmaSpec MmaProofs MmaFieldModel MmaFieldSpec PositionProofs.
Import ListNotations.
Open Scope R_scope.
Set Bullet Behavior "Strict Subproofs".

(** ** The rotation of the vectors *)
Lemma triple {A B C} (a a' : A) (b b' : B) (c c' : C) : a = a' -> b = b' -> c = c' -> (a, b, c) = (a', b', c'). Proof. congruence. Qed.

Lemma space_sph2cart v lat lon r : vrot_sph2cart v lat lon = in_space CT_GEOCENTRIC_SPHERICAL (lat, lon, r) v.
Proof.
  destruct v as [[n e] u]. unfold vrot_sph2cart, rot2d, in_space. replace (DG2RAD) with one_degree by (symmetry; apply degree_eq).
  apply triple; ring.
Qed.
Lemma space_cart2sph v lat lon r ct : ct <> CT_GEOCENTRIC_CARTESIAN -> in_space ct (lat, lon, r) (vrot_cart2sph v lat lon) = v.
Proof.
  intro H. destruct v as [[x y] z]. unfold vrot_cart2sph, rot2d. replace (DG2RAD) with one_degree by (symmetry; apply degree_eq).
  rewrite !Ropp_mult_distr_l_reverse, !cos_neg, !sin_neg.
  pose proof (sin2_cos2 (one_degree * lat)) as A. pose proof (sin2_cos2 (one_degree * lon)) as B. unfold Rsqr in A, B.
  set (a := sin (one_degree * lat)) in *. set (b := cos (one_degree * lat)) in *. set (c := sin (one_degree * lon)) in *. set (d := cos (one_degree * lon)) in *.
  destruct ct; [| |congruence]; cbn [in_space]; fold a b c d;
    assert (A' : a * a = 1 - b * b) by lra; assert (B' : c * c = 1 - d * d) by lra; apply triple; ring [A' B'].
Qed.

(** the result of rotate_vectors_from_dipole in space *)
Lemma rotated_in_space g lat_ngp lon_ngp d x ci co :
  in_space co (convert x ci co) (rotate_vectors_from_dipole g lat_ngp lon_ngp d x ci co)
  = times_column (get_dipole_rotation_matrix lat_ngp lon_ngp) (in_space CT_GEOCENTRIC_SPHERICAL d g).
Proof.
  destruct d as [[la lo] r]. unfold rotate_vectors_from_dipole, vrot_from_dipole. rewrite (space_sph2cart g la lo r), dot_transpose.
  set (v := times_column _ _). destruct (convert x ci co) as [[c0 c1] c2] eqn:E. destruct co; cbn [ct_eqb].
  - apply space_cart2sph. discriminate.
  - apply space_cart2sph. discriminate.
  - destruct v as [[a b] c]. reflexivity.
Qed.

Lemma dipole_coordinates x lat_ngp lon_ngp ci d : usual CT_GEOCENTRIC_SPHERICAL d ->
  position CT_GEOCENTRIC_SPHERICAL d = row_times (position ci x) (get_dipole_rotation_matrix lat_ngp lon_ngp) ->
  usual CT_GEOCENTRIC_SPHERICAL (convert_to_dipole x lat_ngp lon_ngp ci) /\
  position CT_GEOCENTRIC_SPHERICAL (convert_to_dipole x lat_ngp lon_ngp ci) = position CT_GEOCENTRIC_SPHERICAL d.
Proof.
  intros U E. unfold convert_to_dipole. cbv zeta. rewrite cart_position, dot_row, <- E.
  destruct (convert_position CT_GEOCENTRIC_CARTESIAN CT_GEOCENTRIC_SPHERICAL (position CT_GEOCENTRIC_SPHERICAL d)) as [P Us].
  - destruct d as [[d0 d1] d2]. destruct U as [_ Hr]. destruct (position CT_GEOCENTRIC_SPHERICAL (d0, d1, d2)) as [[x0 x1] x2] eqn:Ep.
    intros Z. pose proof (distance_sph d0 d1 d2 ltac:(lra)) as D. rewrite Ep, Z in D. unfold distance in D.
    replace (0 * 0 + 0 * 0 + 0 * 0) with 0 in D by ring. rewrite sqrt_0 in D. lra.
  - intro K. discriminate.
  - split; [exact Us|]. rewrite P. now destruct (position CT_GEOCENTRIC_SPHERICAL d) as [[x0 x1] x2].
Qed.

(** ** The evaluation in the dipole frame *)
Section Dipole.
Variables (items : list leaf_set) (value : R -> Z -> Z -> R -> Prop) (N : nat) (internal : bool) (lo hi : Z) (lat_ngp lon_ngp : R) (ci co : coord_type) (scale : option vec3)
  (mem : arr * arr * coefs * arr * arr * arr).
Hypothesis F : fits N items value.

(** the value for a valid time *)
Definition dipole_value (u : R) (x : vec3) (o : option vec3) : Prop :=
  forall gh d0 d1 d2, usual CT_GEOCENTRIC_SPHERICAL (d0, d1, d2) ->
     position CT_GEOCENTRIC_SPHERICAL (d0, d1, d2) = row_times (position ci x) (get_dipole_rotation_matrix lat_ngp lon_ngp) ->
     coefficient_table (value u) lo hi gh ->
     exists g w, field_of internal gh N d0 d1 d2 g /\
       in_space co (convert x ci co) w = times_column (get_dipole_rotation_matrix lat_ngp lon_ngp) (in_space CT_GEOCENTRIC_SPHERICAL (d0, d1, d2) g) /\
       o = Some (match scale with Some s => vmul w s | None => w end).

Lemma dipole_eval_value (time : nd R) (location : nd vec3) : common_dims_match (dims time) (dims location) = true ->
  (if (length (dims location) <=? length (dims time))%nat then dims time else dims location) = dims location ->
  exists out, dipole_eval internal lo hi lat_ngp lon_ngp ci co scale mem items time location = Ok (dims location, out) /\
    Forall2 (fun ix o => dipole_value (at_index time ix) (at_index location ix) o) (indices (dims location)) out.
Proof.
  intros C O. destruct F as [HL Hb Hd Hcall Hex Habove]. unfold dipole_eval. cbv zeta.
  set (ld := {| dims := dims location; get := fun ix => convert_to_dipole (get location ix) lat_ngp lon_ngp ci |}).
  change (nd vec3) with (nd (R * R * R)) in *. rewrite uniform_eval.
  destruct (interpolated_ok (uniform items) internal lo hi time ld CT_GEOCENTRIC_SPHERICAL CT_GEOCENTRIC_SPHERICAL (1, 1, 1) mem) as [out E].
  { now rewrite uniform_length. }
  { exact (List.Forall_impl _ built_ok (uniform_built _ Hb)). }
  { exact C. }
  match type of E with _ = Ok (?o, _) => assert (O' : o = dims location) by exact O; rewrite O' in E; clear O' end.
  match goal with |- context [match ?e with Ok _ => _ | Err _ => _ end] => replace e with (Ok (dims location, out)) by (symmetry; exact E) end. eexists. split; [reflexivity|].
  destruct (paths_agree_arrays (uniform items) internal lo hi _ _ _ _ _ mem _ out (uniform_built _ Hb) (uniform_disjoint _ Hd)
      (fun ix => uniform_conversion items _) E) as [Lo Ho].
  apply forall2_nth; [rewrite map_length, combine_length; etransitivity; [|symmetry; apply Nat.min_l; apply Nat.eq_le_incl; symmetry; exact Lo]; reflexivity|]. intros k ix Hk. destruct (Ho k ix Hk) as (o & Hok & Hs).
  eexists. split; [apply (map_nth_error _ k); exact (combine_at _ _ _ _ _ Hk Hok)|]. cbv beta iota.
  intros gh d0 d1 d2 U P Hg. specialize (Hs mem).
  destruct (dipole_coordinates (at_index location ix) lat_ngp lon_ngp ci (d0, d1, d2) U P) as [U' P'].
  destruct (at_index ld ix) as [[e0 e1] e2] eqn:Ex.
  assert (Ex' : convert_to_dipole (at_index location ix) lat_ngp lon_ngp ci = (e0, e1, e2)) by exact Ex. unfold vec, vec3 in *. rewrite Ex' in U', P'.
  destruct (field_at items value N HL Hb Hcall Hex Habove internal lo hi _ gh Hg e0 e1 e2 mem (proj1 U') ltac:(pose proof (proj2 U'); lra)) as (field & Ef & Gf).
  rewrite <- Ex in Ef. pose proof (eq_trans (eq_sym Hs) Ef) as X. injection X as ->. cbn [snd].
  destruct (field_exists internal gh N d0 d1 d2 (proj1 U) ltac:(pose proof (proj2 U); lra)) as [g Gg].
  exists g, (rotate_vectors_from_dipole field lat_ngp lon_ngp (e0, e1, e2) (at_index location ix) ci co).
  split; [exact Gg|]. split; [|now rewrite <- Ex'].
  rewrite rotated_in_space. f_equal. exact (field_position internal gh N _ _ _ _ _ _ _ _ U' U P' Gf Gg).
Qed.

Lemma dipole_selected (txs : list (option R * vec3)) :
  let selected := map (fun tx => match fst tx with Some u => u | None => 0 end) txs in
  exists out, dipole_eval internal lo hi lat_ngp lon_ngp ci co scale mem items (vector 0 selected) (vector (0, 0, 0) (map snd txs)) = Ok ([length txs], out) /\
    Forall2 (fun tx o => forall u, fst tx = Some u -> dipole_value u (snd tx) o) txs out.
Proof.
  cbv zeta. set (ts := map _ txs).
  destruct (dipole_eval_value (vector 0 ts) (vector (0, 0, 0) (map snd txs))) as (out & E & G).
  - unfold ts. cbn [vector dims]. rewrite !map_length. cbn [common_dims_match]. now rewrite Nat.eqb_refl.
  - unfold ts. cbn [vector dims]. rewrite !map_length. reflexivity.
  - match type of E with _ = Ok (?d, _) => assert (Dl : d = [length txs]) by (cbn [vector dims]; now rewrite map_length); rewrite Dl in E, G end. exists out. split; [exact E|]. rewrite indices_1d in G.
    pose proof (forall2_length _ _ _ G) as L. rewrite map_length, seq_length in L.
    apply forall2_nth; [exact L|]. intros k tx Hk.
    assert (Lk : (k < length txs)%nat) by (apply (proj1 (nth_error_Some txs k)); rewrite Hk; discriminate).
    assert (Hi : nth_error (map (fun i => [i]) (seq 0 (length txs))) k = Some [k]).
    { apply (map_nth_error (fun i => [i])). rewrite (nth_error_nth' _ 0%nat) by (now rewrite seq_length). now rewrite seq_nth. }
    destruct (nth_error out k) as [o|] eqn:Ho; [|apply nth_error_None in Ho; lia].
    exists o. split; [reflexivity|]. intros u Hu. pose proof (forall2_at _ _ _ G k _ _ Hi Ho) as V.
    assert (A1 : at_index (vector 0 ts) [k] = u).
    { unfold at_index, vector. cbn [dims length firstn get hd]. apply nth_error_nth. unfold ts. rewrite (map_nth_error _ _ _ Hk), Hu. reflexivity. }
    assert (A2 : at_index (vector ((0, 0, 0) : vec3) (map snd txs)) [k] = snd tx).
    { unfold at_index, vector. cbn [dims length firstn get hd]. apply nth_error_nth. now apply map_nth_error. }
    exact (eq_ind _ (fun u' => dipole_value u' (snd tx) o) (eq_ind _ (fun x' => dipole_value (at_index (vector 0 ts) [k]) x' o) V _ A2) _ A1).
Qed.

Lemma dipole_array_one validity txs :
  exists out, dipole_array internal lo hi lat_ngp lon_ngp ci co scale mem [(validity, items)] (map (fun _ => None) txs) txs = Ok out /\
    Forall2 (dipole_result validity value internal lo hi N lat_ngp lon_ngp ci co scale) txs out.
Proof.
  cbn [dipole_array]. set (p := fun tx : option R * vec3 => time_valid validity (fst tx)). rewrite (select_filter p).
  destruct (dipole_selected (filter p txs)) as (out & E & G). unfold vec3 in *. rewrite E. eexists. split; [reflexivity|].
  pose proof (scatter_filter p _ txs (map (fun _ => None) txs) out (map_length _ _) G) as K.
  apply (combine_none (fun tx b o => (p tx = true -> forall u, fst tx = Some u -> dipole_value u (snd tx) o) /\ (p tx = false -> o = b))) in K.
  eapply forall2_impl; [|exact K]. intros [t x] o [K1 K2]. unfold dipole_result. cbv zeta. unfold p in K1, K2. cbn [fst snd] in K1, K2. split.
  - intro V. apply K2. apply not_true_iff_false. intro V'. now apply V, time_valid_spec.
  - intros u gh d0 d1 d2 Hu V. apply time_valid_spec in V. exact (K1 V u Hu gh d0 d1 d2).
Qed.

Lemma dipole_scalar_one validity t location :
  exists out, dipole_scalar internal lo hi lat_ngp lon_ngp ci co scale mem [(validity, items)] t location = Ok (dims location, out) /\
    Forall2 (dipole_result validity value internal lo hi N lat_ngp lon_ngp ci co scale) (map (fun ix => (t, at_index location ix)) (indices (dims location))) out.
Proof.
  cbn [dipole_scalar]. destruct (time_valid validity t) eqn:V.
  - destruct t as [u|]; [|discriminate]. destruct (dipole_eval_value (nd0 u) location) as (out & E & G).
    + reflexivity.
    + cbn [nd0 dims length]. destruct (dims location); reflexivity.
    + exists out. split; [exact E|]. clear E. induction G as [|ix o ixs out Hd G IH]; constructor; [|exact IH].
      split; [intro K; exfalso; now apply K, time_valid_spec|]. intros u' gh d0 d1 d2 [= <-] _. exact (Hd gh d0 d1 d2).
  - eexists. split; [reflexivity|]. generalize (indices (dims location)). induction l as [|ix l IH]; constructor; [|exact IH].
    split; [reflexivity|]. intros u gh d0 d1 d2 _ K. apply time_valid_spec in K. congruence.
Qed.
End Dipole.

Lemma dipole_none validity value N internal lo hi lat_ngp lon_ngp ci co scale mem : never validity ->
  (forall txs, exists out, dipole_array internal lo hi lat_ngp lon_ngp ci co scale mem [] (map (fun _ => None) txs) txs = Ok out /\
    Forall2 (dipole_result validity value internal lo hi N lat_ngp lon_ngp ci co scale) txs out) /\
  (forall t location, exists out, dipole_scalar internal lo hi lat_ngp lon_ngp ci co scale mem [] t location = Ok (dims location, out) /\
    Forall2 (dipole_result validity value internal lo hi N lat_ngp lon_ngp ci co scale) (map (fun ix => (t, at_index location ix)) (indices (dims location))) out).
Proof.
  intro Nv. assert (K : forall tx, dipole_result validity value internal lo hi N lat_ngp lon_ngp ci co scale tx None).
  { intros [t x]. split; [reflexivity|]. intros u gh d0 d1 d2 _ V. now apply Nv in V. }
  split.
  - intro txs. eexists. split; [reflexivity|]. induction txs; constructor; auto.
  - intros t location. eexists. split; [reflexivity|]. generalize (indices (dims location)). induction l; constructor; auto.
Qed.

(** ** MMA files *)
Lemma mma_made nm files : files <> [] -> proper_files nm files ->
  exists cs td, mma_series files = Ok td /\ mk_time_dependent nm cs (all_times files) 2 None None (fun x => x) = Some td.
Proof.
  intros Hf ((Hne & Hv & Hd) & P & O & D & L). destruct files as [|f files]; [congruence|].
  pose proof (mma_sized nm (f :: files) Hf (conj Hne (conj Hv Hd)) P O D L) as (td & E & _). exists (map (fun i => flat_map (fun f => col f i) (f :: files)) (seq 0 (length nm))), td.
  split; [exact E|]. rewrite mma_series_eq, (merged_ok nm f files Hne P O) in E. cbn [bind mma_nm mma_coeff mma_t] in E.
  destruct (mk_time_dependent _ _ _ _ _ _ _) as [td'|]; [|discriminate]. congruence.
Qed.

Lemma mma_built nm files td N : files <> [] -> proper_files nm files -> nm_up_to nm N -> (Z.of_nat N < 2 ^ 24)%Z -> mma_series files = Ok td ->
  built_set (mma_leaf td) /\ forall p, In p (leaf_nms (mma_leaf td)) -> In p nm.
Proof.
  intros Hf P Hn HN E. destruct (mma_made nm files Hf P) as (cs & td' & E' & M). rewrite E in E'. injection E' as <-. destruct P as ((_ & Hv & Hd) & _ & _ & _ & L). split.
  - do 8 eexists. split; [exact M|]. cbn [mma_leaf fst].
    split; [reflexivity|split; [reflexivity|split; [reflexivity|split; [|split; [exact Hd|intros _; exact L]]]]].
    intros i n m Hi. split; [exact (Hv i n m Hi)|]. apply nth_error_In, Hn in Hi. lia.
  - intros p Hp. exact (built_nms _ _ _ _ _ _ _ _ p M Hv Hd Hp).
Qed.

Lemma mma_value_exists nm files n m t : proper_files nm files -> exists v, mma_value nm files n m t v.
Proof.
  intros (_ & P & _ & D & L).
  destruct (in_dec (fun x y : Z * Z => ltac:(decide equality; apply Z.eq_dec)) (n, m) nm) as [I|I]; [|exists 0; right; now split].
  apply In_nth_error in I as [i Hi].
  assert (Pt : forall u, In u (all_times files) -> exists v, mma_point nm files n m u v).
  { intros u Hu. unfold all_times in Hu. apply in_flat_map in Hu as (f & Hf & Hu). unfold file_times in Hu. apply in_map_iff in Hu as (raw & <- & Hr).
    apply In_nth_error in Hr as [k Hk]. destruct (P f Hf) as (_ & _ & _ & Lc & Lr).
    destruct (length_at (cv_time f) (cv_coeff f) k raw (eq_sym Lc) Hk) as [row Hrow].
    destruct (nth_error row i) as [v|] eqn:Hv.
    - exists v, f, i, k, raw, row. tauto.
    - apply nth_error_None in Hv. rewrite (Lr row (nth_error_In _ _ Hrow)) in Hv. assert (nth_error nm i <> None) as K by congruence. apply nth_error_Some in K. lia. }
  destruct (all_times files) as [|t0 [|t1 ts]] eqn:Et; [cbn in L; lia|cbn in L; lia|]. rewrite <- Et in *.
  assert (Two : exists a b, In a (all_times files) /\ In b (all_times files) /\ a < b).
  { assert (I0 : In t0 (all_times files)) by (rewrite Et; now left). assert (I1 : In t1 (all_times files)) by (rewrite Et; right; now left).
    destruct (D 0%nat 1%nat t0 t1 ltac:(lia)) as [K|K]; [now rewrite Et|now rewrite Et| |]; apply lt_R in K; [exists t0, t1|exists t1, t0]; auto. }
  destruct (around (fun x => x) (all_times files) t Two) as (ta & tb & Ia & Ib & Nb & H1 & H2); [auto|].
  destruct (Pt ta Ia) as [ca Ca]. destruct (Pt tb Ib) as [cb Cb]. exists (line ta ca tb cb t). left. exists ta, ca, tb, cb. tauto.
Qed.

Lemma mma_value_above nm files n m t v N : nm_up_to nm N -> (Z.of_nat N < n)%Z -> mma_value nm files n m t v -> v = 0.
Proof.
  intros H L [(ta & ca & tb & cb & (f & i & k & raw & row & _ & Hi & _) & _)|[_ ->]]; [|reflexivity].
  apply nth_error_In, H in Hi. lia.
Qed.

Lemma mma_leaf_call nm files td : files <> [] -> proper_files nm files -> mma_series files = Ok td ->
  forall t lo hi, exists result, td_call td (fun x => x) (Some t) lo hi = Some result /\
    forall n m v, valid_nm n m -> mma_value nm files n m t v -> bounded_coefficient lo hi result n m v.
Proof.
  intros Hf P E t lo hi. destruct (mma_values nm files Hf P) as (td' & E' & _ & H). unfold load_coeff_mma_single_set in E'. rewrite E in E'. injection E' as <-. exact (H t lo hi).
Qed.

Lemma mma_fits nm files td N : files <> [] -> proper_files nm files -> nm_up_to nm N -> (Z.of_nat N < 2 ^ 24)%Z -> mma_series files = Ok td ->
  fits N [mma_leaf td] (fun u n m v => mma_value nm files n m u v).
Proof.
  intros Hf P Hn HN E. constructor.
  - apply single_length.
  - constructor; [|constructor]. exact (proj1 (mma_built nm files td N Hf P Hn HN E)).
  - apply single_disjoint'.
  - apply (single_call (mma_leaf td) (fun u n m v => mma_value nm files n m u v)). exact (mma_leaf_call nm files td Hf P E).
  - intros t n m _. now apply mma_value_exists.
  - intros t n m v L. now apply (mma_value_above nm files n m t v N).
Qed.

Lemma mma_2c_fits nm1 nm2 files s1 s2 N : files <> [] -> proper_files nm1 (map fst files) -> proper_files nm2 (map snd files) ->
  nm_up_to nm1 N -> nm_up_to nm2 N -> (Z.of_nat N < 2 ^ 24)%Z -> (forall p, In p nm1 -> ~ In p nm2) ->
  mma_series (map fst files) = Ok s1 -> mma_series (map snd files) = Ok s2 ->
  fits N [mma_leaf s1; mma_leaf s2] (two_sets_value nm1 nm2 files).
Proof.
  intros Hf P1 P2 Hn1 Hn2 HN Dj E1 E2.
  assert (N1 : map fst files <> []) by (destruct files; [congruence|discriminate]).
  assert (N2 : map snd files <> []) by (destruct files; [congruence|discriminate]).
  destruct (mma_built nm1 _ s1 N N1 P1 Hn1 HN E1) as [B1 I1]. destruct (mma_built nm2 _ s2 N N2 P2 Hn2 HN E2) as [B2 I2]. constructor.
  - cbn. lia.
  - constructor; [exact B1|constructor; [exact B2|constructor]].
  - intros [|[|i]] [|[|j]] a b nm Hi Hj Ha Hb; cbn [nth_error] in Hi, Hj; try reflexivity; try (exfalso; exact (nil_none _ _ Hi)); try (exfalso; exact (nil_none _ _ Hj)).
    + exfalso. apply some_inj in Hi, Hj. subst a b. exact (Dj nm (I1 nm Ha) (I2 nm Hb)).
    + exfalso. apply some_inj in Hi, Hj. subst a b. exact (Dj nm (I1 nm Hb) (I2 nm Ha)).
  - intros t lo hi n m v V (v1 & v2 & H1 & H2 & ->). exists [v1; v2]. split; [cbn [fold_right]; ring|].
    destruct (mma_leaf_call nm1 _ s1 N1 P1 E1 t lo hi) as (r1 & R1 & A1). destruct (mma_leaf_call nm2 _ s2 N2 P2 E2 t lo hi) as (r2 & R2 & A2).
    constructor; [exists r1; split; [exact R1|now apply A1]|constructor; [exists r2; split; [exact R2|now apply A2]|constructor]].
  - intros t n m _. destruct (mma_value_exists nm1 _ n m t P1) as [v1 H1]. destruct (mma_value_exists nm2 _ n m t P2) as [v2 H2]. exists (v1 + v2), v1, v2. auto.
  - intros t n m v L (v1 & v2 & H1 & H2 & ->). rewrite (mma_value_above nm1 _ n m t v1 N Hn1 L H1), (mma_value_above nm2 _ n m t v2 N Hn2 L H2). ring.
Qed.

Lemma mma_covers nm files td : files <> [] -> proper_files nm files -> mma_series files = Ok td -> covers files (mma_validity td).
Proof.
  intros Hf P E a b Ia Fa Ib Fb t. destruct (mma_values nm files Hf P) as (td' & E' & V & _). unfold load_coeff_mma_single_set in E'. rewrite E in E'. injection E' as <-.
  unfold mma_validity, in_validity. rewrite (V a b Ia Fa Ib Fb). cbn [fst snd Rbar_le]. reflexivity.
Qed.

Lemma mma_2f_field nm files N internal lo hi mem : files <> [] -> proper_files nm files -> nm_up_to nm N -> (Z.of_nat N < 2 ^ 24)%Z ->
  exists td, load_coeff_mma_single_set files = Ok td /\ covers files (mma_validity td) /\
    (forall txs, exists out,
       components_array internal lo hi CT_GEOCENTRIC_SPHERICAL CT_GEOCENTRIC_SPHERICAL (1, 1, 1) mem (mma_components td) (map (fun _ => None) txs) txs = Ok out /\
       Forall2 (field_result (mma_validity td) (fun u n m v => mma_value nm files n m u v) internal lo hi N) txs out) /\
    (forall t location, exists out,
       components_scalar internal lo hi CT_GEOCENTRIC_SPHERICAL CT_GEOCENTRIC_SPHERICAL (1, 1, 1) mem (mma_components td) t location = Ok (dims location, out) /\
       Forall2 (field_result (mma_validity td) (fun u n m v => mma_value nm files n m u v) internal lo hi N)
         (map (fun ix => (t, at_index location ix)) (indices (dims location))) out).
Proof.
  intros Hf P Hn HN. destruct (mma_values nm files Hf P) as (td & E & _). exists td. split; [exact E|]. unfold load_coeff_mma_single_set in E.
  split; [exact (mma_covers nm files td Hf P E)|].
  destruct (mma_fits nm files td N Hf P Hn HN E) as [HL Hb Hd Hcall Hex Habove].
  destruct (evaluates_set [mma_leaf td] (mma_validity td) _ N internal lo hi mem HL Hb Hd Hcall Hex Habove) as [A B]. split.
  - intro txs. destruct (A txs) as (out & Eo & G). exists out. split; [|exact G]. unfold mma_components. cbn [components_array].
    unfold model_eval_array in Eo. rewrite Eo. reflexivity.
  - intros t location. destruct (B t location) as (out & Eo & G). exists out. split; [|exact G]. unfold mma_components. cbn [components_scalar].
    destruct (time_valid (mma_validity td) t) eqn:V; [exact Eo|]. unfold model_eval_scalar in Eo. rewrite V in Eo. exact Eo.
Qed.

Definition common_validity (v w : Rbar * Rbar) : Rbar * Rbar := (tmax (fst v) (fst w), tmin (snd v) (snd w)).

Lemma common_valid v w t : in_validity (common_validity v w) t <-> in_validity v t /\ in_validity w t.
Proof.
  split.
  - intros (u & -> & A & B). cbn [common_validity fst snd] in A, B. apply rbar_le in A, B. apply le_tmax in A. apply tmin_le in B.
    split; exists u; (split; [reflexivity|]); split; apply rbar_le; tauto.
  - intros [(u & -> & A & B) (u' & [= <-] & A' & B')]. exists u. split; [reflexivity|]. cbn [common_validity fst snd].
    apply rbar_le in A, B, A', B'. split; apply rbar_le; [apply le_tmax|apply tmin_le]; tauto.
Qed.

Lemma aggregate_next v ls w leaf (aggs : list ((Rbar * Rbar) * list leaf_set)) : aggs = [(v, ls)] \/ aggs = [] /\ never v ->
  let comps := aggregate_intersected_intervals [(w, leaf)] (Some aggs) in
  comps = [(common_validity v w, ls ++ [leaf])] \/ comps = [] /\ never (common_validity v w).
Proof.
  intro H. cbv zeta. unfold aggregate_intersected_intervals.
  destruct H as [->|[-> H]]; [|right; split; [apply aggregate_none|intros t K; apply common_valid in K; now apply (H t)]].
  rewrite aggregate_one. unfold istart, iend, iobj. cbn [fst snd]. unfold intersect.
  destruct (leb (fst v) (snd w) && leb (fst w) (snd v)) eqn:B; [left; reflexivity|right; split; [reflexivity|]].
  intros t K. apply common_valid in K as [(u & -> & A1 & A2) (u' & [= <-] & A1' & A2')].
  apply rbar_le in A1, A2, A1', A2'.
  assert (leb (fst v) (snd w) = true) as B1 by (apply leb_le; eapply le_trans; eauto).
  assert (leb (fst w) (snd v) = true) as B2 by (apply leb_le; eapply le_trans; eauto). rewrite B1, B2 in B. discriminate.
Qed.

Lemma mma_2c_are s : exists comps, mma_2c_components s = Some comps /\
  let v := common_validity (mma_validity (fst s)) (mma_validity (snd s)) in
  (comps = [(v, [mma_leaf (fst s); mma_leaf (snd s)])] \/ comps = [] /\ never v).
Proof.
  unfold mma_2c_components. cbn [fold_left]. eexists. split; [reflexivity|]. cbv zeta.
  apply (aggregate_next (mma_validity (fst s)) [mma_leaf (fst s)]). left. reflexivity.
Qed.

Lemma mma_2c_field nm1 nm2 files N internal lo hi lat_ngp lon_ngp ci co scale mem :
  files <> [] -> proper_files nm1 (map fst files) -> proper_files nm2 (map snd files) ->
  nm_up_to nm1 N -> nm_up_to nm2 N -> (Z.of_nat N < 2 ^ 24)%Z -> (forall p, In p nm1 -> ~ In p nm2) ->
  exists s comps v v1 v2, load_coeff_mma_multi_set files = Ok s /\ mma_2c_components s = Some comps /\
    covers (map fst files) v1 /\ covers (map snd files) v2 /\ (forall t, in_validity v t <-> in_validity v1 t /\ in_validity v2 t) /\
    (forall txs, exists out,
       dipole_array internal lo hi lat_ngp lon_ngp ci co scale mem comps (map (fun _ => None) txs) txs = Ok out /\
       Forall2 (dipole_result v (two_sets_value nm1 nm2 files) internal lo hi N lat_ngp lon_ngp ci co scale) txs out) /\
    (forall t location, exists out,
       dipole_scalar internal lo hi lat_ngp lon_ngp ci co scale mem comps t location = Ok (dims location, out) /\
       Forall2 (dipole_result v (two_sets_value nm1 nm2 files) internal lo hi N lat_ngp lon_ngp ci co scale)
         (map (fun ix => (t, at_index location ix)) (indices (dims location))) out).
Proof.
  intros Hf P1 P2 Hn1 Hn2 HN Dj.
  assert (N1 : map fst files <> []) by (destruct files; [congruence|discriminate]).
  assert (N2 : map snd files <> []) by (destruct files; [congruence|discriminate]).
  destruct (mma_values nm1 _ N1 P1) as (s1 & E1 & _). destruct (mma_values nm2 _ N2 P2) as (s2 & E2 & _). unfold load_coeff_mma_single_set in E1, E2.
  pose proof (mma_2c_fits nm1 nm2 files s1 s2 N Hf P1 P2 Hn1 Hn2 HN Dj E1 E2) as F.
  destruct (mma_2c_are (s1, s2)) as (comps & Ec & C). cbn [fst snd] in C.
  exists (s1, s2), comps, (common_validity (mma_validity s1) (mma_validity s2)), (mma_validity s1), (mma_validity s2).
  split; [unfold load_coeff_mma_multi_set; rewrite E1, E2; reflexivity|]. split; [exact Ec|].
  split; [exact (mma_covers nm1 _ s1 N1 P1 E1)|]. split; [exact (mma_covers nm2 _ s2 N2 P2 E2)|]. split; [intro t; apply common_valid|].
  destruct C as [->|[-> Nv]].
  - split; [intro txs; apply dipole_array_one; exact F|intros t location; apply dipole_scalar_one; exact F].
  - exact (dipole_none _ _ N internal lo hi lat_ngp lon_ngp ci co scale mem Nv).
Qed.
