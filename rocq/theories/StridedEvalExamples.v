(** Examples and counterexamples for the evaluation of the models for arrays in memory. *)

From Coq Require Import Bool List Reals ZArith Lia Lra.
From Verif Require Import ArrModel LegendreModel LegendreSpec LegendreHigh GeoModel SizeModel CoefModel ShEvalModel ShEvalSpec ShEvalProofs
  ShEvalGradProofs ShEvalLinProofs ShEvalExamples TempModel TempSpec TempProofs TempEquivProofs TempExamples
  FourierModel FourierSpec FourierProofs FourierEvalProofs FourierExamples
  StridedModel StridedSpec StridedProofs StridedExamples
  StridedEvalModel StridedEvalSpec StridedEvalProofs StridedEvalTopProofs.
Import ListNotations.
Open Scope Z_scope.

(** ** Errors *)
Lemma check_coord_error ct : ~ 0 <= ct <= 2 -> check_coord_type ct = Err ValueError.
Proof.
  intro H. unfold check_coord_type.
  destruct (Z.eqb_spec ct 0); [lia|]. destruct (Z.eqb_spec ct 1); [lia|]. destruct (Z.eqb_spec ct 2); [lia|reflexivity].
Qed.
Lemma check_mode_error mode : ~ 1 <= mode <= 3 -> check_sheval_mode mode = Err ValueError.
Proof.
  intro H. unfold check_sheval_mode.
  destruct (Z.eqb_spec mode 1); [lia|]. destruct (Z.eqb_spec mode 2); [lia|]. destruct (Z.eqb_spec mode 3); [lia|reflexivity].
Qed.

Lemma codes_error ci co mode : ~ (0 <= ci <= 2 /\ 0 <= co <= 2 /\ 1 <= mode <= 3) ->
  forall {A} (f : coord_type -> coord_type -> sheval_mode -> result A),
  bind (check_coord_type ci) (fun ci => bind (check_coord_type co) (fun co => bind (check_sheval_mode mode) (fun mode => f ci co mode)))
  = Err ValueError.
Proof.
  intros H A f. destruct (check_coord_cases ci) as [(c1 & ->)| ->]; [|reflexivity]. rewrite check_coord_ok. cbn [bind].
  destruct (check_coord_cases co) as [(c2 & ->)| ->]; [|reflexivity]. rewrite check_coord_ok. cbn [bind].
  rewrite check_mode_error; [reflexivity|]. intro M. apply H. split; [destruct c1; cbn; lia|].
  split; [destruct c2; cbn; lia|exact M].
Qed.

Lemma scale_error m a : shape a <> [] -> shape a <> [3%nat] -> gradient_scale m (Some a) = Err ValueError.
Proof.
  intros H1 H2. cbn [gradient_scale]. unfold extract_1d. destruct (shape a) as [|n [|k l]]; [congruence| |reflexivity].
  destruct (stride a) as [|s [|? ?]]; try reflexivity. destruct (Nat.eqb_spec n 3) as [->|]; [congruence|reflexivity].
Qed.

Lemma sheval_codes m bp bg junk x coef ci co mode internal deg sp scale mem :
  ~ (0 <= ci <= 2 /\ 0 <= co <= 2 /\ 1 <= mode <= 3) ->
  sheval_array m bp bg junk x coef ci co mode internal deg sp scale mem = Err ValueError.
Proof. intro H. unfold sheval_array. now apply codes_error. Qed.
Lemma shevaltemp_codes m bp bg junk t x sets ci co mode internal sp scale mem :
  ~ (0 <= ci <= 2 /\ 0 <= co <= 2 /\ 1 <= mode <= 3) ->
  shevaltemp_array m bp bg junk t x sets ci co mode internal sp scale mem = Err ValueError.
Proof. intro H. unfold shevaltemp_array. now apply codes_error. Qed.
Lemma sheval2dfs_codes m bp bg junk t1 t2 x s ci co mode internal sp scale mem fmem :
  ~ (0 <= ci <= 2 /\ 0 <= co <= 2 /\ 1 <= mode <= 3) ->
  sheval2dfs_array m bp bg junk t1 t2 x s ci co mode internal sp scale mem fmem = Err ValueError.
Proof. intro H. unfold sheval2dfs_array. now apply codes_error. Qed.

Lemma mode_cases mode : (exists md, mode = mode_code md) \/ check_sheval_mode mode = Err ValueError.
Proof.
  unfold check_sheval_mode. destruct (Z.eqb_spec mode 1) as [->|]; [left; now exists SM_POTENTIAL|].
  destruct (Z.eqb_spec mode 2) as [->|]; [left; now exists SM_GRADIENT|].
  destruct (Z.eqb_spec mode 3) as [->|]; [left; now exists SM_POTENTIAL_AND_GRADIENT|now right].
Qed.

Lemma sheval_scale_error m bp bg junk x coef ci co mode internal deg sp a mem :
  shape a <> [] -> shape a <> [3%nat] ->
  sheval_array m bp bg junk x coef ci co mode internal deg sp (Some a) mem = Err ValueError.
Proof.
  intros H1 H2. unfold sheval_array.
  destruct (check_coord_cases ci) as [(c1 & ->)| ->]; [|reflexivity]. rewrite check_coord_ok. cbn [bind].
  destruct (check_coord_cases co) as [(c2 & ->)| ->]; [|reflexivity]. rewrite check_coord_ok. cbn [bind].
  destruct (mode_cases mode) as [(md & ->)| ->]; [|reflexivity]. rewrite mode_code_ok. cbn [bind]. cbv zeta.
  destruct (length (shape x) <? 1)%nat; [reflexivity|]. destruct (length (shape coef) <? 2)%nat; [reflexivity|].
  destruct (_ <? 0); [reflexivity|]. destruct (_ && _); [reflexivity|].
  destruct (compare_dimensions _ _ || _); [reflexivity|]. destruct (negb _); [reflexivity|].
  destruct (new_outputs _ _ _ _ _ _) as [[m1 pot] grd]. now rewrite scale_error.
Qed.

Lemma shevaltemp_wrong m bp bg junk t x sets ci co mode internal sp scale mem :
  last (shape x) 0%nat <> 3%nat \/ (exists a, scale = Some a /\ shape a <> [] /\ shape a <> [3%nat]) ->
  shevaltemp_array m bp bg junk t x sets ci co mode internal sp scale mem = Err ValueError.
Proof.
  intros H. unfold shevaltemp_array.
  destruct (check_coord_cases ci) as [(c1 & ->)| ->]; [|reflexivity]. rewrite check_coord_ok. cbn [bind].
  destruct (check_coord_cases co) as [(c2 & ->)| ->]; [|reflexivity]. rewrite check_coord_ok. cbn [bind].
  destruct (mode_cases mode) as [(md & ->)| ->]; [|reflexivity]. rewrite mode_code_ok. cbn [bind].
  destruct (length sets <? 1)%nat; [reflexivity|]. destruct (16 <? length sets)%nat; [reflexivity|].
  destruct (parse_coefsets sets); [|reflexivity]. cbv zeta. destruct (length (shape x) <? 1)%nat; [reflexivity|].
  destruct (Nat.eqb_spec (last (shape x) 0%nat) 3) as [E|]; [|reflexivity]. destruct H as [H|(a & -> & H1 & H2)]; [congruence|].
  cbn [negb]. destruct (negb _); [reflexivity|]. now rewrite scale_error.
Qed.
Lemma sheval2dfs_wrong m bp bg junk t1 t2 x s ci co mode internal sp scale mem fmem :
  last (shape x) 0%nat <> 3%nat \/ (exists a, scale = Some a /\ shape a <> [] /\ shape a <> [3%nat]) ->
  sheval2dfs_array m bp bg junk t1 t2 x s ci co mode internal sp scale mem fmem = Err ValueError.
Proof.
  intros H. unfold sheval2dfs_array.
  destruct (check_coord_cases ci) as [(c1 & ->)| ->]; [|reflexivity]. rewrite check_coord_ok. cbn [bind].
  destruct (check_coord_cases co) as [(c2 & ->)| ->]; [|reflexivity]. rewrite check_coord_ok. cbn [bind].
  destruct (mode_cases mode) as [(md & ->)| ->]; [|reflexivity]. rewrite mode_code_ok. cbn [bind].
  destruct (length (shape x) <? 1)%nat; [reflexivity|]. cbv zeta.
  destruct (negb (common_dims_match (shape t1) (shape t2))); [reflexivity|].
  destruct (negb (common_dims_match (shape t1) _)); [reflexivity|].
  destruct (negb (common_dims_match (shape t2) _)); [reflexivity|].
  destruct (Nat.eqb_spec (last (shape x) 0%nat) 3) as [E|]; [|reflexivity]. destruct H as [H|(a & -> & H1 & H2)]; [congruence|].
  cbn [negb]. now rewrite scale_error.
Qed.

(** ** Arrays in the memory of eight doubles *)
(** the rows (0, 1, 2) and (3, 4, 5) *)
Definition rows : arrd := {| data := 0; shape := [2; 3]%nat; stride := [24; 8] |}.
(** one coefficient (1, 2) *)
Definition monopole : arrd := {| data := 8; shape := [1; 2]%nat; stride := [16; 8] |}.
Definition two (a b : R * R * R) : nd (R * R * R) :=
  {| dims := [2%nat]; get := fun idx => match idx with [0%nat] => a | _ => b end |}.
Definition two_rows := two (0, 1, 2)%R (3, 4, 5)%R.
Definition two_columns := two (0, 2, 4)%R (1, 3, 5)%R.
Definition nmonopole : nd coefs := nd0 (fun _ => (1, 2)%R).

Lemma rows_at : positions eight rows two_rows.
Proof.
  split; [reflexivity|]. split; [reflexivity|]. intros idx H. cbn [two_rows two dims] in H.
  inversion H as [|i ? ? ? Li T]; subst. inversion T; subst. unfold Nat.lt in *.
  destruct i as [|[|i]]; [..|lia]; reflexivity.
Qed.
Lemma columns_at : positions eight columns two_columns.
Proof.
  split; [reflexivity|]. split; [reflexivity|]. intros idx H. cbn [two_columns two dims] in H.
  inversion H as [|i ? ? ? Li T]; subst. inversion T; subst. unfold Nat.lt in *.
  destruct i as [|[|i]]; [..|lia]; reflexivity.
Qed.
Lemma monopole_at : coefficients eight monopole 1 nmonopole.
Proof.
  split; [reflexivity|]. split; [reflexivity|]. intros idx k H Hk. cbn [nmonopole nd0 dims] in H.
  inversion H; subst. assert (k = 0%nat) by lia. subst. split; reflexivity.
Qed.
Lemma monopole_contiguous : c_contiguous monopole.
Proof.
  intros idx H. cbn [monopole shape] in H. inversion H as [|i ? ? ? Li T]; subst. inversion T as [|j ? ? ? Lj U]; subst. inversion U; subst.
  unfold Nat.lt in *. destruct i; [|lia]. destruct j as [|[|j]]; [..|lia]; reflexivity.
Qed.

Lemma free_after k n : 8 <= k -> free_at eight (8 * k) n.
Proof.
  intro H. split; [rewrite Z.mul_comm; apply Z.mod_mul; lia|]. intros j Hj. rewrite Z.mul_comm, Z.div_mul in Hj by lia. unfold eight.
  destruct (Z.ltb_spec j 8); [lia|]. now rewrite andb_false_r.
Qed.

Lemma deg0 : expansion_degree 1 (-1) 0.
Proof. exists 0%nat. split; [lia|reflexivity]. Qed.

(** the potential of a monopole *)
Lemma monopole_potential lat lon rad : potential true 6371.2 (fun n m => (fun _ => (1, 2)%R) (n * (n + 1) / 2 + m)%nat) 0
  rad (lat * (PI / 180)) (lon * (PI / 180)) = (6371.2 * (6371.2 / rad))%R.
Proof.
  unfold potential, radial. cbn [sum_f_R0 fst snd INR Nat.add pow]. rewrite schmidt_00, !Rmult_0_l, cos_0, sin_0. ring.
Qed.

Definition spherical (x : nd (R * R * R)) mem :=
  sheval x 1 nmonopole CT_GEOCENTRIC_SPHERICAL CT_GEOCENTRIC_SPHERICAL SM_POTENTIAL true (-1) 1 (1, 1, 1)%R mem.

Lemma monopole_two a0 a1 a2 b0 b1 b2 mem : (-90 <= a0 <= 90)%R -> (-90 <= b0 <= 90)%R -> (a2 <> 0)%R -> (b2 <> 0)%R ->
  spherical (two (a0, a1, a2) (b0, b1, b2)) mem =
  Ok ([2%nat], [(Some (6371.2 * (6371.2 / a2))%R, None); (Some (6371.2 * (6371.2 / b2))%R, None)]).
Proof.
  intros A0 B0 A2 B2. unfold spherical.
  destruct (proj2 (sheval_succeeds (two (a0, a1, a2) (b0, b1, b2)) 1 nmonopole CT_GEOCENTRIC_SPHERICAL CT_GEOCENTRIC_SPHERICAL
    SM_POTENTIAL true (-1) 1 (1, 1, 1)%R mem)) as ([od out] & E).
  { destruct (call_ok_size 1 (-1) ltac:(lia)) as [C1 C2]. split; [exact C1|]. split; [exact C2|]. right. now exists [2%nat]. }
  rewrite E. destruct (batch_pointwise _ _ _ _ _ _ _ _ _ _ _ _ _ E) as (L & Q).
  destruct (sheval_value _ _ _ _ _ _ _ _ _ _ _ _ _ E) as (O & _). cbn in O. subst od.
  destruct (Q 0%nat [0%nat] eq_refl) as (o & N & P). specialize (P mem).
  destruct (Q 1%nat [1%nat] eq_refl) as (o' & N' & P'). specialize (P' mem).
  unfold at_index in P, P'. cbn [two get dims length firstn nmonopole nd0] in P, P'.
  rewrite (potential_any_output 1 (-1) 0) in P by (try lia; try exact deg0; assumption).
  rewrite (potential_any_output 1 (-1) 0) in P' by (try lia; try exact deg0; assumption).
  rewrite monopole_potential, Rmult_1_l in P, P'.
  assert (Eo : o = (Some (6371.2 * (6371.2 / a2))%R, None)) by congruence.
  assert (Eo' : o' = (Some (6371.2 * (6371.2 / b2))%R, None)) by congruence. subst o o'. clear - L N N'. cbn in L.
  destruct out as [|x [|y [|z l]]]; try discriminate. cbn in N, N'. congruence.
Qed.

Lemma ex_sheval junk mem : exists m' out,
  positions eight rows two_rows /\ packed rows /\ coefficients eight monopole 1 nmonopole /\ c_contiguous monopole /\
  room eight 64 0 SM_POTENTIAL [2%nat] /\
  sheval_array eight 64 0 junk rows monopole 1 1 1 true (-1) 1 None mem = Ok (m', Some out, None) /\
  element m' out [0%nat] = Some (6371.2 * (6371.2 / 2))%R /\ element m' out [1%nat] = Some (6371.2 * (6371.2 / 5))%R.
Proof.
  pose proof (sheval_packed eight 64 0 junk rows two_rows monopole 1 nmonopole CT_GEOCENTRIC_SPHERICAL CT_GEOCENTRIC_SPHERICAL
    SM_POTENTIAL true (-1) 1 None (1, 1, 1)%R mem rows_at eq_refl monopole_at monopole_contiguous ltac:(lia) eq_refl (free_64 2)) as S.
  change (Z.of_nat 1) with 1 in S. fold (spherical two_rows mem) in S. unfold two_rows in S at 1.
  rewrite monopole_two in S by lra. destruct S as (m' & pot & grd & E & (a & -> & _ & _ & Q) & ->).
  exists m', a. split; [exact rows_at|]. split; [reflexivity|]. split; [exact monopole_at|]. split; [exact monopole_contiguous|].
  split; [exact (free_64 2)|]. split; [exact E|].
  destruct (Q 0%nat [0%nat] eq_refl) as (v & g & N & V). destruct (Q 1%nat [1%nat] eq_refl) as (v' & g' & N' & V').
  cbn [nth_error] in N, N'. split; congruence.
Qed.

(** ** Arrays of other layouts *)
(** the positions which are read from the transposed array *)
Definition misread : nd (R * R * R) := two (0, 1, 2)%R (1, 2, 3)%R.

Lemma columns_raw : raw_positions eight columns misread.
Proof.
  split; [now exists 3%nat|]. split; [reflexivity|]. intros idx H. cbn [misread two dims] in H.
  inversion H as [|i ? ? ? Li T]; subst. inversion T; subst. unfold Nat.lt in *.
  destruct i as [|[|i]]; [..|lia]; repeat split; reflexivity.
Qed.

Lemma strided_refuted : forall junk mem,
  positions eight columns two_columns /\ coefficients eight monopole 1 nmonopole /\ c_contiguous monopole /\
  room eight 64 0 SM_POTENTIAL [2%nat] /\
  sheval two_columns 1 nmonopole CT_GEOCENTRIC_SPHERICAL CT_GEOCENTRIC_SPHERICAL SM_POTENTIAL true (-1) 1 (1, 1, 1)%R mem =
    Ok ([2%nat], [(Some (6371.2 * (6371.2 / 4))%R, None); (Some (6371.2 * (6371.2 / 5))%R, None)]) /\
  exists m' out,
  sheval_array eight 64 0 junk columns monopole 1 1 1 true (-1) 1 None mem = Ok (m', Some out, None) /\
  element m' out [0%nat] = Some (6371.2 * (6371.2 / 2))%R /\ element m' out [1%nat] = Some (6371.2 * (6371.2 / 3))%R.
Proof.
  intros junk mem. split; [exact columns_at|]. split; [exact monopole_at|]. split; [exact monopole_contiguous|]. split; [exact (free_64 2)|].
  split; [exact (monopole_two 0 2 4 1 3 5 mem ltac:(lra) ltac:(lra) ltac:(lra) ltac:(lra))|].
  pose proof (sheval_raw eight 64 0 junk columns misread monopole 1 nmonopole CT_GEOCENTRIC_SPHERICAL CT_GEOCENTRIC_SPHERICAL
    SM_POTENTIAL true (-1) 1 None (1, 1, 1)%R mem columns_raw monopole_at monopole_contiguous ltac:(lia) eq_refl (free_64 2)) as S.
  change (Z.of_nat 1) with 1 in S. fold (spherical misread mem) in S. unfold misread in S at 1.
  rewrite monopole_two in S by lra. destruct S as (m' & pot & grd & E & (a & -> & _ & _ & Q) & ->).
  exists m', a. split; [exact E|].
  destruct (Q 0%nat [0%nat] eq_refl) as (v & g & N & V). destruct (Q 1%nat [1%nat] eq_refl) as (v' & g' & N' & V').
  cbn [nth_error] in N, N'. split; congruence.
Qed.

(** a position of two numbers, the last ones of the memory *)
Definition short : arrd := {| data := 48; shape := [2%nat]; stride := [8] |}.
Lemma short_refuted : forall junk mem,
  array_in eight short /\ room eight 80 0 SM_POTENTIAL [] /\
  sheval_array eight 80 0 junk short monopole 1 1 1 true (-1) 1 None mem = Err OutOfBounds.
Proof.
  intros junk mem. split; [|split].
  - split; [reflexivity|]. intros idx H. cbn [short shape] in H.
    inversion H as [|i ? ? ? Li T]; subst. inversion T; subst. unfold Nat.lt in *.
    destruct i as [|[|i]]; [..|lia]; eexists; reflexivity.
  - exact (free_after 10 1 ltac:(lia)).
  - unfold sheval_array. change (check_coord_type 1) with (Ok CT_GEOCENTRIC_SPHERICAL). change (check_sheval_mode 1) with (Ok SM_POTENTIAL).
    cbn [bind short monopole shape length Nat.ltb Nat.leb Nat.sub nth].
    change (Z.of_nat 1) with 1. destruct (call_ok_size 1 (-1) ltac:(lia)) as [C1 C2].
    destruct (Z.ltb_spec (size_to_degree 1) 0); [lia|].
    destruct (Z.ltb_spec 2147483647 (size_to_degree 1)); [lia|]. cbn [andb]. cbv zeta.
    change (drop_last 1 [2%nat]) with (@nil nat). change (drop_last 2 [1%nat; 2%nat]) with (@nil nat).
    cbn [length Nat.ltb Nat.leb compare_dimensions orb negb last Nat.eqb andb Z.ltb Z.compare].
    cbn [new_outputs]. cbn [gradient_scale bind].
    destruct (model_init _ _ _ _ _ _ _) as [cfg st]. reflexivity.
Qed.

(** ** The other functions *)
Definition two_numbers (a b : R) : nd R := {| dims := [2%nat]; get := fun idx => match idx with [0%nat] => a | _ => b end |}.
Lemma reversed_at : numbers eight reversed (two_numbers 7 6).
Proof.
  split; [reflexivity|]. split; [reflexivity|]. intros idx H. cbn [two_numbers dims] in H.
  inversion H as [|i ? ? ? Li T]; subst. inversion T; subst. unfold Nat.lt in *.
  destruct i as [|[|i]]; [..|lia]; reflexivity.
Qed.
Lemma scalar_at : numbers eight scalar (nd0 6%R).
Proof. split; [reflexivity|]. split; [reflexivity|]. intros idx H. cbn in H. inversion H; subst. reflexivity. Qed.
Lemma scale_at : scales eight (Some scalar) (6, 6, 6)%R.
Proof. split; [reflexivity|]. left. split; [reflexivity|]. exists 6%R. split; reflexivity. Qed.

Lemma room_both : room eight 64 80 SM_POTENTIAL_AND_GRADIENT [2%nat].
Proof. split; [exact (free_64 2)|]. split; [exact (free_after 10 6 ltac:(lia))|left; cbn; lia]. Qed.

Lemma ex_others junk mem fmem :
  numbers eight reversed (two_numbers 7 6) /\ numbers eight scalar (nd0 6%R) /\ positions eight rows two_rows /\ packed rows /\
  scales eight (Some scalar) (6, 6, 6)%R /\ room eight 64 80 SM_POTENTIAL_AND_GRADIENT [2%nat] /\
  (exists m' pot grd, shevaltemp_array eight 64 80 junk reversed rows ex_sets 0 1 3 true 1 (Some scalar) mem = Ok (m', Some pot, Some grd) /\
     shape pot = [2]%nat /\ shape grd = [2; 3]%nat) /\
  (exists m' pot grd, sheval2dfs_array eight 64 80 junk reversed scalar rows ex_set 0 2 3 false 1 (Some scalar) mem fmem
     = Ok (m', Some pot, Some grd) /\ shape pot = [2]%nat /\ shape grd = [2; 3]%nat).
Proof.
  split; [exact reversed_at|]. split; [exact scalar_at|]. split; [exact rows_at|]. split; [reflexivity|]. split; [exact scale_at|].
  split; [exact room_both|]. split.
  - pose proof (shevaltemp_packed eight 64 80 junk reversed _ rows _ ex_sets CT_GEODETIC_ABOVE_WGS84 CT_GEOCENTRIC_SPHERICAL
      SM_POTENTIAL_AND_GRADIENT true 1 (Some scalar) _ mem reversed_at rows_at eq_refl scale_at room_both) as S.
    destruct ex_sets_ok as (U & Z & _).
    destruct (proj1 (temp_shape (two_numbers 7 6) two_rows ex_sets CT_GEODETIC_ABOVE_WGS84 CT_GEOCENTRIC_SPHERICAL
      SM_POTENTIAL_AND_GRADIENT true 1 (6, 6, 6)%R mem ltac:(cbn; lia) U Z)) as (out & E).
    { left. exists []. reflexivity. }
    rewrite E in S. destruct S as (m' & pot & grd & C & (a & -> & Sa & _) & (b & -> & Sb & _)).
    exists m', a, b. split; [exact C|]. split; [exact Sa|exact Sb].
  - pose proof (sheval2dfs_packed eight 64 80 junk reversed _ scalar _ rows _ ex_set CT_GEODETIC_ABOVE_WGS84 CT_GEOCENTRIC_CARTESIAN
      SM_POTENTIAL_AND_GRADIENT false 1 (Some scalar) _ mem fmem reversed_at scalar_at rows_at eq_refl scale_at room_both) as S.
    destruct (proj1 (fs_shape (two_numbers 7 6) (nd0 6%R) two_rows ex_set CT_GEODETIC_ABOVE_WGS84 CT_GEOCENTRIC_CARTESIAN
      SM_POTENTIAL_AND_GRADIENT false 1 (6, 6, 6)%R mem fmem (proj1 ex_set_ok))) as (od & out & E & L).
    { split; [|split]; [right|left; exists []|left; exists [2%nat]]; try reflexivity. exists [2%nat]. reflexivity. }
    rewrite E in S.
    assert (O : od = [2%nat]).
    { destruct L as (L4 & (c & L1) & _). cbn [dims two_numbers nd0 two_rows two] in *.
      destruct L4 as [L4|[L4|L4]]; try congruence. rewrite L4 in L1. discriminate. }
    subst od. destruct S as (m' & pot & grd & C & (a & -> & Sa & _) & (b & -> & Sb & _)).
    exists m', a, b. split; [exact C|]. split; [exact Sa|exact Sb].
Qed.

Lemma ex_eval_errors m bp bg junk internal sp mem :
  sheval_array m bp bg junk rows monopole 1 3 1 internal (-1) sp None mem = Err ValueError /\
  sheval_array m bp bg junk rows monopole 1 1 1 internal (-1) sp (Some columns) mem = Err ValueError /\
  shevaltemp_array m bp bg junk scalar short ex_sets 0 0 1 internal sp None mem = Err ValueError.
Proof.
  split; [apply sheval_codes; lia|]. split; [apply sheval_scale_error; discriminate|].
  apply shevaltemp_wrong. left. discriminate.
Qed.
