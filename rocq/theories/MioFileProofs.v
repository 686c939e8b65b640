(** Proofs about the MIO models loaded from the files. *)

From Coq Require Import Bool List Ascii ZArith Reals Lia Lra.
From Verif Require Import Ord CoefModel TextModel TextSpec ShcModel ShcSpec ShEvalModel FourierModel FourierSpec FourierProofs MioModel MioLoadModel MioLoadProofs
  MioParseModel MioParseSpec MioParseProofs.
Import ListNotations.

Lemma nm_pairs_map nm : nm_pairs (map (fun p : Z * Z => [fst p; snd p]) nm) = Some nm.
Proof. induction nm as [|[n m] nm IH]; [reflexivity|]. cbn [map nm_pairs fst snd]. now rewrite IH. Qed.

Lemma row_value h values (ab : coefs) season hours : (mh_smin h <= mh_smax h)%Z -> (mh_pmin h <= mh_pmax h)%Z ->
  Z.of_nat (length values) = ((mh_smax h - mh_smin h + 1) * (mh_pmax h - mh_pmin h + 1) * 2)%Z -> pairs_of values ab ->
  fourier_value ab (Z.to_nat (mh_smax h - mh_smin h + 1)) (Z.to_nat (mh_pmax h - mh_pmin h + 1)) (mh_smin h) (mh_pmin h)
    (2 * PI) (2 * PI / 24) season hours = mio_series_value h values season hours.
Proof.
  intros Hs Hp Hl Hab. unfold fourier_value, mio_series_value. cbv zeta.
  assert (Hl' : length values = (2 * (Z.to_nat (mh_smax h - mh_smin h + 1) * Z.to_nat (mh_pmax h - mh_pmin h + 1)))%nat).
  { apply Nat2Z.inj. rewrite Hl, !Nat2Z.inj_mul, !Z2Nat.id by lia. ring. }
  revert Hl'. generalize (Z.to_nat (mh_smax h - mh_smin h + 1)) as ns, (Z.to_nat (mh_pmax h - mh_pmin h + 1)) as np. intros ns np Hl'.
  apply fsum_ext. intros i Hi. apply fsum_ext. intros j Hj. rewrite Hab.
  - replace (IZR (mh_smin h + Z.of_nat i) * (2 * PI * season) + IZR (mh_pmin h + Z.of_nat j) * (2 * PI / 24 * hours))%R
      with (2 * PI * (IZR (mh_smin h + Z.of_nat i) * season + IZR (mh_pmin h + Z.of_nat j) * hours / 24))%R by field. reflexivity.
  - rewrite Hl'. nia.
Qed.

Lemma forall2_nth {A B} (P : A -> B -> Prop) l1 l2 k a : Forall2 P l1 l2 -> nth_error l1 k = Some a -> exists b, nth_error l2 k = Some b /\ P a b.
Proof.
  intro H. revert k. induction H as [|x y l1 l2 Hxy H IH]; intros [|k]; cbn [nth_error]; try discriminate.
  - intro E. injection E as <-. eauto.
  - apply IH.
Qed.

Lemma scale_value height n : external_scale height n = (- (INR n / (INR n + 1)) * (1 + height / 6371.2) ^ (2 * n + 1))%R.
Proof.
  unfold external_scale, MIO_EARTH_RADIUS. cbv zeta. set (x := (1 + height / 6371.2)%R).
  replace (- x)%R with (-1 * x)%R by ring. rewrite Rpow_mult_distr. rewrite pow_add, pow_1_even. ring.
Qed.

Lemma scale_items_all degree height nm : (forall n m, In (n, m) nm -> 0 <= n <= degree)%Z ->
  scale_items degree height nm = Some (map (fun p => external_scale height (Z.to_nat (fst p))) nm).
Proof.
  induction nm as [|[n m] nm IH]; intro H; [reflexivity|]. cbn [scale_items map fst].
  rewrite IH by (intros; eapply H; right; eassumption). unfold scale_item.
  destruct (H n m (or_introl eq_refl)) as [H1 H2]. rewrite (proj2 (Z.ltb_ge n 0) H1). rewrite (proj2 (Z.leb_le 0 n) H1), (proj2 (Z.ltb_lt n (degree + 1))) by lia.
  reflexivity.
Qed.

Section Load.
Context {T : Type} {OT : TOrd T}.
Variables (to_int : text -> option Z) (to_float : text -> option R).
Variables (year_fraction : T -> R) (subsol : T -> R * R) (validity : T * T).

Lemma internal_file file h nm qs gh : mio_contents to_int to_float file h nm qs gh -> exists m,
  load_internal_file to_int to_float year_fraction subsol validity file = Parsed m /\
  mio_north_pole m = (mh_lat_ngp h, mh_lon_ngp h) /\ mio_wolf_ratio m = mh_wolf_ratio h /\ mio_internal m = true /\
  mio_validity m = validity /\ fs_nm (mio_set m) = nm /\ length (fs_ab (mio_set m)) = length nm /\
  forall k values, nth_error gh k = Some values -> exists ab, nth_error (fs_ab (mio_set m)) k = Some ab /\
    forall season hours, series_value (mio_set m) ab season hours = mio_series_value h values season hours.
Proof.
  intro C. destruct (mio_complete _ _ _ _ _ _ _ C) as (p & Ep & Eh & En & Hq & Hg & _).
  destruct C as (_ & _ & _ & _ & Lg & [Hs Hp] & Hl).
  assert (Ed : (mh_pmax h <? mh_pmin h)%Z || (mh_smax h <? mh_smin h)%Z = false)
    by (rewrite (proj2 (Z.ltb_ge _ _) Hs), (proj2 (Z.ltb_ge _ _) Hp); reflexivity).
  eexists. split.
  { unfold load_internal_file. rewrite Ep. cbn [pbind]. unfold mio_data_of. rewrite En, nm_pairs_map. cbv zeta. rewrite Eh.
    unfold load_internal, mio_series. cbn [d_gh d_pmax d_pmin d_smax d_smin]. rewrite Ed. cbn [bind]. reflexivity. }
  cbn [create_mio_model mio_north_pole mio_wolf_ratio mio_internal mio_set mio_validity fs_nm fs_ab fst snd d_nm d_lat_ngp d_lon_ngp d_wolf_ratio].
  repeat (split; [reflexivity|]). split; [rewrite <- Lg; symmetry; exact (forall2_length _ _ _ Hg)|].
  intros k v Hk. destruct (forall2_nth _ _ _ _ _ Hg Hk) as (ab & Hab & Hpair). exists ab. split; [exact Hab|].
  intros season hours. unfold series_value. cbn [fs_size1 fs_size2 fs_min1 fs_min2 fs_scale1 fs_scale2 d_pmax d_pmin d_smax d_smin].
  apply row_value; try assumption. apply Hl, in_app_iff. right. exact (nth_error_In _ _ Hk).
Qed.

Lemma external_file file h nm qs gh : mio_contents to_int to_float file h nm qs gh -> (forall n m, In (n, m) nm -> 0 <= n)%Z -> exists below above,
  load_external_file to_int to_float year_fraction subsol validity file = Parsed (below, above, mh_height h) /\
  mio_north_pole below = (mh_lat_ngp h, mh_lon_ngp h) /\ mio_wolf_ratio below = mh_wolf_ratio h /\ mio_internal below = false /\
  mio_north_pole above = (mh_lat_ngp h, mh_lon_ngp h) /\ mio_wolf_ratio above = mh_wolf_ratio h /\ mio_internal above = true /\
  fs_nm (mio_set below) = nm /\ length (fs_ab (mio_set below)) = length nm /\
  fs_nm (mio_set above) = nm /\ length (fs_ab (mio_set above)) = length nm /\
  forall k n m values, nth_error nm k = Some (n, m) -> nth_error qs k = Some values ->
    (exists ab, nth_error (fs_ab (mio_set below)) k = Some ab /\
       forall season hours, series_value (mio_set below) ab season hours = mio_series_value h values season hours) /\
    (exists ab, nth_error (fs_ab (mio_set above)) k = Some ab /\
       forall season hours, series_value (mio_set above) ab season hours =
         (- (IZR n / (IZR n + 1)) * (1 + mh_height h / 6371.2) ^ Z.to_nat (2 * n + 1) * mio_series_value h values season hours)%R).
Proof.
  intros C Hn. destruct (mio_complete _ _ _ _ _ _ _ C) as (p & Ep & Eh & En & Hq & Hg & _ & _ & Hdeg).
  destruct C as (_ & _ & _ & Lq & _ & [Hs Hp] & Hl).
  assert (Ed : (mh_pmax h <? mh_pmin h)%Z || (mh_smax h <? mh_smin h)%Z = false)
    by (rewrite (proj2 (Z.ltb_ge _ _) Hs), (proj2 (Z.ltb_ge _ _) Hp); reflexivity).
  assert (Lq' : length (mp_qs p) = length nm) by (rewrite <- Lq; symmetry; exact (forall2_length _ _ _ Hq)).
  set (l := map (fun p => external_scale (mh_height h) (Z.to_nat (fst p))) nm).
  assert (Esc : scale_items (mp_degree_max p) (mh_height h) nm = Some l).
  { apply scale_items_all. intros n m I. split; [exact (Hn n m I)|]. apply Hdeg. exact (in_map fst _ _ I). }
  assert (Ll : length l = length nm) by (unfold l; apply map_length).
  eexists. eexists. split.
  { unfold load_external_file. rewrite Ep. cbn [pbind]. unfold mio_data_of. rewrite En, nm_pairs_map. cbv zeta. rewrite Eh.
    unfold load_external, get_coeff_external, convert_external_mio_coeff, mio_series.
    cbn [d_qs d_pmax d_pmin d_smax d_smin d_nm d_height d_degree_max]. rewrite Esc, Lq', Ll, Nat.eqb_refl, Ed. cbn [bind d_height].
    reflexivity. }
  cbn [create_mio_model mio_north_pole mio_wolf_ratio mio_internal mio_set mio_validity fs_nm fs_ab fst snd d_nm d_lat_ngp d_lon_ngp d_wolf_ratio].
  repeat (split; [first [reflexivity|exact Lq'|rewrite map_length, combine_length, Lq', Ll; apply Nat.min_id]|]).
  intros k n m v Hk Hv. destruct (forall2_nth _ _ _ _ _ Hq Hv) as (ab & Hab & Hpair).
  assert (Hval : Z.of_nat (length v) = ((mh_smax h - mh_smin h + 1) * (mh_pmax h - mh_pmin h + 1) * 2)%Z)
    by (apply Hl, in_app_iff; left; exact (nth_error_In _ _ Hv)).
  split.
  - exists ab. split; [exact Hab|]. intros season hours. unfold series_value. cbn [fs_size1 fs_size2 fs_min1 fs_min2 fs_scale1 fs_scale2 d_pmax d_pmin d_smax d_smin].
    now apply row_value.
  - exists (fun i => (external_scale (mh_height h) (Z.to_nat n) * fst (ab i), external_scale (mh_height h) (Z.to_nat n) * snd (ab i))%R). split.
    + assert (El : nth_error l k = Some (external_scale (mh_height h) (Z.to_nat n))) by exact (map_nth_error (fun p => external_scale (mh_height h) (Z.to_nat (fst p))) _ _ Hk).
      clear - El Hab. revert k El Hab. generalize (mp_qs p) as q. generalize dependent l. clear.
      induction l as [|x l IH]; intros [|c q] [|k]; cbn [nth_error combine map]; try discriminate.
      * intros E1 E2. injection E1 as ->. injection E2 as ->. reflexivity.
      * intros E1 E2. now apply IH.
    + intros season hours. unfold series_value. cbn [fs_size1 fs_size2 fs_min1 fs_min2 fs_scale1 fs_scale2 d_pmax d_pmin d_smax d_smin].
      rewrite fourier_scaled, (row_value h v) by assumption. rewrite scale_value.
      pose proof (Hn n m (nth_error_In _ _ Hk)) as H0. rewrite INR_IZR_INZ, Z2Nat.id by exact H0.
      replace (Z.to_nat (2 * n + 1)) with (2 * Z.to_nat n + 1)%nat by lia. reflexivity.
Qed.
End Load.
