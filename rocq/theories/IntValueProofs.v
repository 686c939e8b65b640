(** The values of the functions with the 32-bit integers, from those with the unbounded ones. *)

From Coq Require Import Bool List Reals Arith ZArith Lia Lra.
From Coquelicot Require Import Coquelicot.
From Verif Require Import ArrModel LegendreModel LegendreSpec LoopProofs LegendrePoly LegendreGauss LegendreLow LegendreProofs
  CoefModel SizeModel SizeProofs ShEvalModel ShEvalSpec ShEvalProofs ShEvalExamples BufModel IntModel IntSpec IntProofs IntTopProofs IntPoleProofs.
Import ListNotations.
Open Scope R_scope.

Lemma int_legendre_value ar lats degree mem junk : conforming ar ->
  (Z.of_nat degree <= 23171)%Z \/ ((Z.of_nat degree <= 65533)%Z /\ forall lat, In lat lats -> ~ near_pole lat) ->
  exists p dp, i_legendre_call ar lats degree mem junk = Some (p, dp) /\
    forall i lat n m, nth_error lats i = Some lat -> -90 <= lat <= 90 -> (m <= n <= degree)%nat ->
      p (i * nm_size degree + nm_index n m)%nat = schmidt n m (lat * PI / 180) /\
      is_derive (schmidt n m) (lat * PI / 180) (dp (i * nm_size degree + nm_index n m)%nat).
Proof.
  intros C H. rewrite (legendre_call_exact ar lats degree mem junk C H).
  destruct (legendre lats degree mem junk) as [p dp] eqn:E. exists p, dp. split; [reflexivity|].
  intros i lat n m Hi Hl Hn. split.
  - pose proof (legendre_value lats degree mem junk i lat n m Hi Hl Hn) as V. rewrite E in V. exact V.
  - pose proof (legendre_derivative lats degree mem junk i lat n m Hi Hl Hn) as V. rewrite E in V. exact V.
Qed.

Lemma int_relradpow_value ar degree reference radius rrp : conforming ar -> (Z.of_nat degree < 2147483647)%Z ->
  reference <> 0 -> radius <> 0 ->
  (exists a, i_relradpow_item ar degree reference true radius rrp = Some a /\
     forall k, (k <= degree)%nat -> a k = (reference / radius) ^ (k + 2)) /\
  (exists a, i_relradpow_item ar degree reference false radius rrp = Some a /\
     forall k, (k <= degree)%nat -> a k = powerRZ (radius / reference) (Z.of_nat k - 1)).
Proof.
  intros C H Hr Hd.
  split; (rewrite relradpow_item_exact by assumption; eexists; split; [reflexivity|]; intros k Hk).
  - pose proof (relradpow_internal [radius] degree reference rrp 0 radius k eq_refl Hd Hr Hk) as V.
    unfold relradpow in V. cbn [array_items] in V. rewrite Nat.mul_0_l, Nat.add_0_l in V.
    unfold unptr in V. cbn [Nat.ltb Nat.leb] in V. rewrite Nat.sub_0_r in V. exact V.
  - pose proof (relradpow_external [radius] degree reference rrp 0 radius k ltac:(constructor; [exact Hd|constructor]) eq_refl Hr Hk) as V.
    unfold relradpow in V. cbn [array_items] in V. rewrite Nat.mul_0_l, Nat.add_0_l in V.
    unfold unptr in V. cbn [Nat.ltb Nat.leb] in V. rewrite Nat.sub_0_r in V. exact V.
Qed.

Lemma schmidt_pole n : schmidt n 0 (90 * PI / 180) = 1.
Proof.
  replace (90 * PI / 180) with (PI / 2) by field. rewrite schmidt_g.
  exact (proj1 (pole_two n)).
Qed.

(** at the pole, the degree 23172 *)
Lemma pole_witness : exists degree p dp, Z.of_nat degree = 23172%Z /\
  i_legendre_call wrapping [90] degree (fun _ => 0, fun _ => 0) (fun _ => 0) = Some (p, dp) /\
  schmidt degree 0 (90 * PI / 180) = 1 /\ 2.9 < p (nm_index degree 0).
Proof.
  assert (E : exists degree, Z.of_nat degree = 23172%Z) by (exists (Z.to_nat 23172); apply Z2Nat.id; lia).
  destruct E as [degree N].
  destruct (pole_wrapped degree (fun _ => 0, fun _ => 0) (fun _ => 0) N) as (p & dp & E & V).
  exists degree, p, dp. split; [exact N|]. split; [exact E|]. split; [apply schmidt_pole|exact V].
Qed.

(** The degree of the specification is the one of the code. *)
Lemma used_of_expansion csize deg D : (1 <= csize < 2 ^ 50)%Z -> expansion_degree csize deg D ->
  used_degree csize deg = Z.of_nat D.
Proof.
  intros Hc (m & Hm & ->). unfold used_degree.
  rewrite (size_to_degree_spec (Z.of_nat m) csize) by lia.
  destruct (Z.ltb_spec deg 0); [reflexivity|]. cbn [orb].
  destruct (Z.ltb_spec (Z.of_nat m) deg).
  - rewrite Nat.min_r by lia. reflexivity.
  - rewrite Nat.min_l by lia. lia.
Qed.

Lemma int_sheval ar x csize coef ci co mode internal deg D sp sg mem : conforming ar ->
  (1 <= csize < 2 ^ 50)%Z -> expansion_degree csize deg D -> (Z.of_nat D <= 23171)%Z ->
  i_sheval ar x csize coef ci co mode internal deg sp sg mem =
  Some (sheval x csize coef ci co mode internal deg sp sg mem).
Proof.
  intros C Hc HD H. apply sheval_exact; [assumption|]. rewrite (used_of_expansion csize deg D Hc HD). exact H.
Qed.

Lemma int_sheval_far ar x csize coef co mode internal deg D sp sg mem : conforming ar ->
  (1 <= csize < 2 ^ 50)%Z -> expansion_degree csize deg D -> (Z.of_nat D <= 46339)%Z ->
  (forall ix lat lon r, get x ix = (lat, lon, r) -> ~ near_pole lat) ->
  i_sheval ar x csize coef CT_GEOCENTRIC_SPHERICAL co mode internal deg sp sg mem =
  Some (sheval x csize coef CT_GEOCENTRIC_SPHERICAL co mode internal deg sp sg mem).
Proof.
  intros C Hc HD H F. apply sheval_exact_sph; [assumption| |exact F].
  rewrite (used_of_expansion csize deg D Hc HD). exact H.
Qed.

Lemma int_potential ar csize deg D coef internal co sp sg lat lon rad mem : conforming ar ->
  (1 <= csize < 2 ^ 50)%Z -> expansion_degree csize deg D -> (Z.of_nat D <= 23171)%Z -> -90 <= lat <= 90 -> rad <> 0 ->
  i_sheval ar (nd0 (lat, lon, rad)) csize (nd0 coef) CT_GEOCENTRIC_SPHERICAL co SM_POTENTIAL internal deg sp sg mem =
  Some (Ok ([], [(Some (sp * potential internal 6371.2 (fun n m => coef (n * (n + 1) / 2 + m)%nat) D
    rad (lat * (PI / 180)) (lon * (PI / 180))), None)])).
Proof.
  intros C Hc HD H Hl Hr. rewrite (int_sheval ar _ csize _ _ _ _ _ deg D) by assumption.
  rewrite (potential_any_output csize deg D) by assumption. reflexivity.
Qed.

Lemma int_sheval_overflow x csize coef ci co mode internal deg D sp sg mem :
  (1 <= csize < 2 ^ 50)%Z -> expansion_degree csize deg D -> (46340 <= Z.of_nat D)%Z ->
  prefix (dims x) (dims coef) \/ prefix (dims coef) (dims x) ->
  i_sheval trapping x csize coef ci co mode internal deg sp sg mem = None.
Proof.
  intros Hc HD H P. pose proof (used_of_expansion csize deg D Hc HD) as U.
  assert (B : (used_degree csize deg <= 2147483647)%Z).
  { rewrite U. destruct HD as (m & Hm & ->). assert (Z.of_nat m <= 2147483647)%Z by nia.
    destruct (deg <? 0)%Z; lia. }
  rewrite <- U in H.
  assert (Q : exists odims out, sheval x csize coef ci co mode internal deg sp sg mem = Ok (odims, out)).
  { apply (proj1 (sheval_shape x csize coef ci co mode internal deg sp sg mem Hc)). exact P. }
  destruct Q as (odims & out & Q). revert Q. unfold sheval. cbv zeta.
  destruct (size_to_degree csize <? 0)%Z; [discriminate|].
  destruct (_ && _); [discriminate|]. destruct (compare_dimensions _ (dims x) || _) eqn:E; [discriminate|].
  intros _. apply orb_false_iff in E. destruct E as [E1 E2].
  apply sheval_overflow; try assumption. lia.
Qed.

Lemma int_pole_overflow lat lon r csize cf co mode internal deg D sp sg mem :
  (1 <= csize < 2 ^ 50)%Z -> expansion_degree csize deg D -> (23172 <= Z.of_nat D)%Z -> near_pole lat ->
  i_sheval trapping (nd0 (lat, lon, r)) csize (nd0 cf) CT_GEOCENTRIC_SPHERICAL co mode internal deg sp sg mem = None.
Proof.
  intros Hc HD H P.
  destruct (Z.leb_spec 46340 (Z.of_nat D)).
  - apply (int_sheval_overflow _ csize _ _ _ _ _ deg D); try assumption. left. exists []. reflexivity.
  - apply sheval_pole_overflow; [|assumption]. rewrite (used_of_expansion csize deg D Hc HD). lia.
Qed.
