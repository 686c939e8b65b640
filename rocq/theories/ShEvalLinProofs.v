(** Linearity in the coefficients, modes, truncation and the degree of the expansion. *)

From Coq Require Import Bool List Reals Arith ZArith Lra Lia.
From Coquelicot Require Import Coquelicot.
From Verif Require Import ArrModel LegendreModel LegendreSpec LoopProofs LegendrePoly LegendreGauss LegendreLow LegendreHigh
  LegendreProofs GeoModel SizeModel SizeProofs CoefModel ShEvalModel ShEvalSpec ShEvalSum ShEvalDeriv ShEvalHarmonic
  ShEvalProofs ShEvalGradProofs.
Import ListNotations.
Open Scope R_scope.

(** ** The degree *)
Lemma call_ok_size csize deg : (1 <= csize < 2 ^ 50)%Z -> call_ok csize deg.
Proof.
  intro H. destruct (degree_exists csize ltac:(lia)) as (d & D1 & D2).
  pose proof (size_to_degree_spec d csize D1 D2 ltac:(lia)) as E. unfold call_ok. rewrite E. split; [|intros [A _]]; nia.
Qed.
Lemma eff_degree_spec csize deg D : (1 <= csize < 2 ^ 50)%Z -> expansion_degree csize deg D -> eff_degree csize deg = D.
Proof.
  intros H (m & Hm & ->). unfold eff_degree.
  rewrite (size_to_degree_spec (Z.of_nat m) csize ltac:(lia) Hm ltac:(lia)).
  destruct (Z.ltb_spec deg 0); cbn [orb]; [lia|]. destruct (Z.ltb_spec (Z.of_nat m) deg); lia.
Qed.
Lemma expansion_degree_exists csize deg : (1 <= csize < 2 ^ 50)%Z -> exists D, expansion_degree csize deg D.
Proof.
  intro H. destruct (degree_exists csize ltac:(lia)) as (d & D1 & D2). eexists. exists (Z.to_nat d). split; [|reflexivity].
  rewrite Z2Nat.id by nia. exact D2.
Qed.

(** ** Linearity *)
Section Lin.
Variables (a b : R) (c1 c2 : coefs).
Lemma harmonic_lin k m ph :
  harmonic (lin_coef a c1 b c2 k) m ph = a * harmonic (c1 k) m ph + b * harmonic (c2 k) m ph.
Proof. unfold harmonic, lin_coef. cbn [fst snd]. ring. Qed.
Lemma harmonic'_lin k m ph :
  harmonic' (lin_coef a c1 b c2 k) m ph = a * harmonic' (c1 k) m ph + b * harmonic' (c2 k) m ph.
Proof. unfold harmonic', lin_coef. cbn [fst snd]. ring. Qed.
Lemma sum_lin f g h n : (forall i, (i <= n)%nat -> f i = a * g i + b * h i) ->
  sum_f_R0 f n = a * sum_f_R0 g n + b * sum_f_R0 h n.
Proof. intro H. rewrite <- !sum_scal, <- sum_add. now apply sum_ext. Qed.
Lemma sum_lin2 q f g h n : (forall i, (i <= n)%nat -> f i = a * g i + b * h i) ->
  q * sum_f_R0 f n = a * (q * sum_f_R0 g n) + b * (q * sum_f_R0 h n).
Proof. intro H. rewrite (sum_lin f g h n H). ring. Qed.

Variables (D : nat) (internal : bool) (clat clon crad ref : R).
Let V c := val_v D internal clat clon crad ref c.
Lemma val_v_lin : val_v D internal clat clon crad ref (lin_coef a c1 b c2)
  = a * val_v D internal clat clon crad ref c1 + b * val_v D internal clat clon crad ref c2.
Proof.
  unfold val_v. apply sum_lin2. intros i Hi. apply sum_lin2. intros j Hj. rewrite harmonic_lin. ring.
Qed.
Lemma val_el_lin : val_el D internal clat clon crad ref (lin_coef a c1 b c2)
  = a * val_el D internal clat clon crad ref c1 + b * val_el D internal clat clon crad ref c2.
Proof.
  unfold val_el. apply sum_lin. intros i Hi. apply sum_lin2. intros j Hj. rewrite harmonic_lin. ring.
Qed.
Lemma val_rd_lin : val_rd D internal clat clon crad ref (lin_coef a c1 b c2)
  = a * val_rd D internal clat clon crad ref c1 + b * val_rd D internal clat clon crad ref c2.
Proof.
  unfold val_rd. apply sum_lin. intros i Hi. apply sum_lin2. intros j Hj. rewrite harmonic_lin. ring.
Qed.
Lemma val_az_lin : val_az D internal clat clon crad ref (lin_coef a c1 b c2)
  = a * val_az D internal clat clon crad ref c1 + b * val_az D internal clat clon crad ref c2.
Proof.
  unfold val_az. destruct (Nat.ltb 0 D && Rltb (Rabs (cos clat)) (1 / 10 ^ 10)).
  - apply sum_lin. intros i Hi. destruct (Nat.leb 1 i); [rewrite harmonic'_lin|]; ring.
  - unfold Rdiv. rewrite <- !Rmult_assoc. rewrite <- Rmult_plus_distr_r. f_equal. apply sum_lin. intros i Hi.
    apply sum_lin2. intros j Hj. rewrite harmonic'_lin. ring.
Qed.
Lemma value_lin mode : value D internal clat clon crad ref (lin_coef a c1 b c2) mode
  = lin_result a (value D internal clat clon crad ref c1 mode) b (value D internal clat clon crad ref c2 mode).
Proof.
  destruct mode; unfold value, lin_result; cbn [fst snd]; rewrite ?val_v_lin, ?val_el_lin, ?val_az_lin, ?val_rd_lin; reflexivity.
Qed.
End Lin.

Lemma point_value_lin a b c1 c2 cfg mode xyz :
  point_value cfg mode xyz (lin_coef a c1 b c2)
    = lin_result a (point_value cfg mode xyz c1) b (point_value cfg mode xyz c2).
Proof.
  unfold point_value. destruct xyz as [[x y] z]. destruct (input_coordinates cfg x y z) as [[[clat clon] crad] glat].
  rewrite value_lin.
  set (v1 := value (degree cfg) (is_internal cfg) clat clon crad (crad_ref cfg) c1 mode).
  set (v2 := value (degree cfg) (is_internal cfg) clat clon crad (crad_ref cfg) c2 mode).
  destruct v1 as [p1 g1]. destruct v2 as [p2 g2]. unfold lin_result. cbn [fst snd]. apply f_equal2.
  - destruct p1, p2; try reflexivity. f_equal. ring.
  - destruct g1 as [[[x1 y1] z1]|], g2 as [[[x2 y2] z2]|]; cbn [project_gradient]; try reflexivity.
    + unfold project_gradient. destruct (coord_out cfg).
      * destruct glat; [|reflexivity]. cbn [rot2d]. f_equal. apply f_equal2; [apply f_equal2|]; ring.
      * f_equal. apply f_equal2; [apply f_equal2|]; ring.
      * cbn [rot2d]. f_equal. apply f_equal2; [apply f_equal2|]; ring.
    + destruct (coord_out cfg); [destruct glat| |]; reflexivity.
Qed.

Lemma combine_map {A B C} (f : A -> B) (g : A -> C) l : combine (map f l) (map g l) = map (fun x => (f x, g x)) l.
Proof. induction l; cbn; congruence. Qed.

(** the success of a call depends on the shapes only *)
Lemma sheval_same_shape x csize c1 c2 ci co mode mode' internal deg deg' sp sg sp' sg' mem mem' r :
  dims c1 = dims c2 -> (deg < 0 <-> deg' < 0)%Z ->
  sheval x csize c1 ci co mode internal deg sp sg mem = Ok r ->
  exists r', sheval x csize c2 ci co mode' internal deg' sp' sg' mem' = Ok r'.
Proof.
  intros E Ed H. apply sheval_succeeds.
  assert (Q : exists r, sheval x csize c1 ci co mode internal deg sp sg mem = Ok r) by eauto.
  apply sheval_succeeds in Q. rewrite <- E, <- Ed. exact Q.
Qed.

Lemma sheval_linear x csize c1 c2 a b ci co mode internal deg sp sg mem odims1 out1 odims2 out2 :
  dims c1 = dims c2 ->
  sheval x csize c1 ci co mode internal deg sp sg mem = Ok (odims1, out1) ->
  sheval x csize c2 ci co mode internal deg sp sg mem = Ok (odims2, out2) ->
  sheval x csize (lin_coefs a c1 b c2) ci co mode internal deg sp sg mem
    = Ok (odims1, map (fun '(o1, o2) => lin_result a o1 b o2) (combine out1 out2)).
Proof.
  intros E H1 H2.
  destruct (sheval_same_shape x csize c1 (lin_coefs a c1 b c2) ci co mode mode internal deg deg sp sg sp sg mem mem _ eq_refl ltac:(tauto) H1) as [[od out] H].
  rewrite H. destruct (sheval_value _ _ _ _ _ _ _ _ _ _ _ _ _ H) as [-> ->].
  destruct (sheval_value _ _ _ _ _ _ _ _ _ _ _ _ _ H1) as [-> ->].
  destruct (sheval_value _ _ _ _ _ _ _ _ _ _ _ _ _ H2) as [-> ->].
  cbn [dims lin_coefs]. rewrite <- E. do 2 f_equal.
  rewrite combine_map, map_map. apply map_ext. intro ix.
  rewrite <- point_value_lin. unfold at_index at 2. cbn [dims get lin_coefs]. unfold at_index. rewrite <- E. reflexivity.
Qed.

(** ** Modes *)
Lemma point_value_modes cfg xyz coef :
  point_value cfg SM_POTENTIAL xyz coef = (fst (point_value cfg SM_POTENTIAL_AND_GRADIENT xyz coef), None) /\
  point_value cfg SM_GRADIENT xyz coef = (None, snd (point_value cfg SM_POTENTIAL_AND_GRADIENT xyz coef)).
Proof.
  unfold point_value. destruct xyz as [[x y] z]. destruct (input_coordinates cfg x y z) as [[[clat clon] crad] glat].
  cbn [value fst snd]. split; reflexivity.
Qed.
Lemma sheval_modes x csize coef ci co internal deg sp sg mem odims out :
  sheval x csize coef ci co SM_POTENTIAL_AND_GRADIENT internal deg sp sg mem = Ok (odims, out) ->
  sheval x csize coef ci co SM_POTENTIAL internal deg sp sg mem = Ok (odims, map (fun o => (fst o, None)) out) /\
  sheval x csize coef ci co SM_GRADIENT internal deg sp sg mem = Ok (odims, map (fun o => (None, snd o)) out).
Proof.
  intro H. destruct (sheval_value _ _ _ _ _ _ _ _ _ _ _ _ _ H) as [-> ->].
  destruct (sheval_same_shape x csize coef coef ci co SM_POTENTIAL_AND_GRADIENT SM_POTENTIAL internal deg deg sp sg sp sg mem mem _ eq_refl ltac:(tauto) H) as [[od1 out1] H1].
  destruct (sheval_same_shape x csize coef coef ci co SM_POTENTIAL_AND_GRADIENT SM_GRADIENT internal deg deg sp sg sp sg mem mem _ eq_refl ltac:(tauto) H) as [[od2 out2] H2].
  rewrite H1, H2. destruct (sheval_value _ _ _ _ _ _ _ _ _ _ _ _ _ H1) as [-> ->].
  destruct (sheval_value _ _ _ _ _ _ _ _ _ _ _ _ _ H2) as [-> ->].
  rewrite !map_map. split; do 2 f_equal; apply map_ext; intro ix; apply point_value_modes.
Qed.

(** ** Truncation *)
Lemma sum_cut f D D' : (D <= D')%nat -> (forall i, (D < i <= D')%nat -> f i = 0) -> sum_f_R0 f D' = sum_f_R0 f D.
Proof.
  intro H. induction H as [|D' H IH]; intro Z; [reflexivity|]. cbn [sum_f_R0]. rewrite IH by (intros; apply Z; lia).
  rewrite (Z (S D')) by lia. ring.
Qed.
Lemma sum_zero f n : (forall i, (i <= n)%nat -> f i = 0) -> sum_f_R0 f n = 0.
Proof. intro H. rewrite (sum_ext f (fun _ => 0)) by exact H. induction n; cbn; [reflexivity|rewrite IHn; [ring|auto]]. Qed.

Definition rows (D : nat) : nat := ((D + 1) * (D + 2) / 2)%nat.
Lemma nm_below D n m : (n <= D)%nat -> (m <= n)%nat -> (nm_index n m < rows D)%nat.
Proof.
  intros Hn Hm. unfold rows. rewrite T_index.
  assert (E1 : (n * (n + 1) / 2 + m <= n * (n + 1) / 2 + n)%nat) by lia.
  assert (E2 : (n * (n + 1) / 2 + n < (n + 1) * (n + 2) / 2)%nat).
  { replace ((n + 1) * (n + 2))%nat with (n * (n + 1) + (n + 1) * 2)%nat by lia. rewrite Nat.div_add by lia. lia. }
  assert (E3 : ((n + 1) * (n + 2) / 2 <= (D + 1) * (D + 2) / 2)%nat) by (apply Nat.div_le_mono; nia). unfold T in *. lia.
Qed.
Lemma nm_above D n m : (D < n)%nat -> (rows D <= nm_index n m)%nat.
Proof.
  intro Hn. unfold rows. rewrite T_index.
  assert (((D + 1) * (D + 2) / 2 <= n * (n + 1) / 2)%nat) by (apply Nat.div_le_mono; nia). unfold T in *. lia.
Qed.

Section Cut.
Variables (c c' : coefs) (D D' : nat).
Hypotheses (HD : (D <= D')%nat) (Hsame : forall k, (k < rows D)%nat -> c' k = c k)
  (Hzero : forall k, (rows D <= k < rows D')%nat -> c' k = (0, 0)).
Variables (internal : bool) (clat clon crad ref : R).

Lemma zero_coef n m : (D < n <= D')%nat -> (m <= n)%nat -> c' (nm_index n m) = (0, 0).
Proof using HD Hsame Hzero. intros H1 H2. apply Hzero. split; [apply nm_above; lia|apply nm_below; lia]. Qed.
Lemma same_coef n m : (n <= D)%nat -> (m <= n)%nat -> c' (nm_index n m) = c (nm_index n m).
Proof using HD Hsame Hzero. intros H1 H2. apply Hsame, nm_below; lia. Qed.


Lemma double_cut (q : nat -> R) (f : R * R -> nat -> R) (g : nat -> nat -> R) :
  (forall m, f (0, 0) m = 0) ->
  sum_f_R0 (fun n => q n * sum_f_R0 (fun m => f (c' (nm_index n m)) m * g n m) n) D'
  = sum_f_R0 (fun n => q n * sum_f_R0 (fun m => f (c (nm_index n m)) m * g n m) n) D.
Proof using HD Hsame Hzero.
  intro f0. rewrite (sum_cut _ D D' HD).
  - apply sum_ext. intros n Hn. f_equal. apply sum_ext. intros m Hm. now rewrite same_coef.
  - intros n Hn. rewrite sum_zero; [ring|]. intros m Hm. rewrite zero_coef, f0 by lia. ring.
Qed.

Lemma value_cut mode : value D' internal clat clon crad ref c' mode = value D internal clat clon crad ref c mode.
Proof using HD Hsame Hzero.
  assert (h0 : forall m, harmonic (0, 0) m clon = 0) by (intro; unfold harmonic; cbn [fst snd]; ring).
  assert (h1 : forall m, harmonic' (0, 0) m clon = 0) by (intro; unfold harmonic'; cbn [fst snd]; ring).
  assert (V : val_v D' internal clat clon crad ref c' = val_v D internal clat clon crad ref c).
  { unfold val_v. f_equal. apply (double_cut _ (fun p m => harmonic p m clon)). exact h0. }
  assert (E : val_el D' internal clat clon crad ref c' = val_el D internal clat clon crad ref c).
  { unfold val_el. apply (double_cut _ (fun p m => harmonic p m clon)). exact h0. }
  assert (Rd : val_rd D' internal clat clon crad ref c' = val_rd D internal clat clon crad ref c).
  { unfold val_rd. apply (double_cut _ (fun p m => harmonic p m clon)). exact h0. }
  assert (A : val_az D' internal clat clon crad ref c' = val_az D internal clat clon crad ref c).
  { unfold val_az. destruct (Rltb (Rabs (cos clat)) (1 / 10 ^ 10)) eqn:C; rewrite ?andb_true_r, ?andb_false_r.
    - set (f := fun (c : coefs) n => rr internal (crad / ref) n * (if Nat.leb 1 n then
         harmonic' (c (nm_index n 1)) 1 clon * (nf n 1 * legendre_deriv n 1 (sin clat)) else 0)).
      assert (P : sum_f_R0 (f c') D' = sum_f_R0 (f c) D).
      { rewrite (sum_cut _ D D' HD).
        - apply sum_ext. intros n Hn. unfold f. destruct (Nat.leb_spec 1 n); [now rewrite same_coef by lia|reflexivity].
        - intros n Hn. unfold f. destruct (Nat.leb_spec 1 n); [rewrite zero_coef, h1 by lia|]; ring. }
      destruct (Nat.ltb_spec 0 D) as [L|L]; destruct (Nat.ltb_spec 0 D') as [L'|L']; try lia.
      + exact P.
      + assert (D = 0)%nat by lia. subst D. change (sum_f_R0 (f c') D' = sum_f_R0 (fun n => rr internal (crad / ref) n *
          sum_f_R0 (fun m => harmonic' (c (nm_index n m)) m clon * schmidt n m (asin (sin clat))) n) 0 / cos clat).
        rewrite P. cbn [sum_f_R0]. unfold f. cbn [Nat.leb]. unfold harmonic'. cbn [INR]. unfold Rdiv. ring.
      + f_equal. apply (double_cut _ (fun p m => harmonic' p m clon)). exact h1.
    - f_equal. apply (double_cut _ (fun p m => harmonic' p m clon)). exact h1. }
  unfold value. rewrite V, E, A, Rd. reflexivity.
Qed.
End Cut.

Lemma point_value_cut c c' D D' internal ci co sp sg mode xyz : (D <= D')%nat ->
  (forall k, (k < rows D)%nat -> c' k = c k) -> (forall k, (rows D <= k < rows D')%nat -> c' k = (0, 0)) ->
  point_value (cfg0 internal D' ci co sp sg) mode xyz c' = point_value (cfg0 internal D ci co sp sg) mode xyz c.
Proof.
  intros H1 H2 H3. destruct sg as [[s0 s1] s2]. destruct xyz as [[x y] z].
  set (A := cfg0 internal D' ci co sp (s0, s1, s2)). set (B := cfg0 internal D ci co sp (s0, s1, s2)).
  unfold point_value.
  change (input_coordinates B x y z) with (input_coordinates A x y z).
  destruct (input_coordinates A x y z) as [[[clat clon] crad] glat].
  change (degree A) with D'. change (degree B) with D. change (is_internal A) with internal. change (is_internal B) with internal.
  change (crad_ref B) with (crad_ref A).
  rewrite (value_cut c c' D D' H1 H2 H3). reflexivity.
Qed.

Lemma sheval_truncated x csize c ci co mode internal d sp sg mem odims out :
  (1 <= csize < 2 ^ 50)%Z -> (0 <= d)%Z ->
  sheval x csize c ci co mode internal d sp sg mem = Ok (odims, out) ->
  sheval x csize (zero_above (Z.to_nat d) c) ci co mode internal (-1) sp sg mem = Ok (odims, out).
Proof.
  intros Hc Hd H.
  assert (K : exists r, sheval x csize (zero_above (Z.to_nat d) c) ci co mode internal (-1) sp sg mem = Ok r).
  { apply sheval_succeeds. assert (Q : exists r, sheval x csize c ci co mode internal d sp sg mem = Ok r) by eauto.
    apply sheval_succeeds in Q. destruct (call_ok_size csize (-1) Hc) as [A B]. tauto. }
  destruct K as [[od out'] K]. rewrite K.
  destruct (sheval_value _ _ _ _ _ _ _ _ _ _ _ _ _ H) as [-> ->].
  destruct (sheval_value _ _ _ _ _ _ _ _ _ _ _ _ _ K) as [-> ->]. cbn [dims zero_above]. do 2 f_equal.
  apply map_ext. intro ix. 
  destruct (expansion_degree_exists csize (-1) Hc) as [M (m & Hm & EM)]. cbn [Z.ltb Z.compare] in EM. subst M.
  rewrite (eff_degree_spec csize (-1) m) by (auto; exists m; auto).
  rewrite (eff_degree_spec csize d (Nat.min (Z.to_nat d) m)).
  2: exact Hc. 2: { exists m. split; [exact Hm|]. destruct (Z.ltb_spec d 0); [lia|reflexivity]. }
  destruct (Nat.le_gt_cases m (Z.to_nat d)) as [L|L].
  - rewrite Nat.min_r by exact L. apply point_value_cut; [lia| |intros; lia].
    intros k Hk. unfold at_index. cbn [get zero_above dims]. destruct (Nat.ltb_spec k ((Z.to_nat d + 1) * (Z.to_nat d + 2) / 2)); [reflexivity|].
    exfalso. assert ((m + 1) * (m + 2) / 2 <= (Z.to_nat d + 1) * (Z.to_nat d + 2) / 2)%nat by (apply Nat.div_le_mono; nia).
    unfold rows in Hk. lia.
  - rewrite Nat.min_l by lia. apply point_value_cut; [lia| |].
    + intros k Hk. unfold at_index. cbn [get zero_above dims].
      destruct (Nat.ltb_spec k ((Z.to_nat d + 1) * (Z.to_nat d + 2) / 2)); [reflexivity|]. unfold rows in Hk. lia.
    + intros k Hk. unfold at_index. cbn [get zero_above dims].
      destruct (Nat.ltb_spec k ((Z.to_nat d + 1) * (Z.to_nat d + 2) / 2)); [|reflexivity]. unfold rows in Hk. lia.
Qed.

Lemma sheval_padded x (d : nat) csize csize' c ci co mode internal deg sp sg mem odims out :
  (2 * csize = (Z.of_nat d + 1) * (Z.of_nat d + 2))%Z -> (csize <= csize' < 2 ^ 50)%Z -> (deg < 0 \/ Z.of_nat d <= deg)%Z ->
  sheval x csize c ci co mode internal deg sp sg mem = Ok (odims, out) ->
  sheval x csize' (padded (Z.to_nat csize) c) ci co mode internal deg sp sg mem = Ok (odims, out).
Proof.
  intros Hc Hc' Hd H. assert (Hcr : (1 <= csize < 2 ^ 50)%Z) by nia.
  assert (K : exists r, sheval x csize' (padded (Z.to_nat csize) c) ci co mode internal deg sp sg mem = Ok r).
  { apply sheval_succeeds. assert (Q : exists r, sheval x csize c ci co mode internal deg sp sg mem = Ok r) by eauto.
    apply sheval_succeeds in Q. destruct (call_ok_size csize' deg ltac:(lia)) as [A B]. tauto. }
  destruct K as [[od out'] K]. rewrite K.
  destruct (sheval_value _ _ _ _ _ _ _ _ _ _ _ _ _ H) as [-> ->].
  destruct (sheval_value _ _ _ _ _ _ _ _ _ _ _ _ _ K) as [-> ->]. cbn [dims padded]. do 2 f_equal.
  apply map_ext. intro ix.
  destruct (expansion_degree_exists csize' deg ltac:(lia)) as [M (m & Hm & EM)].
  rewrite (eff_degree_spec csize' deg M) by (try lia; exists m; auto).
  rewrite (eff_degree_spec csize deg d).
  2: exact Hcr. 2: { exists d. split; [lia|]. destruct (Z.ltb_spec deg 0); lia. }
  assert (R : Z.to_nat csize = rows d).
  { unfold rows. apply Nat2Z.inj. rewrite Z2Nat.id by lia. rewrite Nat2Z.inj_div, Nat2Z.inj_mul, !Nat2Z.inj_add.
    change (Z.of_nat 1) with 1%Z. change (Z.of_nat 2) with 2%Z. rewrite <- Hc, Z.mul_comm, Z.div_mul; lia. }
  assert (Lm : (d <= m)%nat) by nia.
  assert (LM : (d <= M)%nat) by (destruct (Z.ltb_spec deg 0); lia).
  apply point_value_cut; [exact LM| |].
  - intros k Hk. unfold at_index. cbn [get padded dims]. rewrite R. destruct (Nat.ltb_spec k (rows d)); [reflexivity|lia].
  - intros k Hk. unfold at_index. cbn [get padded dims]. rewrite R. destruct (Nat.ltb_spec k (rows d)); [lia|reflexivity].
Qed.
