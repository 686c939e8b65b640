(** Proofs about the MIO models. *)

From Coq Require Import Bool List ZArith Reals Lra Lia Arith.
From Coquelicot Require Import Coquelicot.
From Verif Require Import Ord CoefModel ArrModel SizeModel LegendreModel GeoModel ShEvalModel ShEvalSpec ShEvalProofs SparseSpec TempSpec FourierModel
  FourierSpec FourierProofs FourierEvalProofs CoordModel CoordSpec CoordProofs ConvertProofs FrameProofs DipoleProofs ShFrameProofs ComposedModel ComposedSpec ComposedProofs MioModel MioSpec.
Import ListNotations.
Open Scope R_scope.

(** ** Arrays *)
Lemma all_indices_eq d : all_indices d = indices d.
Proof. induction d as [|n d IH]; [reflexivity|]. cbn [all_indices indices]. now rewrite IH. Qed.

Lemma dims_eqb_spec a : forall b, dims_eqb a b = true <-> a = b.
Proof.
  induction a as [|x a IH]; intros [|y b]; cbn [dims_eqb]; try (split; [discriminate|discriminate]); [tauto|].
  rewrite andb_true_iff, Nat.eqb_eq, IH. split; [intros [-> ->]; reflexivity|intro E; injection E; auto].
Qed.

Lemma in_indices_cons i ix n d : In (i :: ix) (indices (n :: d)) <-> (i < n)%nat /\ In ix (indices d).
Proof.
  cbn [indices]. rewrite in_flat_map. split.
  - intros (j & Hj & H). apply in_map_iff in H as (jx & E & H). injection E as <- <-. apply in_seq in Hj. split; [lia|exact H].
  - intros [H1 H2]. exists i. split; [apply in_seq; lia|]. apply in_map. exact H2.
Qed.
Lemma in_indices_nil ix n d : In ix (indices (n :: d)) -> ix <> [].
Proof. cbn [indices]. rewrite in_flat_map. intros (j & _ & H). apply in_map_iff in H as (jx & <- & _). discriminate. Qed.

Lemma in_indices_length d : forall ix, In ix (indices d) -> length ix = length d.
Proof.
  induction d as [|n d IH]; intros ix H; [destruct H as [<-|[]]; reflexivity|].
  destruct ix as [|i ix]; [now apply in_indices_nil in H|]. apply in_indices_cons in H as [_ H]. cbn [length]. f_equal. auto.
Qed.

Lemma in_indices_app a : forall b ix, In ix (indices (a ++ b)) <->
  In (firstn (length a) ix) (indices a) /\ In (skipn (length a) ix) (indices b).
Proof.
  induction a as [|n a IH]; intros b ix; [cbn; tauto|]. destruct ix as [|i ix].
  - split; [intro H; now apply in_indices_nil in H|intros [H _]; now apply in_indices_nil in H].
  - cbn [app length firstn skipn]. rewrite !in_indices_cons, IH. tauto.
Qed.

Lemma position_some ix l : forall k, position_in ix l = Some k -> nth_error l k = Some ix.
Proof.
  induction l as [|x l IH]; intros k; cbn [position_in]; [discriminate|].
  destruct (dims_eqb x ix) eqn:E; [apply dims_eqb_spec in E; intro H; injection H as <-; subst; reflexivity|].
  destruct (position_in ix l) as [k'|]; [|discriminate]. intro H. injection H as <-. exact (IH k' eq_refl).
Qed.
Lemma position_none ix l : position_in ix l = None -> ~ In ix l.
Proof.
  induction l as [|x l IH]; cbn [position_in]; [intros _ []|].
  destruct (dims_eqb x ix) eqn:E; [discriminate|]. destruct (position_in ix l); [discriminate|]. intros _ [->|H]; [|now apply IH].
  now rewrite (proj2 (dims_eqb_spec ix ix) eq_refl) in E.
Qed.

Lemma selected_in (mask : nd bool) ix : In ix (selected mask) <-> In ix (indices (dims mask)) /\ get mask ix = true.
Proof. unfold selected. now rewrite filter_In, all_indices_eq. Qed.

Definition count (mask : nd bool) := length (selected mask).

Lemma take_ok {A} (a : nd A) mask : prefix (dims mask) (dims a) ->
  exists r, take a mask = Ok r /\ dims r = count mask :: skipn (length (dims mask)) (dims a) /\
    forall i jx rest, nth_error (selected mask) i = Some jx -> get r (i :: rest) = get a (jx ++ rest).
Proof.
  intro P. unfold take. rewrite (proj2 (prefixb_spec _ _) P). eexists. split; [reflexivity|split; [reflexivity|]].
  intros i jx rest H. cbn [get]. now rewrite (nth_error_nth _ _ _ H).
Qed.
Lemma take_err {A} (a : nd A) mask : ~ prefix (dims mask) (dims a) -> take a mask = Err IndexError.
Proof. intro P. unfold take. destruct (prefixb _ _) eqn:E; [|reflexivity]. now apply prefixb_spec in E. Qed.

Lemma store_ok {A} (res : nd A) mask values : prefix (dims mask) (dims res) ->
  dims values = count mask :: skipn (length (dims mask)) (dims res) ->
  exists r, store res mask values = Ok r /\ dims r = dims res /\
    forall ix, In ix (indices (dims res)) ->
      (get mask (firstn (length (dims mask)) ix) = true ->
       exists i, nth_error (selected mask) i = Some (firstn (length (dims mask)) ix) /\
         In (i :: skipn (length (dims mask)) ix) (indices (dims values)) /\
         get r ix = get values (i :: skipn (length (dims mask)) ix)) /\
      (get mask (firstn (length (dims mask)) ix) = false -> get r ix = get res ix).
Proof.
  intros P D. unfold store. rewrite (proj2 (prefixb_spec _ _) P). cbn [negb]. fold (count mask).
  rewrite (proj2 (dims_eqb_spec _ _) D). eexists. split; [reflexivity|split; [reflexivity|]].
  intros ix H. cbn [get].
  assert (H' : In (firstn (length (dims mask)) ix) (indices (dims mask)) /\
               In (skipn (length (dims mask)) ix) (indices (skipn (length (dims mask)) (dims res)))).
  { destruct P as [c E]. rewrite E in H |- *. rewrite skipn_app, skipn_all, Nat.sub_diag. cbn [skipn app]. now apply in_indices_app. }
  destruct H' as [H1 H2]. destruct (position_in _ _) as [i|] eqn:Ei.
  - apply position_some in Ei.
    assert (Hm : get mask (firstn (length (dims mask)) ix) = true) by (apply (selected_in mask); eapply nth_error_In; exact Ei).
    split; [|congruence]. intros _. exists i. split; [exact Ei|split; [|reflexivity]].
    rewrite D. apply in_indices_cons. split; [|exact H2]. apply nth_error_Some. congruence.
  - apply position_none in Ei. split; [|reflexivity]. intro Hm. exfalso. apply Ei. apply selected_in. split; [exact H1|exact Hm].
Qed.

Lemma prefix_firstn (a b : list nat) : prefix a b -> firstn (length a) b = a.
Proof. intros [c ->]. rewrite firstn_app, firstn_all, Nat.sub_diag. cbn [firstn]. apply app_nil_r. Qed.
Lemma prefix_refl (a : list nat) : prefix a a.
Proof. exists []. symmetry. apply app_nil_r. Qed.
Lemma prefix_nil (a : list nat) : prefix [] a.
Proof. exists a. reflexivity. Qed.
Lemma prefix_skipn (a b c : list nat) : prefix a b -> prefix b c -> prefix (skipn (length a) b) (skipn (length a) c).
Proof.
  intros [x ->] [y ->]. exists y. rewrite <- app_assoc, !skipn_app, skipn_all, Nat.sub_diag. reflexivity.
Qed.

(** the element of the selected items *)
Lemma take_at {A} (a r : nd A) mask (d : list nat) ix i : prefix (dims mask) (dims a) -> prefix (dims a) d -> length ix = length d ->
  dims r = count mask :: skipn (length (dims mask)) (dims a) ->
  (forall i jx rest, nth_error (selected mask) i = Some jx -> get r (i :: rest) = get a (jx ++ rest)) ->
  nth_error (selected mask) i = Some (firstn (length (dims mask)) ix) ->
  at_index r (i :: skipn (length (dims mask)) ix) = at_index a ix.
Proof.
  intros P Q L D G H. unfold at_index. rewrite D. cbn [length firstn]. rewrite (G _ _ _ H). f_equal.
  apply prefix_length in P. apply prefix_length in Q. rewrite skipn_length.
  rewrite <- (firstn_skipn (length (dims mask)) ix) at 3.
  rewrite firstn_app, firstn_firstn, firstn_length, !Nat.min_r by lia. rewrite L, Nat.min_l by lia. reflexivity.
Qed.

Lemma at_full {A} (a : nd A) ix : In ix (indices (dims a)) -> at_index a ix = get a ix.
Proof. intro H. unfold at_index. rewrite <- (in_indices_length _ _ H), firstn_all. reflexivity. Qed.
Lemma at_scalar {A} (a : nd A) ix : dims a = [] -> at_index a ix = get a [].
Proof. intro H. unfold at_index. now rewrite H. Qed.

(** ** Broadcasting *)
Lemma broadcast_same a : broadcast_rev a a = Some a.
Proof. induction a as [|x a IH]; [reflexivity|]. cbn [broadcast_rev]. now rewrite IH, Nat.eqb_refl. Qed.
Lemma broadcast_nil_r a : broadcast_rev a [] = Some a.
Proof. destruct a; reflexivity. Qed.

Lemma broadcast_index d : forall ix, Forall2 Nat.lt ix d -> broadcast_index_rev d ix = ix.
Proof.
  induction d as [|n d IH]; intros ix H; inversion H as [|i n' ix' d' Hi Ht]; subst; [reflexivity|].
  cbn [broadcast_index_rev]. rewrite IH by exact Ht. destruct (Nat.eqb_spec n 1); [|reflexivity]. f_equal. lia.
Qed.
Lemma indices_forall d : forall ix, In ix (indices d) -> Forall2 Nat.lt ix d.
Proof.
  induction d as [|n d IH]; intros ix H; [destruct H as [<-|[]]; constructor|].
  destruct ix as [|i ix]; [now apply in_indices_nil in H|]. apply in_indices_cons in H as [H1 H2]. constructor; auto.
Qed.
Lemma Forall2_rev' {A B} (P : A -> B -> Prop) a : forall b, Forall2 P a b -> Forall2 P (rev a) (rev b).
Proof.
  induction a as [|x a IH]; intros b H; inversion H; subst; [constructor|]. cbn [rev]. apply Forall2_app; [auto|]. constructor; [assumption|constructor].
Qed.
Lemma broadcast_get_full {A} (a : nd A) ix : In ix (indices (dims a)) -> broadcast_get a ix = get a ix.
Proof.
  intro H. unfold broadcast_get. rewrite broadcast_index; [now rewrite rev_involutive|]. apply Forall2_rev'. now apply indices_forall.
Qed.
Lemma broadcast_get_scalar {A} (a : nd A) ix : dims a = [] -> broadcast_get a ix = get a [].
Proof. intro H. unfold broadcast_get. rewrite H. reflexivity. Qed.
Lemma broadcast_at {A} (a : nd A) d ix : scalar_or_full a d -> In ix (indices d) -> broadcast_get a ix = at_index a ix.
Proof.
  intros [H|<-] Hi; [rewrite broadcast_get_scalar, at_scalar by exact H; reflexivity|].
  rewrite broadcast_get_full, at_full by exact Hi. reflexivity.
Qed.

(** two arrays, each of which is a scalar or has the dimensions d *)
Lemma broadcast2_ok {A B C} (f : A -> B -> C) a b d : scalar_or_full a d -> scalar_or_full b d ->
  exists r, broadcast2 f a b = Ok r /\ (dims r = if Nat.eqb (length (dims a)) 0 then dims b else dims a) /\ scalar_or_full r d /\
    forall ix, In ix (indices (dims r)) -> get r ix = f (at_index a ix) (at_index b ix).
Proof.
  intros Ha Hb. unfold broadcast2.
  assert (E : broadcast_rev (rev (dims a)) (rev (dims b)) = Some (rev (if Nat.eqb (length (dims a)) 0 then dims b else dims a))).
  { destruct Ha as [Ha|Ha], Hb as [Hb|Hb]; rewrite ?Ha, ?Hb; cbn [rev length Nat.eqb broadcast_rev]; try reflexivity.
    - rewrite broadcast_nil_r. destruct d; reflexivity.
    - rewrite broadcast_same. destruct d; reflexivity. }
  rewrite E, rev_involutive. eexists. split; [reflexivity|split; [reflexivity|split]].
  - unfold scalar_or_full. cbn [dims]. destruct (Nat.eqb _ 0); assumption.
  - cbn [dims get]. intros ix Hi. destruct (Nat.eqb_spec (length (dims a)) 0) as [Z|Z].
    + assert (dims a = []) by (destruct (dims a); [reflexivity|discriminate Z]).
      rewrite broadcast_get_scalar, at_scalar, broadcast_get_full, at_full by assumption. reflexivity.
    + rewrite broadcast_get_full, at_full by assumption. rewrite (broadcast_at b (dims a)); [reflexivity| |exact Hi].
      destruct Hb as [Hb|Hb]; [left; exact Hb|]. destruct Ha as [Ha|Ha]; [rewrite Ha in Z; now contradiction Z|]. right. congruence.
Qed.

(** ** One element *)
Lemma cart2sph_smul k v lat lon : vrot_cart2sph (scale k v) lat lon = scale k (vrot_cart2sph v lat lon).
Proof. destruct v as [[a b] c]. cbn [scale]. rewrite !vrot_cart2sph_eq. cbv zeta. cbn [scale]. apply triple_eq; ring. Qed.
Lemma sph2cart_smul k v lat lon : vrot_sph2cart (scale k v) lat lon = scale k (vrot_sph2cart v lat lon).
Proof. destruct v as [[a b] c]. cbn [scale]. rewrite !vrot_sph2cart_eq. cbv zeta. cbn [scale]. apply triple_eq; ring. Qed.
Lemma dot_smul k v m : dot (scale k v) m = scale k (dot v m).
Proof. destruct v as [[a b] c], m as [[[[? ?] ?] [[? ?] ?]] [[? ?] ?]]. cbn. apply triple_eq; ring. Qed.
Lemma vmul_smul k v s : vmul (scale k v) s = scale k (vmul v s).
Proof. destruct v as [[a b] c], s as [[s0 s1] s2]. cbn. apply triple_eq; ring. Qed.

Lemma rotate_smul k v lat_ngp lon_ngp xd x ci co :
  rotate_vectors_from_dipole (scale k v) lat_ngp lon_ngp xd x ci co
  = scale k (rotate_vectors_from_dipole v lat_ngp lon_ngp xd x ci co).
Proof.
  unfold rotate_vectors_from_dipole. destruct xd as [[la lo] r].
  destruct (if ct_eqb co CT_GEOCENTRIC_CARTESIAN then (0, 0) else _) as [lat lon].
  unfold vrot_from_dipole. cbv zeta. rewrite sph2cart_smul, dot_smul. destruct (ct_eqb co _); [reflexivity|]. apply cart2sph_smul.
Qed.

Lemma degree_csize N : (0 <= N < 2 ^ 24)%Z -> exists csize, (2 * csize = (N + 1) * (N + 2))%Z /\ (1 <= csize < 2 ^ 50)%Z.
Proof.
  intro H. exists ((N + 1) * (N + 2) / 2)%Z.
  assert (E : (((N + 1) * (N + 2)) mod 2 = 0)%Z).
  { rewrite Z.mul_mod by lia. destruct (Z.mod_pos_bound N 2); [lia|].
    assert (D : (N mod 2 = 0 \/ N mod 2 = 1)%Z) by lia. rewrite (Z.add_mod N 1), (Z.add_mod N 2) by lia.
    destruct D as [-> | ->]; reflexivity. }
  pose proof (Z.div_mod ((N + 1) * (N + 2)) 2 ltac:(lia)) as D. rewrite E in D.
  split; [lia|].
  assert ((N + 1) * (N + 2) <= 2 ^ 24 * (2 ^ 24 + 1))%Z by (apply Z.mul_le_mono_nonneg; lia).
  assert (1 * 2 <= (N + 1) * (N + 2))%Z by (apply Z.mul_le_mono_nonneg; lia). lia.
Qed.

(** minus the gradient for one position and two times *)
Definition core_element (set : f2d_set) (N : Z) (internal : bool) (lat_ngp lon_ngp t1 t2 : R) (x : vec) ci co (s : option vec) (out : option vec) : Prop :=
  exists c w csize, series_at set t1 t2 c /\ (2 * csize = (N + 1) * (N + 2))%Z /\
    (forall mem, sheval_dipole x csize c lat_ngp lon_ngp ci co SM_GRADIENT internal (-1) 1
       (match s with Some s => s | None => (1, 1, 1) end) mem = Ok (None, Some w)) /\
    out = Some (scale (-(1)) w).

Lemma single_value set N internal lat_ngp lon_ngp t1 t2 x ci co s mem fmem o : distinct_series set N ->
  sheval2dfs (nd0 t1) (nd0 t2) (nd0 (convert_to_dipole x lat_ngp lon_ngp ci)) set CT_GEOCENTRIC_SPHERICAL CT_GEOCENTRIC_SPHERICAL
    SM_GRADIENT internal 1 (Ropp 1, Ropp 1, Ropp 1) mem fmem = Ok ([], [o]) ->
  exists g, o = (None, Some g) /\
    core_element set N internal lat_ngp lon_ngp t1 t2 x ci co s
      (Some (let v := rotate_vectors_from_dipole g lat_ngp lon_ngp (convert_to_dipole x lat_ngp lon_ngp ci) x ci co in
             match s with Some s => vmul v s | None => v end)).
Proof.
  intros (U & Di & L & B) E.
  assert (N0 : (0 <= N)%Z).
  { destruct L as [_ [[-> _]|[m Hm]]]; [lia|]. destruct U as (_ & V & _). destruct (V _ _ Hm) as [H _]. lia. }
  destruct (fs_single set N t1 t2 U Di L B) as (c & C1 & C2 & C3).
  destruct (degree_csize N (conj N0 B)) as (csize & Hc & Hb).
  rewrite (C3 _ csize _ _ _ _ _ _ mem fmem mem Hc) in E. rewrite sheval_frame in E; [|exact Hb|discriminate].
  rewrite (convert_same CT_GEOCENTRIC_SPHERICAL) in E. unfold frame_value in E.
  destruct (convert_to_dipole x lat_ngp lon_ngp ci) as [[la lo] r] eqn:Ed.
  destruct (value_gradient (eff_degree csize (-1)) internal (DG2RAD * la) (DG2RAD * lo) r 6371.2 c) as [g Hg].
  rewrite Hg in E. cbn [omap rotation] in E. injection E as <-.
  assert (Eg : vmul g (Ropp 1, Ropp 1, Ropp 1) = scale (-(1)) g) by (destruct g as [[? ?] ?]; cbn; apply triple_eq; ring).
  rewrite Eg. eexists. split; [reflexivity|].
  exists c, (vmul (rotate_vectors_from_dipole g lat_ngp lon_ngp (la, lo, r) x ci co) (match s with Some s => s | None => (1, 1, 1) end)), csize.
  split; [split; assumption|split; [exact Hc|split]].
  - intro mem'. unfold sheval_dipole. cbv zeta. rewrite Ed.
    change {| dims := []; get := fun _ : list nat => (la, lo, r) |} with (nd0 (la, lo, r)).
    change {| dims := []; get := fun _ : list nat => c |} with (nd0 c).
    rewrite sheval_frame; [|exact Hb|discriminate]. rewrite (convert_same CT_GEOCENTRIC_SPHERICAL). unfold frame_value. rewrite Hg.
    cbn [omap rotation bind snd]. rewrite vmul_1. reflexivity.
  - cbv zeta. f_equal. rewrite rotate_smul. destruct s as [s|]; [apply vmul_smul|]. now rewrite vmul_1.
Qed.

Section Eval.
Context {T : Type} {OT : TOrd T}.

Lemma at_apply {A B} (f : A -> B) (a : nd A) ix : at_index (nd_apply f a) ix = f (at_index a ix).
Proof. reflexivity. Qed.

(** the sub-solar point for one time *)
Definition sun_at (m : @mio T) (t : T) (lat_sol lon_sol : option R) : R * R :=
  match lat_sol, lon_sol with Some a, Some b => (a, b) | _, _ => mio_subsol m t end.

Lemma get_mut_ok (m : @mio T) time d lat_sol lon_sol : prefix (dims time) d -> option_fits lat_sol d -> option_fits lon_sol d ->
  exists r, get_mut m time lat_sol lon_sol = Ok r /\ prefix (dims r) d /\ leading_match (dims time) (dims r) /\
    forall ix t, In ix (indices d) -> at_index time ix = Some t ->
      at_index r ix = magnetic_universal_time (fst (mio_north_pole m)) (snd (mio_north_pole m))
        (fst (sun_at m t (option_at lat_sol ix) (option_at lon_sol ix))) (snd (sun_at m t (option_at lat_sol ix) (option_at lon_sol ix))).
Proof.
  intros P Fa Fb. unfold get_mut. destruct (mio_north_pole m) as [la lo]. cbn [fst snd].
  assert (G : exists r, @Ok (nd R) (nd_apply (fun t => match t with
                             | Some t => let '(lat, lon) := mio_subsol m t in magnetic_universal_time la lo lat lon
                             | None => 0
                             end) time) = Ok r /\ prefix (dims r) d /\ leading_match (dims time) (dims r) /\
    forall ix t, In ix (indices d) -> at_index time ix = Some t ->
      at_index r ix = magnetic_universal_time la lo (fst (mio_subsol m t)) (snd (mio_subsol m t))).
  { eexists. split; [reflexivity|split; [exact P|split; [left; exact (prefix_refl _)|]]].
    intros ix t _ Ht. rewrite at_apply, Ht. now destruct (mio_subsol m t). }
  destruct lat_sol as [lat|]; [|exact G]. destruct lon_sol as [lon|]; [|exact G].
  destruct (broadcast2_ok (fun a o => magnetic_universal_time la lo a o) lat lon d Fa Fb) as (r & -> & D & S & V).
  exists r. split; [reflexivity|]. assert (P' : prefix (dims r) d) by (destruct S as [-> | ->]; [apply prefix_nil|apply prefix_refl]).
  split; [exact P'|split].
  - destruct S as [-> | ->]; [right; apply prefix_nil|left; exact P].
  - intros ix t Hi _. cbn [option_at option_map sun_at fst snd]. destruct S as [S|S].
    + rewrite (at_scalar r) by exact S. rewrite V by (rewrite S; left; reflexivity).
      assert (dims lat = [] /\ dims lon = []) as [Z1 Z2].
      { destruct (dims lat); cbn [length Nat.eqb] in D; [split; congruence|congruence]. }
      rewrite !at_scalar by assumption. reflexivity.
    + rewrite at_full by (rewrite S; exact Hi). apply V. rewrite S. exact Hi.
Qed.

Lemma longest_third d a b c : longest_of d a b c -> prefix a c -> prefix b c -> d = c.
Proof.
  intros (O & P1 & P2 & P3) A B. apply prefix_length in A. apply prefix_length in B.
  destruct P3 as [e ->]. assert (length e = 0%nat).
  { destruct O as [O|[O|O]]; apply (f_equal (@length nat)) in O; rewrite app_length in O; lia. }
  destruct e; [apply app_nil_r|discriminate].
Qed.

Lemma core_ok (m : @mio T) N time loc ci co s lat_sol lon_sol mem : distinct_series (mio_set m) N ->
  prefix (dims time) (dims loc) -> option_fits lat_sol (dims loc) -> option_fits lon_sol (dims loc) ->
  exists r, mio_core m time loc ci co s lat_sol lon_sol mem = Ok r /\ dims r = dims loc /\
    forall ix t, In ix (indices (dims loc)) -> at_index time ix = Some t ->
      let '(lat, lon) := sun_at m t (option_at lat_sol ix) (option_at lon_sol ix) in
      core_element (mio_set m) N (mio_internal m) (fst (mio_north_pole m)) (snd (mio_north_pole m)) (mio_year_fraction m t)
        (magnetic_universal_time (fst (mio_north_pole m)) (snd (mio_north_pole m)) lat lon) (get loc ix) ci co s (get r ix).
Proof.
  intros Ds P Fa Fb. unfold mio_core. destruct (get_mut_ok m time (dims loc) lat_sol lon_sol P Fa Fb) as (mut & -> & Pm & Lm & Vm).
  destruct (mio_north_pole m) as [la lo] eqn:Enp. cbn [fst snd] in Vm |- *. cbn [bind]. cbv zeta.
  match goal with |- context [sheval2dfs ?t1 ?t2 ?x ?s ?ci ?co ?mode ?i ?sp ?sg ?mem ?fmem] =>
    destruct (proj1 (fs_shape t1 t2 x s ci co mode i sp sg mem fmem (proj1 Ds))) as (od & out & E & O) end.
  { split; [exact Lm|split; [left; exact P|left; exact Pm]]. }
  rewrite E. cbn [bind dims nd_apply] in O |- *. cbn [dims nd_apply] in E.
  assert (od = dims loc) as -> by (apply (longest_third _ _ _ _ O); assumption).
  rewrite (proj2 (dims_eqb_spec (dims loc) (dims loc)) eq_refl), andb_false_r.
  eexists. split; [reflexivity|split; [reflexivity|]]. intros ix t Hi Ht.
  destruct (sun_at m t (option_at lat_sol ix) (option_at lon_sol ix)) as [lat lon] eqn:Es.
  cbn [get]. rewrite all_indices_eq. destruct (position_in ix (indices (dims loc))) as [k|] eqn:Ek; [|now apply position_none in Ek].
  apply position_some in Ek. destruct (fs_pointwise _ _ _ _ _ _ _ _ _ _ _ _ _ _ E) as [_ Q].
  destruct (Q _ _ Ek) as (o & -> & Qo). specialize (Qo (fst mem) (snd mem)).
  rewrite !at_apply, Ht in Qo. rewrite (Vm _ _ Hi Ht), Es in Qo. cbn [fst snd] in Qo. rewrite (at_full loc) in Qo by exact Hi.
  destruct (single_value _ N _ _ _ _ _ _ _ co s _ _ _ Ds Qo) as (g & -> & G). cbv zeta in G.
  rewrite <- (in_indices_length _ _ Hi), firstn_all. exact G.
Qed.

Lemma in_validity_range v (t : T) : in_validity v (Some t) = true <-> in_range t v.
Proof. unfold in_validity, in_range, nleb, nleb'. rewrite andb_true_iff, !leb_le. tauto. Qed.

Lemma reshape_ok {A} (time : nd A) (loc : nd vec) : prefix (dims time) (dims loc) ->
  exists r, reshape_times time loc = Ok r /\ (dims r = [] /\ dims time = [] \/ dims r = dims loc /\ dims time <> []) /\
    forall ix, In ix (indices (dims loc)) -> at_index r ix = at_index time ix.
Proof.
  intro P. unfold reshape_times. rewrite (proj2 (prefixb_spec _ _) P). destruct (dims time) as [|d ds] eqn:E.
  - exists time. split; [reflexivity|split; [left; split; [exact E|reflexivity]|reflexivity]].
  - eexists. split; [reflexivity|split; [right; split; [reflexivity|discriminate]|]]. intros ix Hi.
    rewrite at_full by exact Hi. cbn [get]. unfold at_index. rewrite E. reflexivity.
Qed.

Lemma reshape_refused {A} (time : nd A) (loc : nd vec) : ~ prefix (dims time) (dims loc) ->
  (prefix (dims loc) (dims time) -> reshape_times time loc = Err TypeError) /\
  (~ prefix (dims loc) (dims time) -> reshape_times time loc = Err ValueError).
Proof.
  intro N. unfold reshape_times. destruct (prefixb (dims time) (dims loc)) eqn:E; [now apply prefixb_spec in E|].
  destruct (prefixb (dims loc) (dims time)) eqn:E'; split; intro H; try reflexivity.
  - now apply prefixb_spec in E'.
  - apply prefixb_spec in H. congruence.
Qed.

Lemma mio_times_refused (m : @mio T) time loc ci co s f107 lat_sol lon_sol mem : ~ prefix (dims time) (dims loc) ->
  (prefix (dims loc) (dims time) -> mio_eval m time loc ci co s f107 lat_sol lon_sol mem = Err TypeError) /\
  (~ prefix (dims loc) (dims time) -> mio_eval m time loc ci co s f107 lat_sol lon_sol mem = Err ValueError).
Proof.
  intro N. destruct (reshape_refused time loc N) as (A & B). unfold mio_eval. split; intro H; [now rewrite (A H)|now rewrite (B H)].
Qed.

Lemma mask_option_ok {A} (o : option (nd A)) (mask : nd bool) d : option_fits o d -> prefix (dims mask) d ->
  exists r, mask_option o mask = Ok r /\ option_fits r (count mask :: skipn (length (dims mask)) d) /\
    forall i ix, length ix = length d -> nth_error (selected mask) i = Some (firstn (length (dims mask)) ix) ->
      option_at r (i :: skipn (length (dims mask)) ix) = option_at o ix.
Proof.
  intros F P. destruct o as [a|]; [|exists None; repeat split; reflexivity]. cbn [mask_option option_fits] in F |- *. unfold mask_array.
  destruct (Nat.ltb_spec 0 (length (dims a))) as [L|L].
  - destruct F as [F|F]; [rewrite F in L; cbn in L; lia|]. rewrite <- F in P.
    destruct (take_ok a mask P) as (r & -> & D & G). exists (Some r). split; [reflexivity|split].
    + right. rewrite D, F. reflexivity.
    + intros i ix Hl Hi. cbn [option_at option_map]. f_equal. rewrite <- F in Hl.
      exact (take_at a r mask (dims a) ix i P (prefix_refl _) Hl D G Hi).
  - assert (Z : dims a = []) by (destruct (dims a); [reflexivity|cbn in L; lia]).
    exists (Some a). split; [reflexivity|split; [left; exact Z|]]. intros i ix _ _. cbn [option_at option_map]. f_equal.
    rewrite !at_scalar by exact Z. reflexivity.
Qed.

Lemma mio_value (m : @mio T) N time loc ci co s f107 lat_sol lon_sol mem : distinct_series (mio_set m) N ->
  prefix (dims time) (dims loc) -> option_fits f107 (dims loc) -> option_fits lat_sol (dims loc) -> option_fits lon_sol (dims loc) ->
  ~ f107_without_times f107 time ->
  exists r, mio_eval m time loc ci co s f107 lat_sol lon_sol mem = Ok r /\ dims r = dims loc /\
    forall ix, In ix (indices (dims loc)) ->
      mio_element m N (at_index time ix) (get loc ix) ci co s (option_at f107 ix) (option_at lat_sol ix) (option_at lon_sol ix) (get r ix).
Proof.
  intros Ds P Ff Fa Fb Fw. unfold mio_eval.
  destruct (reshape_ok time loc P) as (time' & -> & Dt & Vt). cbn [bind]. cbv zeta.
  assert (Pt : prefix (dims time') (dims loc)) by (destruct Dt as [[-> _]|[-> _]]; [apply prefix_nil|apply prefix_refl]).
  (* the mask has the dimensions of the times *)
  set (tm := nd_apply (in_validity (mio_validity m)) time').
  set (good := fun (t : option T) (f : option (option R)) => in_validity (mio_validity m) t && match f with Some None => false | _ => true end).
  assert (M : exists mask, match option_map (nd_apply (option_map (fun f => 1 + mio_wolf_ratio m * f))) f107 with
        | None => Ok tm
        | Some s => broadcast2 andb tm (nd_apply (fun f : option R => match f with Some _ => true | None => false end) s)
        end = Ok mask /\ dims mask = dims time' /\
        forall ix, In ix (indices (dims loc)) -> get mask (firstn (length (dims mask)) ix) = good (at_index time' ix) (option_at f107 ix)).
  { destruct f107 as [f|]; cbn [option_map].
    - cbn [option_fits f107_without_times] in Ff, Fw.
      assert (Sf : scalar_or_full f (dims time')).
      { destruct Ff as [Ff|Ff]; [left; exact Ff|]. destruct Dt as [[Dt Dt']|[Dt _]]; [|right; congruence].
        destruct (dims f) as [|? ?] eqn:Ed; [left; exact Ed|]. exfalso. apply Fw. split; [discriminate|exact Dt']. }
      match goal with |- context [broadcast2 andb tm ?g] => destruct (broadcast2_ok andb tm g (dims time') (or_intror eq_refl) Sf) as (mask & -> & D & S & V) end.
      exists mask. assert (Dm : dims mask = dims time').
      { rewrite D. cbn [tm nd_apply dims]. destruct (Nat.eqb_spec (length (dims time')) 0) as [Z|Z]; [|reflexivity].
        assert (Zt : dims time' = []) by (destruct (dims time'); [reflexivity|discriminate Z]). destruct Sf as [Sf|Sf]; congruence. }
      split; [reflexivity|split; [exact Dm|]]. intros ix Hi.
      assert (Hi' : In (firstn (length (dims mask)) ix) (indices (dims mask))).
      { rewrite Dm. destruct Pt as [c E]. rewrite E in Hi. apply in_indices_app in Hi. apply Hi. }
      rewrite V by exact Hi'. unfold tm. rewrite !at_apply. unfold good. f_equal.
      + f_equal. unfold at_index. rewrite Dm, firstn_firstn, Nat.min_id. reflexivity.
      + cbn [option_at option_map].
        replace (at_index f ix) with (at_index f (firstn (length (dims mask)) ix)).
        * unfold nd_apply, at_index. cbn [get dims]. destruct (get f _); reflexivity.
        * unfold at_index. rewrite firstn_firstn, Dm. f_equal. f_equal. apply Nat.min_l.
          destruct Sf as [-> | ->]; cbn [length]; lia.
    - exists tm. split; [reflexivity|split; [reflexivity|]]. intros ix Hi. unfold good. cbn [option_at option_map]. rewrite andb_true_r.
      reflexivity. }
  destruct M as (mask & -> & Dm & Vm). cbn [bind].
  assert (Pm : prefix (dims mask) (dims loc)) by (rewrite Dm; exact Pt).
  destruct (mask_option_ok lat_sol mask (dims loc) Fa Pm) as (lat' & -> & Fa' & Va). cbn [bind].
  destruct (mask_option_ok lon_sol mask (dims loc) Fb Pm) as (lon' & -> & Fb' & Vb). cbn [bind].
  assert (Pmt : prefix (dims mask) (dims time')) by (rewrite Dm; apply prefix_refl).
  destruct (take_ok time' mask Pmt) as (ts & -> & Dts & Gts). cbn [bind].
  destruct (take_ok loc mask Pm) as (ls & -> & Dls & Gls). cbn [bind].
  destruct (core_ok m N ts ls ci co s lat' lon' mem Ds) as (vs & -> & Dvs & Vvs).
  { rewrite Dts, Dls. destruct (prefix_skipn (dims mask) _ _ Pmt Pt) as [c E]. exists c. rewrite E. reflexivity. }
  { rewrite Dls. exact Fa'. } { rewrite Dls. exact Fb'. }
  cbn [bind].
  destruct (store_ok {| dims := dims loc; get := fun _ => None |} mask vs) as (res & -> & Dres & Vres).
  { exact Pm. } { rewrite Dvs, Dls. reflexivity. }
  cbn [bind dims get] in Dres, Vres |- *.
  (* the values without the factor *)
  assert (Core : forall ix, In ix (indices (dims loc)) -> forall t, at_index time ix = Some t ->
     (good (Some t) (option_at f107 ix) = true ->
      let '(lat, lon) := sun_at m t (option_at lat_sol ix) (option_at lon_sol ix) in
      core_element (mio_set m) N (mio_internal m) (fst (mio_north_pole m)) (snd (mio_north_pole m)) (mio_year_fraction m t)
        (magnetic_universal_time (fst (mio_north_pole m)) (snd (mio_north_pole m)) lat lon) (get loc ix) ci co s (get res ix))).
  { intros ix Hi t Ht Hg. pose proof (in_indices_length _ _ Hi) as Hl. destruct (Vres ix Hi) as [V1 _]. rewrite (Vm ix Hi), (Vt _ Hi), Ht in V1.
    destruct (V1 Hg) as (i & Ei & Hin & ->). rewrite Dvs in Hin. specialize (Vvs (i :: skipn (length (dims mask)) ix) t Hin).
    rewrite (take_at time' ts mask (dims loc) ix i Pmt Pt Hl Dts Gts Ei), (Vt _ Hi), (Va _ _ Hl Ei), (Vb _ _ Hl Ei) in Vvs.
    specialize (Vvs Ht). destruct (sun_at _ _ _ _) as [lat lon].
    rewrite (Gls _ _ _ Ei), firstn_skipn in Vvs. exact Vvs. }
  assert (Bad : forall ix, In ix (indices (dims loc)) -> good (at_index time ix) (option_at f107 ix) = false -> get res ix = None).
  { intros ix Hi Hg. destruct (Vres ix Hi) as [_ V2]. apply V2. rewrite (Vm ix Hi), (Vt _ Hi). exact Hg. }
  set (fin := fun (f : option (option R)) (v : option vec) => match f with
       | None => v
       | Some None => None
       | Some (Some f) => match v with Some v => Some (vmul v (1 + mio_wolf_ratio m * f, 1 + mio_wolf_ratio m * f, 1 + mio_wolf_ratio m * f)) | None => None end
       end).
  assert (Res : exists r, match option_map (nd_apply (option_map (fun f => 1 + mio_wolf_ratio m * f))) f107 with
    | None => Ok res
    | Some s0 => if prefixb (dims s0) (dims loc) then Ok {| dims := dims loc; get := fun ix => match get s0 (firstn (length (dims s0)) ix), get res ix with
                               | Some k, Some v => Some (vmul v (k, k, k)) | _, _ => None end |} else Err ValueError
    end = Ok r /\ dims r = dims loc /\ forall ix, In ix (indices (dims loc)) -> get r ix = fin (option_at f107 ix) (get res ix)).
  { destruct f107 as [f|]; cbn [option_map].
    - cbn [nd_apply dims]. assert (Pf : prefix (dims f) (dims loc)) by (destruct Ff as [-> | ->]; [apply prefix_nil|apply prefix_refl]).
      rewrite (proj2 (prefixb_spec _ _) Pf). eexists. split; [reflexivity|split; [reflexivity|]]. intros ix Hi. cbn [get option_at option_map].
      unfold fin, at_index, nd_apply. cbn [get]. destruct (get f _); reflexivity.
    - exists res. split; [reflexivity|split; [exact Dres|]]. reflexivity. }
  destruct Res as (r & -> & Dr & Vr). exists r. split; [reflexivity|split; [exact Dr|]].
  intros ix Hi. rewrite (Vr ix Hi). specialize (Core ix Hi). specialize (Bad ix Hi). unfold mio_element.
  destruct (at_index time ix) as [t|] eqn:Et.
  2:{ assert (Z : get res ix = None) by (apply Bad; reflexivity). rewrite Z. destruct (option_at f107 ix) as [[f|]|]; reflexivity. }
  specialize (Core t eq_refl).
  assert (Main : forall k, option_at f107 ix <> Some None -> (forall v, fin (option_at f107 ix) v = match v with Some v => Some (scale k v) | None => None end) ->
    (~ in_range t (mio_validity m) -> fin (option_at f107 ix) (get res ix) = None) /\
      (in_range t (mio_validity m) ->
       exists c w lat lon csize,
         match option_at lat_sol ix, option_at lon_sol ix with
         | Some a, Some b => lat = a /\ lon = b
         | _, _ => (lat, lon) = mio_subsol m t
         end /\
         series_at (mio_set m) (mio_year_fraction m t)
           (magnetic_universal_time (fst (mio_north_pole m)) (snd (mio_north_pole m)) lat lon) c /\
         (2 * csize = (N + 1) * (N + 2))%Z /\
         (forall mem, sheval_dipole (get loc ix) csize c (fst (mio_north_pole m)) (snd (mio_north_pole m)) ci co SM_GRADIENT
            (mio_internal m) (-1) 1 (match s with Some s => s | None => (1, 1, 1) end) mem = Ok (None, Some w)) /\
         fin (option_at f107 ix) (get res ix) = Some (scale (- k) w))).
  { intros k Hn Hk. split; intro Hr.
    - rewrite Hk, Bad; [reflexivity|]. unfold good. apply andb_false_iff. left. destruct (in_validity _ _) eqn:Ev; [|reflexivity].
      exfalso. apply Hr. now apply in_validity_range.
    - assert (Hg : good (Some t) (option_at f107 ix) = true).
      { unfold good. apply andb_true_iff. split; [now apply in_validity_range|]. destruct (option_at f107 ix) as [[?|]|]; congruence. }
      specialize (Core Hg). destruct (sun_at m t (option_at lat_sol ix) (option_at lon_sol ix)) as [lat lon] eqn:Es.
      destruct Core as (c & w & csize & C1 & C2 & C3 & C4). exists c, w, lat, lon, csize. split; [|split; [exact C1|split; [exact C2|split; [exact C3|]]]].
      + unfold sun_at in Es. destruct (option_at lat_sol ix), (option_at lon_sol ix); [split; congruence|..]; congruence.
      + rewrite Hk, C4. f_equal. destruct w as [[a b] c']. cbn [scale]. apply triple_eq; ring. }
  destruct (option_at f107 ix) as [[f|]|] eqn:Ef; [| |].
  - apply Main; [discriminate|]. unfold fin. intros v. destruct v as [[[a b] c]|]; [|reflexivity]. f_equal. cbn. apply triple_eq; ring.
  - cbn [fin]. reflexivity.
  - apply Main; [discriminate|]. unfold fin. intros v. destruct v as [[[a b] c]|]; [|reflexivity]. f_equal. cbn. apply triple_eq; ring.
Qed.
End Eval.

(** ** The primary field *)
Section Primary.
Context {T : Type} {OT : TOrd T}.

Lemma mask_array_option {A} (a : nd A) mask r : mask_option (Some a) mask = Ok r -> exists r', r = Some r' /\ mask_array a mask = Ok r'.
Proof. cbn [mask_option]. destruct (mask_array a mask) as [r'|]; [|discriminate]. cbn [bind]. intro E. injection E as <-. eauto. Qed.
Lemma mask_option_dims {A} (o r : option (nd A)) mask : mask_option o mask = Ok r ->
  match o, r with
  | Some a, Some b => dims a = [] <-> dims b = []
  | None, None => True
  | _, _ => False
  end.
Proof.
  destruct o as [a|]; cbn [mask_option]; [|intro E; injection E as <-; exact I]. unfold mask_array.
  destruct (Nat.ltb_spec 0 (length (dims a))) as [L|L].
  - destruct (take a mask) as [b|] eqn:E; [|discriminate]. cbn [bind]. intro H. injection H as <-.
    unfold take in E. destruct (prefixb _ _); [|discriminate]. injection E as <-. cbn [dims].
    destruct (dims a); [cbn in L; lia|]. split; discriminate.
  - cbn [bind]. intro H. injection H as <-. tauto.
Qed.

Lemma masked_ok (model : evaluator) e mask (time : nd (option T)) loc co s f107 lat_sol lon_sol res :
  pointwise model e -> dims mask = dims loc -> dims res = dims loc ->
  scalar_or_full time (dims loc) -> option_fits f107 (dims loc) -> option_fits lat_sol (dims loc) -> option_fits lon_sol (dims loc) ->
  ~ f107_without_times f107 time ->
  exists r, eval_masked model mask time loc co s f107 lat_sol lon_sol res = Ok r /\ dims r = dims loc /\
    forall ix, In ix (indices (dims loc)) ->
      if get mask ix
      then e (at_index time ix) (get loc ix) CT_GEOCENTRIC_SPHERICAL co s (option_at f107 ix) (option_at lat_sol ix) (option_at lon_sol ix) (get r ix)
      else get r ix = get res ix.
Proof.
  intros Hm Dm Dr Ft Ff Fa Fb Fw. unfold eval_masked.
  assert (Pm : prefix (dims mask) (dims loc)) by (rewrite Dm; apply prefix_refl).
  destruct (mask_option_ok f107 mask (dims loc) Ff Pm) as (f' & Ef & Ff' & Vf).
  destruct (mask_option_ok lat_sol mask (dims loc) Fa Pm) as (lat' & -> & Fa' & Va).
  destruct (mask_option_ok lon_sol mask (dims loc) Fb Pm) as (lon' & -> & Fb' & Vb).
  destruct (mask_option_ok (Some time) mask (dims loc) Ft Pm) as (t0 & Et & Ft' & Vt).
  pose proof (mask_option_dims _ _ _ Ef) as Df. pose proof (mask_option_dims _ _ _ Et) as Dt.
  destruct (mask_array_option _ _ _ Et) as (t' & -> & Et'). rewrite Ef, Et'. cbn [bind].
  destruct (take_ok loc mask Pm) as (ls & -> & Dls & Gls). cbn [bind].
  cbn [option_fits] in Ft'. rewrite <- Dls in *.
  destruct (Hm t' ls co s f' lat' lon' Ft' Ff' Fa' Fb') as (vs & -> & Dvs & Vvs).
  { intro W. apply Fw. destruct f' as [g'|]; [|destruct W]. destruct f107 as [g|]; [|destruct Df]. cbn in W |- *. tauto. }
  cbn [bind]. destruct (store_ok res mask vs) as (r & -> & Drr & Vr).
  { rewrite Dr. exact Pm. } { rewrite Dvs, Dls, Dr. reflexivity. }
  exists r. split; [reflexivity|split; [congruence|]]. intros ix Hi. pose proof (in_indices_length _ _ Hi) as Hl.
  rewrite Dr in Vr. destruct (Vr ix Hi) as [V1 V2]. rewrite Dm, <- Hl, firstn_all in V1, V2. rewrite skipn_all in V1.
  destruct (get mask ix) eqn:Em; [|now apply V2].
  destruct (V1 eq_refl) as (i & Ei & Hin & ->). rewrite Dvs in Hin. specialize (Vvs _ Hin).
  assert (Ei' : nth_error (selected mask) i = Some (firstn (length (dims mask)) ix)) by (rewrite Dm, <- Hl, firstn_all; exact Ei).
  specialize (Vf _ _ Hl Ei'). specialize (Va _ _ Hl Ei'). specialize (Vb _ _ Hl Ei'). specialize (Vt _ _ Hl Ei').
  rewrite Dm, <- Hl, skipn_all in Vf, Va, Vb, Vt. cbn [option_at option_map] in Vt.
  assert (Vt' : at_index t' [i] = at_index time ix) by congruence.
  rewrite Vf, Va, Vb, Vt', (Gls _ _ _ Ei), app_nil_r in Vvs. exact Vvs.
Qed.

Lemma primary_value (below above : evaluator) eb ea height radius empty (time : nd (option T)) loc ci co s f107 lat_sol lon_sol :
  pointwise below eb -> pointwise above ea ->
  scalar_or_full time (dims loc) -> option_fits f107 (dims loc) -> option_fits lat_sol (dims loc) -> option_fits lon_sol (dims loc) ->
  ~ f107_without_times f107 time ->
  exists r, primary_eval below above height radius empty time loc ci co s f107 lat_sol lon_sol = Ok r /\ dims r = dims loc /\
    forall ix, In ix (indices (dims loc)) ->
      let x := convert (get loc ix) ci CT_GEOCENTRIC_SPHERICAL in
      let value e := e (at_index time ix) x CT_GEOCENTRIC_SPHERICAL co s (option_at f107 ix) (option_at lat_sol ix) (option_at lon_sol ix) (get r ix) in
      (snd x <= radius + height -> value eb) /\ (radius + height < snd x -> value ea).
Proof.
  intros Hb Ha Ft Ff Fa Fb Fw. unfold primary_eval. cbv zeta.
  set (l := nd_apply (fun x : vec => convert x ci CT_GEOCENTRIC_SPHERICAL) loc).
  match goal with |- context [eval_masked below ?m _ _ _ _ _ _ _ ?res0] => set (mask := m); set (res := res0) end.
  destruct (masked_ok below eb mask time l co s f107 lat_sol lon_sol res Hb eq_refl eq_refl Ft Ff Fa Fb Fw) as (r1 & -> & D1 & V1).
  cbn [bind].
  destruct (masked_ok above ea (nd_apply negb mask) time l co s f107 lat_sol lon_sol r1 Ha eq_refl D1 Ft Ff Fa Fb Fw) as (r2 & -> & D2 & V2).
  exists r2. split; [reflexivity|split; [exact D2|]]. intros ix Hi. set (x := convert (get loc ix) ci CT_GEOCENTRIC_SPHERICAL). specialize (V1 ix Hi). specialize (V2 ix Hi).
  cbn [nd_apply get] in V2.
  assert (Em : get mask ix = if Rle_dec (snd x) (height + radius) then true else false).
  { unfold mask, l, x. cbn [nd_apply get]. destruct (convert (get loc ix) ci CT_GEOCENTRIC_SPHERICAL) as [[a b] c]. reflexivity. }
  rewrite Em in V1, V2. destruct (Rle_dec (snd x) (height + radius)) as [L|L]; cbn [negb] in V2; split; intro H; try (exfalso; lra).
  - rewrite V2. exact V1.
  - exact V2.
Qed.

(** the models of the MIO fields are evaluated element by element *)
Lemma mio_pointwise (m : @mio T) N mem : distinct_series (mio_set m) N ->
  pointwise (fun time loc ci co s f107 lat_sol lon_sol => mio_eval m time loc ci co s f107 lat_sol lon_sol mem) (mio_element m N).
Proof.
  intros Ds time loc co s f107 lat_sol lon_sol Ft Ff Fa Fb Fw. apply mio_value; try assumption.
  destruct Ft as [-> | ->]; [apply prefix_nil|apply prefix_refl].
Qed.

(** ** Validity and degrees *)
Lemma primary_validity_range vb va (t : T) : in_range t (primary_validity vb va) <-> in_range t vb /\ in_range t va.
Proof.
  unfold in_range, primary_validity. cbn [fst snd]. rewrite le_tmax, tmin_le. tauto.
Qed.

(** ** Arrays which do not work *)
Lemma scalar_time_f107 (m : @mio T) t (loc : nd vec) ci co s f mem : dims f <> [] -> dims f = dims loc ->
  mio_eval m (nd0 t) loc ci co s (Some f) None None mem = Err IndexError.
Proof.
  intros Hf Hl. unfold mio_eval, reshape_times. cbn [dims nd0 prefixb bind option_map].
  match goal with |- context [broadcast2 andb ?a ?b] => destruct (broadcast2_ok andb a b (dims f) (or_introl eq_refl) (or_intror eq_refl)) as (mask & -> & D & _) end.
  cbn [bind mask_option]. rewrite take_err; [reflexivity|]. cbn [nd0 dims]. intro P. apply prefix_length in P.
  rewrite D in P. cbn [nd_apply dims length Nat.eqb] in P. destruct (dims f) as [|? ?]; [now contradiction Hf|cbn in P; lia].
Qed.

Lemma primary_few_times (below above : evaluator) height radius empty (time : nd (option T)) loc ci co s :
  dims time <> [] -> ~ prefix (dims loc) (dims time) ->
  primary_eval below above height radius empty time loc ci co s None None None = Err IndexError.
Proof.
  intros Ht Hp. unfold primary_eval, eval_masked. cbn [bind mask_option]. cbv zeta. unfold mask_array.
  destruct (dims time) as [|d ds] eqn:E; [now contradiction Ht|]. cbn [length Nat.ltb Nat.leb].
  rewrite take_err; [reflexivity|]. cbn [nd_apply dims]. rewrite E. exact Hp.
Qed.
End Primary.

(** the radius is the distance from the centre *)
Lemma convert_radius ct v : (ct = CT_GEOCENTRIC_SPHERICAL -> 0 <= snd v) ->
  snd (convert v ct CT_GEOCENTRIC_SPHERICAL) = distance (position ct v).
Proof.
  destruct v as [[a b] c]. intro H. destruct ct.
  - rewrite position_geod_eq. unfold convert. cbn [ct_eqb get_fconv]. unfold conv_WGS84_to_sphECEF, geodetic2geocentric_sph.
    destruct (geodetic2geocentric_ (DG2RAD * a) c WGS84_A WGS84_EPS2) as [p z]. cbn [snd distance]. unfold norm2d. f_equal.
    assert (H1 := sc2 (DG2RAD * b)). set (s := sin (DG2RAD * b)) in *. set (k := cos (DG2RAD * b)) in *.
    transitivity (p * p * (s * s + k * k) + z * z); [rewrite H1; ring|ring].
  - rewrite distance_sph by (apply H; reflexivity). now rewrite (convert_same CT_GEOCENTRIC_SPHERICAL).
  - reflexivity.
Qed.
