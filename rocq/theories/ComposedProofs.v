From Coq Require Import Bool List ZArith Reals String Permutation Lia Lra.
From Verif Require Import Ord CoefModel LegendreModel GeoModel ShEvalModel ShEvalSpec CoordModel CoordSpec FrameProofs DipoleProofs ConvertProofs
  ShFrameProofs ComposedModel ComposedSpec.
Import ListNotations.
Open Scope R_scope.

Lemma dims_eqb_refl a : dims_eqb a a = true.
Proof. induction a as [|x a IH]; [reflexivity|]. cbn [dims_eqb]. now rewrite Nat.eqb_refl. Qed.
Lemma prefixb_spec a : forall b, prefixb a b = true <-> prefix a b.
Proof.
  induction a as [|x a IH]; intros b; cbn [prefixb].
  - split; [intros _; exists b; reflexivity|reflexivity].
  - destruct b as [|y b]; [split; [discriminate|intros [c E]; discriminate]|].
    rewrite andb_true_iff, Nat.eqb_eq, IH. split.
    + intros [-> [c ->]]. exists c. reflexivity.
    + intros [c E]. cbn [app] in E. injection E as -> ->. split; [reflexivity|]. exists c. reflexivity.
Qed.
Lemma prefix_length (a b : list nat) : prefix a b -> (List.length a <= List.length b)%nat.
Proof. intros [c ->]. rewrite app_length. lia. Qed.

Section Composed.
Context {T : Type} {OT : TOrd T} {IT : TInf T} {V : Type}.
Implicit Types (ps : list (@pushed T V)).

Definition comp_of (p : @pushed T V) : component :=
  {| cp_model := p_model p; cp_scale := p_scale p; cp_parameters := p_parameters p |}.

Lemma after_app ps p : after (ps ++ [p]) = push (after ps) (p_model p) (p_scale p) (p_parameters p).
Proof. unfold after. now rewrite fold_left_app. Qed.
Lemma after_components ps : c_components (after ps) = map comp_of ps.
Proof.
  induction ps as [|p ps IH] using rev_ind; [reflexivity|]. rewrite after_app. cbn [push c_components].
  now rewrite IH, map_app.
Qed.

(** ** The sum *)
Lemma nan_plus_total x l : nan_plus x (total l) = total (x :: l).
Proof. destruct x as [[[a b] c]|]; [|reflexivity]. cbn [total]. destruct (total l) as [[[a' b'] c']|]; reflexivity. Qed.
Lemma nan_plus_comm x y : nan_plus x y = nan_plus y x.
Proof.
  destruct x as [[[a b] c]|], y as [[[a' b'] c']|]; try reflexivity. cbn [nan_plus vplus].
  f_equal. apply triple_eq; ring.
Qed.
Lemma nan_plus_assoc x y z : nan_plus x (nan_plus y z) = nan_plus (nan_plus x y) z.
Proof.
  destruct x as [[[a b] c]|], y as [[[a' b'] c']|], z as [[[a2 b2] c2]|]; try reflexivity. cbn [nan_plus vplus].
  f_equal. apply triple_eq; ring.
Qed.
Lemma total_app l x : total (l ++ [x]) = nan_plus (total l) x.
Proof.
  induction l as [|y l IH]; cbn [app].
  - destruct x as [[[a b] c]|]; [|reflexivity]. cbn. f_equal. apply triple_eq; ring.
  - rewrite <- !nan_plus_total, IH. apply nan_plus_assoc.
Qed.
Lemma total_perm l l' : Permutation l l' -> total l = total l'.
Proof.
  induction 1 as [|x l l' _ IH|x y l|]; [reflexivity| | |congruence].
  - now rewrite <- !nan_plus_total, IH.
  - rewrite <- !nan_plus_total, !nan_plus_assoc. f_equal. apply nan_plus_comm.
Qed.

Lemma update_overriding (d e : @dict V) : dict_update d e = overriding e d.
Proof. reflexivity. Qed.

(** the array of the sum before the rotation *)
Definition summed (ps : list (@pushed T V)) time loc ci opts (r : nd (option vec)) : Prop :=
  dims r = dims loc /\
  forall ix, List.length ix = List.length (dims loc) -> get r ix = sum_of_fields ps opts ci (at_index time ix) (get loc ix).

Lemma sum_ok ps time loc ci opts : List.Forall (fun p => evaluates (p_model p) (p_field p)) ps -> ps <> [] ->
  prefix (dims time) (dims loc) ->
  exists r,
    match map comp_of ps with
    | c :: cs =>
        fold_left (fun acc c => bind acc (fun result =>
            bind (g_eval (cp_model c) time (nd_apply (fun v => convert v ci CT_GEOCENTRIC_SPHERICAL) loc) CT_GEOCENTRIC_SPHERICAL CT_GEOCENTRIC_SPHERICAL
                    (Some (cp_scale c)) (dict_update opts (cp_parameters c))) (fun other => nd_iadd result other)))
          cs (g_eval (cp_model c) time (nd_apply (fun v => convert v ci CT_GEOCENTRIC_SPHERICAL) loc) CT_GEOCENTRIC_SPHERICAL CT_GEOCENTRIC_SPHERICAL
                (Some (cp_scale c)) (dict_update opts (cp_parameters c)))
    | [] => zeros_nan time loc
    end = Ok r /\ summed ps time loc ci opts r.
Proof.
  intros HF Hne Hp. destruct ps as [|p ps]; [contradiction|]. clear Hne. cbn [map].
  set (sph := nd_apply (fun v => convert v ci CT_GEOCENTRIC_SPHERICAL) loc).
  revert HF. induction ps as [|q ps IH] using rev_ind; intro HF.
  - cbn [map fold_left]. pose proof (Forall_inv HF) as E.
    destruct (E time sph (Some (cp_scale (comp_of p))) (dict_update opts (cp_parameters (comp_of p))) Hp) as (r & Er & Dr & Gr).
    exists r. split; [exact Er|]. split; [exact Dr|]. intros ix Hix. rewrite Gr by exact Hix.
    unfold sum_of_fields. cbn [map total sph nd_apply get comp_of cp_scale cp_parameters].
    rewrite update_overriding. destruct (p_field p _ _ _ _) as [[[a b] c]|]; [|reflexivity].
    f_equal. apply triple_eq; ring.
  - rewrite map_app, fold_left_app. cbn [map fold_left].
    assert (HF' : List.Forall (fun p => evaluates (p_model p) (p_field p)) (p :: ps)).
    { rewrite app_comm_cons in HF. apply Forall_app in HF. apply HF. }
    destruct (IH HF') as (r & Er & Dr & Gr). rewrite Er. cbn [bind].
    assert (Eq : evaluates (p_model q) (p_field q)).
    { rewrite app_comm_cons in HF. apply Forall_app in HF. apply (Forall_inv (proj2 HF)). }
    destruct (Eq time sph (Some (cp_scale (comp_of q))) (dict_update opts (cp_parameters (comp_of q))) Hp) as (r2 & Er2 & Dr2 & Gr2).
    cbn [comp_of cp_model]. cbn [comp_of cp_model] in Er2. rewrite Er2. cbn [bind]. unfold nd_iadd. rewrite Dr, Dr2. cbn [sph nd_apply dims]. rewrite dims_eqb_refl.
    eexists. split; [reflexivity|]. split; [reflexivity|]. intros ix Hix. cbn [get].
    rewrite Gr, Gr2 by exact Hix. unfold sum_of_fields. rewrite app_comm_cons, map_app. cbn [map]. rewrite total_app.
    reflexivity.
Qed.

(** ** The rotation *)
Definition rotate_step (ci co : coord_type) (loc : nd vec) (res : nd (option vec)) : result (nd (option vec)) :=
  let coord_sph := nd_apply (fun v => convert v ci CT_GEOCENTRIC_SPHERICAL) loc in
  if ct_eqb co CT_GEODETIC_ABOVE_WGS84 then
    let coord_out :=
      if ct_eqb ci CT_GEODETIC_ABOVE_WGS84 then loc
      else nd_apply (fun v => convert v CT_GEOCENTRIC_SPHERICAL CT_GEODETIC_ABOVE_WGS84) coord_sph in
    vrot_arrays vrot_sph2geod res
      {| dims := dims loc; get := fun ix => latitude (get coord_out ix) - latitude (get coord_sph ix) |}
  else if ct_eqb co CT_GEOCENTRIC_CARTESIAN then
    vrot_arrays (fun v a => vrot_sph2cart v (latitude a) (longitude a)) res coord_sph
  else Ok res.

Definition rot1 (ci co : coord_type) (x : vec) (v : vec) : vec :=
  let sph := convert x ci CT_GEOCENTRIC_SPHERICAL in
  match co with
  | CT_GEODETIC_ABOVE_WGS84 =>
      vrot_sph2geod v (latitude (match ci with CT_GEODETIC_ABOVE_WGS84 => x | _ => convert sph CT_GEOCENTRIC_SPHERICAL CT_GEODETIC_ABOVE_WGS84 end) - latitude sph)
  | CT_GEOCENTRIC_SPHERICAL => v
  | CT_GEOCENTRIC_CARTESIAN => vrot_sph2cart v (latitude sph) (longitude sph)
  end.

Lemma vrot_arrays_ok {A} (rot : vec -> A -> vec) vectors angles : dims vectors = dims angles \/ dims angles = [] ->
  vrot_arrays rot vectors angles
  = Ok {| dims := dims vectors; get := fun ix => option_map (fun v => rot v (angle_at angles ix)) (get vectors ix) |}.
Proof.
  intros [E|E]; unfold vrot_arrays; [rewrite E, dims_eqb_refl|rewrite E]; cbn [List.length Nat.eqb negb andb].
  - rewrite andb_false_r. reflexivity.
  - reflexivity.
Qed.
Lemma angle_at_all {A} (a : nd A) ix : List.length ix = List.length (dims a) -> angle_at a ix = get a ix.
Proof. intro E. unfold angle_at. now rewrite <- E, firstn_all. Qed.

(** the vector at an index is rotated with the coordinates at this index, or with those of the
    only position *)
Lemma rotate_step_ok ci co loc res : dims res = dims loc \/ dims loc = [] ->
  exists r, rotate_step ci co loc res = Ok r /\ dims r = dims res /\
    forall ix, List.length ix = List.length (dims res) ->
      get r ix = option_map (rot1 ci co (at_index loc ix)) (get res ix).
Proof.
  intro D. unfold rotate_step. cbv zeta.
  assert (Ox : forall o : option vec, o = option_map (fun v => v) o) by (intros [v|]; reflexivity).
  assert (Ai : forall A (g : list nat -> A) ix, List.length ix = List.length (dims res) ->
    angle_at {| dims := dims loc; get := g |} ix = g (firstn (List.length (dims loc)) ix)) by reflexivity.
  destruct co; cbn [ct_eqb].
  - rewrite vrot_arrays_ok by exact D. eexists. split; [reflexivity|]. split; [reflexivity|].
    intros ix Hix. cbn [get]. rewrite (Ai _ _ ix Hix). unfold rot1, at_index. destruct ci; reflexivity.
  - eexists. split; [reflexivity|]. split; [reflexivity|]. intros ix _. unfold rot1. apply Ox.
  - rewrite vrot_arrays_ok by exact D. eexists. split; [reflexivity|]. split; [reflexivity|].
    intros ix Hix. cbn [get]. unfold nd_apply. rewrite (Ai _ _ ix Hix). reflexivity.
Qed.

Lemma rot1_vrotate ci co x v : cart_ok ci x ->
  vrotate v (Some (convert x ci CT_GEOCENTRIC_SPHERICAL)) (Some (convert x ci co))
    (ct_number CT_GEOCENTRIC_SPHERICAL) (ct_number co) = Ok (rot1 ci co x v).
Proof.
  intro Hc. rewrite vrotate_rotation. f_equal. unfold rot1. cbv zeta. destruct co.
  - destruct ci.
    + rewrite convert_same. destruct (convert x CT_GEODETIC_ABOVE_WGS84 CT_GEOCENTRIC_SPHERICAL) as [[la lo] r], x as [[lb ob] rb]. reflexivity.
    + rewrite convert_same. destruct (convert x CT_GEOCENTRIC_SPHERICAL CT_GEODETIC_ABOVE_WGS84) as [[la lo] r], x as [[lb ob] rb]. reflexivity.
    + assert (E : latitude (convert (convert x CT_GEOCENTRIC_CARTESIAN CT_GEOCENTRIC_SPHERICAL) CT_GEOCENTRIC_SPHERICAL CT_GEODETIC_ABOVE_WGS84)
                  = latitude (convert x CT_GEOCENTRIC_CARTESIAN CT_GEODETIC_ABOVE_WGS84)).
      { destruct x as [[x y] z]. pose proof (sph_geod_lat x y z (Hc eq_refl)) as H.
        replace (convert (x, y, z) CT_GEOCENTRIC_CARTESIAN CT_GEOCENTRIC_SPHERICAL) with (conv_cartECEF_to_sphECEF (x, y, z)) by reflexivity.
        unfold conv_cartECEF_to_sphECEF. destruct (cart2sph x y z) as [[r th] ph].
        replace (convert (th * RAD2DG, ph * RAD2DG, r) CT_GEOCENTRIC_SPHERICAL CT_GEODETIC_ABOVE_WGS84)
          with (geocentric_sph2geodetic r (DG2RAD * (th * RAD2DG)) (DG2RAD * (ph * RAD2DG)) WGS84_A WGS84_EPS2) by reflexivity.
        rewrite !CoordProofs.rad_deg.
        destruct (geocentric_sph2geodetic r th ph WGS84_A WGS84_EPS2) as [[l1 l2] l3],
          (convert (x, y, z) CT_GEOCENTRIC_CARTESIAN CT_GEODETIC_ABOVE_WGS84) as [[la lo] h]. exact H. }
      rewrite E. destruct (convert x CT_GEOCENTRIC_CARTESIAN CT_GEODETIC_ABOVE_WGS84) as [[la lo] r],
        (convert x CT_GEOCENTRIC_CARTESIAN CT_GEOCENTRIC_SPHERICAL) as [[lb ob] rb]. reflexivity.
  - destruct (convert x ci CT_GEOCENTRIC_SPHERICAL) as [[la lo] r]. reflexivity.
  - destruct (convert x ci CT_GEOCENTRIC_SPHERICAL) as [[la lo] r], (convert x ci CT_GEOCENTRIC_CARTESIAN) as [[lb ob] rb]. reflexivity.
Qed.
Lemma composed_eval_steps (self : @composed T V) time loc ci co fs opts :
  composed_eval self time loc ci co fs opts =
  bind (match c_components self with
    | c :: cs =>
        fold_left (fun acc c => bind acc (fun result =>
            bind (g_eval (cp_model c) time (nd_apply (fun v => convert v ci CT_GEOCENTRIC_SPHERICAL) loc) CT_GEOCENTRIC_SPHERICAL CT_GEOCENTRIC_SPHERICAL
                    (Some (cp_scale c)) (dict_update opts (cp_parameters c))) (fun other => nd_iadd result other)))
          cs (g_eval (cp_model c) time (nd_apply (fun v => convert v ci CT_GEOCENTRIC_SPHERICAL) loc) CT_GEOCENTRIC_SPHERICAL CT_GEOCENTRIC_SPHERICAL
                (Some (cp_scale c)) (dict_update opts (cp_parameters c)))
    | [] => zeros_nan time loc
    end) (fun r => bind (rotate_step ci co loc r) (fun r =>
      Ok (match fs with None => r | Some s => nd_apply (option_map (fun v => vmul v s)) r end))).
Proof. reflexivity. Qed.

Lemma rescaled_vmul (s : option vec) v :
  match s with None => v | Some s => vmul v s end = rescaled s v.
Proof. destruct s as [[[s0 s1] s2]|], v as [[a b] c]; reflexivity. Qed.

Definition scale_step (fs : option vec) (r : nd (option vec)) : nd (option vec) :=
  match fs with None => r | Some s => nd_apply (option_map (fun v => vmul v s)) r end.
Lemma scale_step_dims fs r : dims (scale_step fs r) = dims r.
Proof. destruct fs; reflexivity. Qed.
Lemma scale_step_get fs r ix : get (scale_step fs r) ix = option_map (rescaled fs) (get r ix).
Proof.
  destruct fs as [s|]; cbn [scale_step].
  - cbn [nd_apply get]. destruct (get r ix) as [v|]; [|reflexivity]. cbn [option_map]. f_equal. apply (rescaled_vmul (Some s)).
  - destruct (get r ix) as [[[a b] c]|]; reflexivity.
Qed.

(** the value, without hypotheses about the position *)
Lemma composed_value ps time loc ci co fs opts : List.Forall (fun p => evaluates (p_model p) (p_field p)) ps -> ps <> [] ->
  prefix (dims time) (dims loc) ->
  exists r, composed_eval (after ps) time loc ci co fs opts = Ok r /\ dims r = dims loc /\
    forall ix, List.length ix = List.length (dims loc) ->
      get r ix = option_map (fun v => rescaled fs (rot1 ci co (get loc ix) v))
                   (sum_of_fields ps opts ci (at_index time ix) (get loc ix)).
Proof.
  intros HF Hne Hp. rewrite composed_eval_steps, after_components.
  destruct (sum_ok ps time loc ci opts HF Hne Hp) as (r & Er & Dr & Gr). rewrite Er. cbn [bind].
  destruct (rotate_step_ok ci co loc r (or_introl Dr)) as (r2 & Er2 & Dr2 & Gr2). rewrite Er2. cbn [bind].
  exists (scale_step fs r2). split; [reflexivity|]. rewrite scale_step_dims, Dr2. split; [exact Dr|].
  intros ix Hix. rewrite scale_step_get, Gr2 by (now rewrite Dr). rewrite Gr by exact Hix.
  assert (Al : at_index loc ix = get loc ix) by (unfold at_index; now rewrite <- Hix, firstn_all).
  rewrite Al. destruct (sum_of_fields ps opts ci (at_index time ix) (get loc ix)); reflexivity.
Qed.

Lemma composed_sum ps time loc ci co fs opts : List.Forall (fun p => evaluates (p_model p) (p_field p)) ps -> ps <> [] ->
  prefix (dims time) (dims loc) ->
  exists r, composed_eval (after ps) time loc ci co fs opts = Ok r /\ dims r = dims loc /\
    forall ix, List.length ix = List.length (dims loc) ->
      (ci = CT_GEOCENTRIC_CARTESIAN -> get loc ix <> (0, 0, 0)) ->
      delivered ci co (get loc ix) fs (sum_of_fields ps opts ci (at_index time ix) (get loc ix)) (get r ix).
Proof.
  intros HF Hne Hp. destruct (composed_value ps time loc ci co fs opts HF Hne Hp) as (r & Er & Dr & Gr).
  exists r. split; [exact Er|]. split; [exact Dr|]. intros ix Hix Hc. rewrite Gr by exact Hix.
  unfold delivered. destruct (sum_of_fields ps opts ci (at_index time ix) (get loc ix)) as [v|]; [|reflexivity].
  exists (rot1 ci co (get loc ix) v). split; [now apply rot1_vrotate|reflexivity].
Qed.

Lemma composed_order ps ps' time loc ci co fs opts : Permutation ps ps' ->
  List.Forall (fun p => evaluates (p_model p) (p_field p)) ps -> prefix (dims time) (dims loc) ->
  exists r r', composed_eval (after ps) time loc ci co fs opts = Ok r /\
    composed_eval (after ps') time loc ci co fs opts = Ok r' /\ dims r = dims r' /\
    forall ix, List.length ix = List.length (dims r) -> get r ix = get r' ix.
Proof.
  intros HP HF Hp. destruct ps as [|p ps].
  - apply Permutation_nil in HP. subst ps'. rewrite composed_eval_steps, after_components. cbn [map].
    unfold zeros_nan. cbv zeta. pose proof (prefix_length _ _ Hp) as L.
    destruct (Nat.ltb_spec (List.length (dims loc)) (List.length (dims time))) as [L2|_]; [lia|].
    rewrite (proj2 (prefixb_spec _ _) Hp). cbn [bind].
    match goal with |- context [rotate_step ci co loc ?r] => destruct (rotate_step_ok ci co loc r (or_introl eq_refl)) as (r2 & -> & _) end.
    cbn [bind]. eexists. eexists. split; [reflexivity|]. split; [reflexivity|]. split; reflexivity.
  - assert (Hne : p :: ps <> []) by discriminate.
    assert (Hne' : ps' <> []) by (intros ->; apply Permutation_sym, Permutation_nil in HP; discriminate).
    assert (HF' : List.Forall (fun p => evaluates (p_model p) (p_field p)) ps').
    { rewrite Forall_forall in *. intros q Hq. apply HF. eapply Permutation_in; [apply Permutation_sym; exact HP|exact Hq]. }
    destruct (composed_value (p :: ps) time loc ci co fs opts HF Hne Hp) as (r & Er & Dr & Gr).
    destruct (composed_value ps' time loc ci co fs opts HF' Hne' Hp) as (r' & Er' & Dr' & Gr').
    exists r, r'. split; [exact Er|]. split; [exact Er'|]. split; [congruence|]. intros ix Hix. rewrite Dr in Hix.
    rewrite Gr, Gr' by exact Hix. f_equal. unfold sum_of_fields. apply total_perm. apply Permutation_map. exact HP.
Qed.

(** no components *)
Lemma sph2geod_zero d : vrot_sph2geod (0, 0, 0) d = (0, 0, 0).
Proof. unfold vrot_sph2geod, rot2d. cbv zeta. apply triple_eq; ring. Qed.
Lemma sph2cart_zero a b : vrot_sph2cart (0, 0, 0) a b = (0, 0, 0).
Proof. unfold vrot_sph2cart, rot2d. cbv zeta. apply triple_eq; ring. Qed.
Lemma rot1_zero ci co x : rot1 ci co x (0, 0, 0) = (0, 0, 0).
Proof. unfold rot1. destruct co; [apply sph2geod_zero|reflexivity|apply sph2cart_zero]. Qed.
Lemma composed_none time loc ci co fs opts :
  prefix (dims time) (dims loc) \/ dims loc = [] ->
  exists r, composed_eval (@composed_empty T OT IT V) time loc ci co fs opts = Ok r /\
    dims r = (if Nat.ltb (List.length (dims loc)) (List.length (dims time)) then dims time else dims loc) /\
    forall ix, List.length ix = List.length (dims r) ->
      get r ix = match at_index time ix with Some _ => Some (0, 0, 0) | None => None end.
Proof.
  intro H. rewrite composed_eval_steps. cbn [c_components composed_empty]. unfold zeros_nan. cbv zeta.
  set (shape := if Nat.ltb (List.length (dims loc)) (List.length (dims time)) then dims time else dims loc).
  assert (Hs : prefix (dims time) shape /\ (shape = dims loc \/ dims loc = [])).
  { unfold shape. destruct (Nat.ltb_spec (List.length (dims loc)) (List.length (dims time))) as [L|L].
    - split; [exists []; now rewrite app_nil_r|]. destruct H as [H|H]; [|right; exact H]. apply prefix_length in H. lia.
    - split; [|left; reflexivity]. destruct H as [H|H]; [exact H|]. rewrite H in L. cbn [List.length] in L.
      destruct (dims time) as [|d ds]; [exists (dims loc); reflexivity|cbn [List.length] in L; lia]. }
  destruct Hs as [Hp Hs]. rewrite (proj2 (prefixb_spec _ _) Hp). cbn [bind].
  set (z := {| dims := shape; get := _ |}). destruct (rotate_step_ok ci co loc z) as (r2 & Er & Dr & Gr); [exact Hs|].
  rewrite Er. cbn [bind]. exists (scale_step fs r2). split; [reflexivity|]. rewrite scale_step_dims, Dr. split; [reflexivity|].
  intros ix Hix. rewrite scale_step_get, Gr by exact Hix. cbn [z get]. unfold at_index.
  destruct (get time (firstn (List.length (dims time)) ix)); [|reflexivity]. cbn [option_map]. rewrite rot1_zero.
  f_equal. destruct fs as [[[a b] c]|]; cbn [rescaled]; [|reflexivity]. apply triple_eq; ring.
Qed.

(** a composed model is a model *)
Definition composed_field (ps : list (@pushed T V)) : @field T V := fun opts scale t x =>
  option_map (rescaled scale) (sum_of_fields ps opts CT_GEOCENTRIC_SPHERICAL t x).
Lemma composed_evaluates ps : List.Forall (fun p => evaluates (p_model p) (p_field p)) ps -> ps <> [] ->
  evaluates (composed_model (after ps)) (composed_field ps).
Proof.
  intros HF Hne time loc scale opts Hp.
  destruct (composed_value ps time loc CT_GEOCENTRIC_SPHERICAL CT_GEOCENTRIC_SPHERICAL scale opts HF Hne Hp) as (r & Er & Dr & Gr).
  exists r. split; [exact Er|]. split; [exact Dr|]. intros ix Hix. rewrite Gr by exact Hix. unfold composed_field. reflexivity.
Qed.

Lemma composed_parameters ps name :
  In name (c_parameters (after ps)) <->
  name = "time"%string \/ name = "location"%string \/ exists p, In p ps /\ In name (g_parameters (p_model p)).
Proof.
  induction ps as [|p ps IH] using rev_ind.
  - cbn. split; [intros [H|[H|[]]]; auto|]. intros [H|[H|(p & [] & _)]]; auto.
  - rewrite after_app. cbn [push c_parameters]. rewrite in_app_iff, IH. split.
    + intros [[H|[H|(q & Hq & Hn)]]|H]; auto; right; right; [exists q|exists p]; rewrite in_app_iff; cbn [In]; auto.
    + intros [H|[H|(q & Hq & Hn)]]; auto. apply in_app_iff in Hq. cbn [In] in Hq. destruct Hq as [Hq|[<-|[]]]; [|auto].
      left. right. right. exists q. auto.
Qed.

(** ** Validity *)
Lemma overlap_range v w (t : T) : lt ninf t -> (in_range t (validity_overlap v w) <-> in_range t v /\ in_range t w).
Proof.
  intro Ht. unfold validity_overlap, in_range. cbv zeta.
  destruct (ltb (tmin (snd v) (snd w)) (tmax (fst v) (fst w))) eqn:E; cbn [fst snd].
  - split.
    + intros [_ H]. exfalso. exact (le_lt_absurd _ _ H Ht).
    + intros [[H1 H2] [H3 H4]]. exfalso.
      assert (L : lt (tmin (snd v) (snd w)) (tmax (fst v) (fst w))) by (apply ltb_lt; exact E).
      apply (lt_irrefl t). eapply le_lt_trans; [apply tmin_le; split; [exact H2|exact H4]|]. eapply lt_le_trans; [exact L|].
      apply le_tmax. tauto.
  - rewrite le_tmax, tmin_le. tauto.
Qed.
Lemma composed_validity ps (t : T) : lt ninf t ->
  (in_range t (c_validity (after ps)) <-> forall p, In p ps -> in_range t (g_validity (p_model p))).
Proof.
  intro Ht. induction ps as [|p ps IH] using rev_ind.
  - cbn. split; [intros _ p []|]. intros _. split; [apply leb_le, ninf_least|apply leb_le, pinf_greatest].
  - rewrite after_app. cbn [push c_validity]. rewrite overlap_range by exact Ht. rewrite IH. split.
    + intros [H1 H2] q Hq. apply in_app_iff in Hq. cbn [In] in Hq. destruct Hq as [Hq|[<-|[]]]; auto.
    + intro H. split; [intros q Hq|]; apply H; rewrite in_app_iff; cbn [In]; auto.
Qed.
Lemma overlap_form (v w : T * T) : validity_overlap v w = (ninf, ninf) \/ le (fst (validity_overlap v w)) (snd (validity_overlap v w)).
Proof.
  unfold validity_overlap. cbv zeta. destruct (ltb (tmin (snd v) (snd w)) (tmax (fst v) (fst w))) eqn:E; [left; reflexivity|right].
  cbn [fst snd]. apply ltb_ge. exact E.
Qed.
Lemma composed_validity_form ps : le (fst (c_validity (after ps))) (snd (c_validity (after ps))).
Proof.
  destruct ps as [|p ps _] using rev_ind; [apply leb_le, ninf_least|]. rewrite after_app. cbn [push c_validity].
  destruct (overlap_form (c_validity (after ps)) (g_validity (p_model p))) as [->|H]; [apply le_refl|exact H].
Qed.
Lemma composed_validity_bounds ps (t : T) : lt ninf t -> (forall p, In p ps -> in_range t (g_validity (p_model p))) ->
  let v := c_validity (after ps) in
  (forall p, In p ps -> le (fst (g_validity (p_model p))) (fst v) /\ le (snd v) (snd (g_validity (p_model p)))) /\
  (fst v = ninf \/ exists p, In p ps /\ fst v = fst (g_validity (p_model p))) /\
  (snd v = pinf \/ exists p, In p ps /\ snd v = snd (g_validity (p_model p))).
Proof.
  intros Ht. cbv zeta. induction ps as [|p ps IH] using rev_ind; intro H.
  - cbn. split; [intros p []|]. split; left; reflexivity.
  - rewrite after_app. cbn [push c_validity].
    assert (H1 : forall q, In q ps -> in_range t (g_validity (p_model q))) by (intros q Hq; apply H; rewrite in_app_iff; auto).
    assert (H2 : in_range t (g_validity (p_model p))) by (apply H; rewrite in_app_iff; cbn [In]; auto).
    destruct (IH H1) as (A & B & C). pose proof (proj2 (composed_validity ps t Ht) H1) as H3.
    unfold validity_overlap. cbv zeta.
    destruct (ltb (tmin (snd (c_validity (after ps))) (snd (g_validity (p_model p)))) (tmax (fst (c_validity (after ps))) (fst (g_validity (p_model p))))) eqn:E.
    + exfalso. apply ltb_lt in E. apply (lt_irrefl t). eapply le_lt_trans; [apply tmin_le; split; [apply H3|apply H2]|].
      eapply lt_le_trans; [exact E|]. apply le_tmax. split; [apply H3|apply H2].
    + cbn [fst snd]. split; [|split].
      * intros q Hq. apply in_app_iff in Hq. cbn [In] in Hq. destruct Hq as [Hq|[<-|[]]].
        -- destruct (A q Hq) as [A1 A2]. split; [eapply le_trans; [exact A1|apply tmax_ge_l]|eapply le_trans; [apply tmin_le_l|exact A2]].
        -- split; [apply tmax_ge_r|apply tmin_le_r].
      * destruct (tmax_cases (fst (c_validity (after ps))) (fst (g_validity (p_model p)))) as [->| ->].
        -- destruct B as [B|(q & Hq & B)]; [left; exact B|right; exists q]. rewrite in_app_iff. auto.
        -- right. exists p. rewrite in_app_iff. cbn [In]. auto.
      * destruct (tmin_cases (snd (c_validity (after ps))) (snd (g_validity (p_model p)))) as [->| ->].
        -- destruct C as [C|(q & Hq & C)]; [left; exact C|right; exists q]. rewrite in_app_iff. auto.
        -- right. exists p. rewrite in_app_iff. cbn [In]. auto.
Qed.

(** ** A spherical harmonic model *)
Definition constant_field csize coef internal deg mem : @field T V := fun _ scale t x =>
  constant_eval csize coef internal deg mem CT_GEOCENTRIC_SPHERICAL CT_GEOCENTRIC_SPHERICAL scale t x.
Lemma constant_evaluates csize coef internal deg mem :
  evaluates (constant_model csize coef internal deg mem) (constant_field csize coef internal deg mem).
Proof.
  intros time loc scale opts Hp. cbn [constant_model g_eval]. rewrite (proj2 (prefixb_spec _ _) Hp).
  eexists. split; [reflexivity|]. split; reflexivity.
Qed.

Lemma rotation_smul A B s v ca cb :
  rotation A B (vmul v (s, s, s)) ca cb = vmul (rotation A B v ca cb) (s, s, s).
Proof.
  destruct ca as [[la oa] ra], cb as [[lb ob] rb], v as [[a b] c].
  destruct A, B; cbn [rotation vmul]; try reflexivity; rewrite ?vrot_sph2geod_eq, ?vrot_sph2cart_eq, ?vrot_cart2sph_eq;
    cbn [vmul]; apply triple_eq; ring.
Qed.

(** the composed model of one model is this model, in all coordinate systems *)
Lemma composed_transparent csize coef internal deg mem (opts : string -> option V) (time : nd (option T)) loc ci co s :
  (1 <= csize < 2 ^ 50)%Z -> prefix (dims time) (dims loc) ->
  let model := constant_model (V := V) csize coef internal deg mem in
  let scale := Some (s, s, s) in
  exists r r', composed_eval (composed_init [model]) time loc ci co scale opts = Ok r /\
    g_eval model time loc ci co scale opts = Ok r' /\ dims r = dims r' /\
    forall ix, List.length ix = List.length (dims r) ->
      (ci = CT_GEOCENTRIC_CARTESIAN -> get loc ix <> (0, 0, 0)) -> get r ix = get r' ix.
Proof.
  intros Hs Hp. cbv zeta.
  set (p := {| p_model := constant_model csize coef internal deg mem; p_field := constant_field csize coef internal deg mem;
               p_scale := (1, 1, 1); p_parameters := fun _ => None |} : @pushed T V).
  assert (E : composed_init [constant_model (V := V) csize coef internal deg mem] = after [p]) by reflexivity. rewrite E.
  assert (HF : List.Forall (fun p => evaluates (p_model p) (p_field p)) [p]) by (constructor; [apply constant_evaluates|constructor]).
  destruct (composed_sum [p] time loc ci co (Some (s, s, s)) opts HF ltac:(discriminate) Hp) as (r & Er & Dr & Gr).
  exists r. eexists. split; [exact Er|]. cbn [constant_model g_eval]. rewrite (proj2 (prefixb_spec _ _) Hp).
  split; [reflexivity|]. split; [exact Dr|]. intros ix Hix Hc. rewrite Dr in Hix. specialize (Gr ix Hix Hc).
  cbn [get]. unfold sum_of_fields in Gr. cbn [map p p_field p_scale p_parameters] in Gr.
  unfold constant_field, constant_eval in Gr. unfold constant_eval. unfold at_index in Gr.
  destruct (get time (firstn (List.length (dims time)) ix)) as [t|]; [|exact Gr].
  set (x := get loc ix) in *. set (sph := convert x ci CT_GEOCENTRIC_SPHERICAL) in *.
  assert (E1 := sheval_frame x csize coef ci co SM_GRADIENT internal deg 1 (- s, - s, - s) mem Hs Hc).
  assert (E2 := sheval_frame sph csize coef CT_GEOCENTRIC_SPHERICAL CT_GEOCENTRIC_SPHERICAL SM_GRADIENT internal deg 1 (Ropp 1, Ropp 1, Ropp 1) mem Hs
    ltac:(intro; discriminate)).
  unfold nd0 in E1, E2. rewrite E1. rewrite E2 in Gr. clear E1 E2. rewrite !convert_same in Gr.
  unfold frame_value in *. fold sph. destruct sph as [[lat lon] r0] eqn:Es.
  destruct (value_gradient (ShEvalProofs.eff_degree csize deg) internal (DG2RAD * lat) (DG2RAD * lon) r0 6371.2 coef) as [g Eg].
  rewrite Eg in *. cbn [omap rotation] in Gr. cbn [omap].
  match type of Gr with delivered _ _ _ _ (total [?v]) _ => assert (Et : total [v] = Some (vmul g (Ropp 1, Ropp 1, Ropp 1))) end.
  { destruct g as [[a b] c]. cbn. f_equal. apply triple_eq; ring. }
  rewrite Et in Gr. cbn [delivered] in Gr. destruct Gr as (w & Ew & ->). fold sph in Ew. rewrite vrotate_rotation in Ew.
  assert (w = rotation CT_GEOCENTRIC_SPHERICAL co (vmul g (Ropp 1, Ropp 1, Ropp 1)) sph (convert x ci co)) by congruence. subst w.
  rewrite rotation_smul. unfold rescaled. rewrite <- Es. fold sph.
  destruct (rotation CT_GEOCENTRIC_SPHERICAL co g sph (convert x ci co)) as [[a b] c]. cbn [vmul]. f_equal. apply triple_eq; ring.
Qed.
End Composed.
