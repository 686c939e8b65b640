(** Proofs about the models in all coordinate systems. *)
From Coq Require Import Bool List Arith ZArith Reals Lia Lra.
From Coquelicot Require Import Coquelicot.
From Verif Require Import Ord ROrd RbarOrd ArrModel CoefModel LegendreModel GeoModel ShEvalModel ShEvalSpec ShEvalProofs ShEvalLinProofs
  SparseModel SparseSpec TempModel TempSpec TempProofs CoordModel CoordSpec CoordProofs ConvertProofs FrameProofs DipoleProofs CoordExamples ShFrameProofs
  FieldModel FieldSpec FieldProofs FileFieldSpec FileFieldProofs CompFieldSpec CompFieldProofs MmaFieldSpec PositionProofs MmaFieldProofs CoordFieldSpec
  TextModel InterpSpec TimeModel YearSetModel WmmModel WmmSpec IgrfModel IgrfSpec EmmModel EmmSpec ShcModel ShcSpec ShcLoadModel ShcLoadSpec MmaModel MmaSpec MmaFieldModel.
Import ListNotations.
Open Scope R_scope.
Set Bullet Behavior "Strict Subproofs".

Lemma forall3_app {A B C} (P : A -> B -> C -> Prop) la lb lc : Forall3 P la lb lc -> forall la' lb' lc', Forall3 P la' lb' lc' ->
  Forall3 P (la ++ la') (lb ++ lb') (lc ++ lc').
Proof. induction 1; intros; cbn [app]; [assumption|]. constructor; auto. Qed.

Lemma nd_item_map {A B} (f : A -> B) (x : nd A) i : nd_item (nd_map f x) i = nd_map f (nd_item x i).
Proof. destruct x as [[|d ds] g]; reflexivity. Qed.

(** ** One location *)
Lemma to_cart_space ct v c : to_cart ct v c = in_space ct c v.
Proof.
  destruct c as [[la oa] r]. destruct v as [[a b] c]. destruct ct; cbn [to_cart]; [|apply space_sph2cart|reflexivity].
  rewrite (space_sph2cart (a, b, c) la oa r). reflexivity.
Qed.

Lemma rotation_space ci co x g :
  in_space co (convert x ci co) (rotation CT_GEOCENTRIC_SPHERICAL co g (convert x ci CT_GEOCENTRIC_SPHERICAL) (convert x ci co))
  = in_space CT_GEOCENTRIC_SPHERICAL (convert x ci CT_GEOCENTRIC_SPHERICAL) g.
Proof.
  rewrite <- !to_cart_space.
  exact (rotation_cart CT_GEOCENTRIC_SPHERICAL co g (fun ct => convert x ci ct) (converted_longitude ci x)).
Qed.

Definition negate (v : vec) : vec := let '(a, b, c) := v in (- a, - b, - c).
Lemma rotation_negate co g a b : rotation CT_GEOCENTRIC_SPHERICAL co (negate g) a b = negate (rotation CT_GEOCENTRIC_SPHERICAL co g a b).
Proof.
  destruct a as [[la oa] ra], b as [[lb ob] rb], g as [[x y] z]. destruct co; cbn [rotation negate]; [| reflexivity |].
  - unfold vrot_sph2geod, rot2d, negate. apply triple; ring.
  - unfold vrot_sph2cart, rot2d, negate. apply triple; ring.
Qed.

Definition minus (s : vec3) : vec3 := let '(s0, s1, s2) := s in (- s0, - s1, - s2).

Lemma point_transformed internal D ci co s x coef mem : off_centre ci x ->
  transformed ci co s x
    (snd (point_value (fst (model_init internal D CT_GEOCENTRIC_SPHERICAL CT_GEOCENTRIC_SPHERICAL 1 (minus (1, 1, 1)) mem)) SM_GRADIENT (convert x ci CT_GEOCENTRIC_SPHERICAL) coef))
    (snd (point_value (fst (model_init internal D ci co 1 (minus s) mem)) SM_GRADIENT x coef)).
Proof.
  intro H. rewrite !point_value_cfg0, !point_value_frame; [|exact H|discriminate].
  rewrite !convert_same. pose proof (rotation_space ci co x) as Sp. unfold frame_value, transformed. unfold vec, vec3 in *.
  destruct (convert x ci CT_GEOCENTRIC_SPHERICAL) as [[lat lon] r].
  destruct (value_gradient D internal (DG2RAD * lat) (DG2RAD * lon) r 6371.2 coef) as [g ->]. cbn [omap snd].
  exists (rotation CT_GEOCENTRIC_SPHERICAL co (negate g) (lat, lon, r) (convert x ci co)). split.
  - rewrite Sp. f_equal. destruct g as [[a b] d]. cbn [rotation negate minus vmul]. apply triple; ring.
  - rewrite rotation_negate. destruct (rotation CT_GEOCENTRIC_SPHERICAL co g (lat, lon, r) (convert x ci co)) as [[a b] d]. destruct s as [[s0 s1] s2].
    cbn [negate minus vmul scaled]. f_equal. apply triple; ring.
Qed.

(** ** Arrays: the evaluations with two configurations use the same coefficients *)
Section Two.
Variables (c1 c2 : model_cfg) (nterm : nat) (css : list coefset) (mode : sheval_mode) (f : vec -> vec).
Hypotheses (H1 : cfg_ok c1) (H2 : cfg_ok c2).

Definition same_states (a b : temp_state) : Prop :=
  ts_coef a = ts_coef b /\ ts_time_last a = ts_time_last b /\ ts_idx_last a = ts_idx_last b /\ state_ok c1 (ts_sh a) /\ state_ok c2 (ts_sh b).

Definition point_pair (v : vec) (o2 o1 : option R * option vec) : Prop := exists c, o2 = point_value c2 mode (f v) c /\ o1 = point_value c1 mode v c.

Lemma update_two t a b : same_states a b ->
  match update_coef nterm css t a, update_coef nterm css t b with
  | Some a', Some b' => same_states a' b'
  | None, None => True
  | _, _ => False
  end.
Proof.
  intros (Ec & Et & Ei & Sa & Sb). unfold update_coef. rewrite Et, Ei, Ec. destruct (neq_last (ts_time_last b) t); [|exact (conj Ec (conj Et (conj Ei (conj Sa Sb))))].
  destruct (coeff_interp nterm t css (ts_idx_last b) (ts_coef b)) as [[c is]|]; [|exact I].
  exact (conj eq_refl (conj eq_refl (conj eq_refl (conj Sa Sb)))).
Qed.

Lemma items_two : forall tdims rest t x x2 a b, same_states a b ->
  (forall ix, In ix (indices (tdims ++ rest)) -> at_index x2 ix = f (at_index x ix)) ->
  match shevaltemp_items c1 nterm css mode tdims (tdims ++ rest) t x a, shevaltemp_items c2 nterm css mode tdims (tdims ++ rest) t x2 b with
  | Some (o1, a'), Some (o2, b') => same_states a' b' /\ Forall3 point_pair (map (at_index x) (indices (tdims ++ rest))) o2 o1
  | None, None => True
  | _, _ => False
  end.
Proof.
  induction tdims as [|d ds IH]; intros rest t x x2 a b S X.
  - cbn [shevaltemp_items app] in *. pose proof (update_two (get t []) a b S) as U.
    destruct (update_coef nterm css (get t []) a) as [a'|], (update_coef nterm css (get t []) b) as [b'|]; try exact U; try contradiction.
    destruct U as (Ec & Et & Ei & Sa & Sb).
    destruct (sheval_items_value c1 mode rest H1 x (scalar_array (ts_coef a')) (ts_sh a') Sa) as [A A'].
    destruct (sheval_items_value c2 mode rest H2 x2 (scalar_array (ts_coef b')) (ts_sh b') Sb) as [B B'].
    destruct (sheval_items c1 mode rest x _ _) as [o1 s1]. destruct (sheval_items c2 mode rest x2 _ _) as [o2 s2]. cbn [fst snd] in *.
    split; [exact (conj Ec (conj Et (conj Ei (conj A' B'))))|]. subst o1 o2. rewrite Ec. clear - X.
    induction (indices rest) as [|ix l IH]; cbn [map]; constructor; [|apply IH; intros; apply X; now right].
    exists (at_index (scalar_array (ts_coef b')) ix). split; [|reflexivity].
    exact (f_equal (fun v => point_value c2 mode v _) (X ix (or_introl eq_refl))).
  - cbn [shevaltemp_items app indices tl] in *. revert a b S X. generalize (seq 0 d) as is. induction is as [|i is IHi]; intros a b S X.
    + split; [exact S|constructor].
    + cbv beta iota. unfold vec in *. pose proof (IH rest (nd_item t i) (nd_item x i) (nd_item x2 i) a b S) as K.
      assert (Xi : forall ix, In ix (indices (ds ++ rest)) -> at_index (nd_item x2 i) ix = f (at_index (nd_item x i) ix)).
      { intros ix Hix. rewrite (at_index_item x2), (at_index_item x). apply X. cbn [flat_map]. apply in_or_app. left. now apply in_map. }
      specialize (K Xi).
      destruct (shevaltemp_items c1 nterm css mode ds (ds ++ rest) (nd_item t i) (nd_item x i) a) as [[o1 a']|],
        (shevaltemp_items c2 nterm css mode ds (ds ++ rest) (nd_item t i) (nd_item x2 i) b) as [[o2 b']|]; try exact K; try contradiction.
      destruct K as [S' K].
      assert (Xs : forall ix, In ix (flat_map (fun i => map (cons i) (indices (ds ++ rest))) is) -> at_index x2 ix = f (at_index x ix)).
      { intros ix Hix. apply X. cbn [flat_map]. apply in_or_app. now right. }
      specialize (IHi a' b' S' Xs).
      revert IHi. match goal with |- match ?e with Some _ => _ | None => _ end -> _ => destruct e as [[p1 a'']|] end;
      match goal with |- match ?e with Some _ => _ | None => _ end -> _ => destruct e as [[p2 b'']|] end; intro IHi; try exact IHi; try contradiction.
      destruct IHi as [S'' K']. split; [exact S''|]. cbn [flat_map]. rewrite map_app. apply forall3_app; [|exact K'].
      rewrite map_map. erewrite map_ext; [exact K|]. intro ix. cbn beta. symmetry. apply at_index_item.
Qed.
End Two.

Lemma output_dims tdims : forall xdims, common_dims_match tdims xdims = true ->
  exists rest, (if (length xdims <=? length tdims)%nat then tdims else xdims) = tdims ++ rest.
Proof.
  induction tdims as [|d ds IH]; intros [|e es] H; cbn [length].
  - exists []. reflexivity.
  - exists (e :: es). reflexivity.
  - exists []. now rewrite app_nil_r.
  - cbn [common_dims_match] in H. destruct (Nat.eqb_spec d e) as [<-|]; [|discriminate]. destruct (IH es H) as [rest E]. exists rest.
    change (S (length es) <=? S (length ds))%nat with (length es <=? length ds)%nat. cbn [app]. rewrite <- E. now destruct (length es <=? length ds)%nat.
Qed.

(** _eval_interpolated *)
Lemma interpolated_frames items internal lo hi time x x2 ci co s mem : dims x2 = dims x ->
  (forall ix, In ix (indices (if (length (dims x) <=? length (dims time))%nat then dims time else dims x)) ->
     off_centre ci (at_index x ix) /\ at_index x2 ix = convert (at_index x ix) ci CT_GEOCENTRIC_SPHERICAL) ->
  match eval_interpolated items internal lo hi time x ci co s mem,
    eval_interpolated items internal lo hi time x2 CT_GEOCENTRIC_SPHERICAL CT_GEOCENTRIC_SPHERICAL (1, 1, 1) mem with
  | Ok (od, out), Ok (od', fields) => od' = od /\ od = (if (length (dims x) <=? length (dims time))%nat then dims time else dims x) /\
      Forall3 (transformed ci co s) (map (at_index x) (indices od)) (map snd fields) (map snd out)
  | Err e, Err e' => e' = e
  | _, _ => False
  end.
Proof.
  intros D2 H'. unfold eval_interpolated. destruct s as [[s0 s1] s2]. unfold shevaltemp. unfold vec, vec3 in *.
  destruct (_ <? 1)%nat; [reflexivity|]. destruct (16 <? _)%nat; [reflexivity|].
  destruct (parse_coefsets _) as [css|]; [|reflexivity]. cbv zeta. cbn [dims]. rewrite !D2.
  destruct (common_dims_match (dims time) (dims x)) eqn:C; cbn [negb]; [|reflexivity].
  destruct (output_dims _ _ C) as [rest E]. rewrite E in *.
  set (D := Z.to_nat _).
  pose proof (model_init_ok internal D ci co 1 (- s0, - s1, - s2) mem) as A.
  pose proof (model_init_ok internal D CT_GEOCENTRIC_SPHERICAL CT_GEOCENTRIC_SPHERICAL 1 (- (1), - (1), - (1)) mem) as B.
  assert (P : forall v c, off_centre ci v -> transformed ci co (s0, s1, s2) v
    (snd (point_value (fst (model_init internal D CT_GEOCENTRIC_SPHERICAL CT_GEOCENTRIC_SPHERICAL 1 (- (1), - (1), - (1)) mem)) SM_GRADIENT (convert v ci CT_GEOCENTRIC_SPHERICAL) c))
    (snd (point_value (fst (model_init internal D ci co 1 (- s0, - s1, - s2) mem)) SM_GRADIENT v c))).
  { intros v c Hv. exact (point_transformed internal D ci co (s0, s1, s2) v c mem Hv). }
  destruct (model_init internal D ci co 1 (- s0, - s1, - s2) mem) as [c1 st1].
  destruct (model_init internal D CT_GEOCENTRIC_SPHERICAL CT_GEOCENTRIC_SPHERICAL 1 (- (1), - (1), - (1)) mem) as [c2 st2]. cbn [fst] in P.
  destruct A as [A A'], B as [B B'].
  pose proof (items_two c1 c2 (nterm_of D) css SM_GRADIENT (fun v => convert v ci CT_GEOCENTRIC_SPHERICAL) A B (dims time) rest
    {| dims := dims time; get := fun ix => apply_convert (first_convert items) (get time ix) |} x x2
    {| ts_coef := fun _ => (0, 0); ts_time_last := None; ts_idx_last := map (fun _ => (-1)%Z) css; ts_sh := st1 |}
    {| ts_coef := fun _ => (0, 0); ts_time_last := None; ts_idx_last := map (fun _ => (-1)%Z) css; ts_sh := st2 |}
    (conj eq_refl (conj eq_refl (conj eq_refl (conj A' B')))) (fun ix Hix => proj2 (H' ix Hix))) as T.
  destruct (shevaltemp_items c1 _ _ _ _ _ _ _ _) as [[o1 a']|]; destruct (shevaltemp_items c2 _ _ _ _ _ _ _ _) as [[o2 b']|]; try contradiction; [|reflexivity].
  destruct T as [_ T]. split; [reflexivity|]. split; [reflexivity|].
  assert (H : forall ix, In ix (indices (dims time ++ rest)) -> off_centre ci (at_index x ix)) by (intros ix Hix; apply (H' ix Hix)).
  clear - H T P.
  revert o1 o2 T. induction (indices (dims time ++ rest)) as [|ix l IH]; intros o1 o2 T; inversion T as [|? ? ? ? ? ? Q T']; subst; cbn [map]; constructor.
  - destruct Q as (cc & -> & ->). apply P. apply H. now left.
  - apply IH; [intros; apply H; now right|exact T'].
Qed.

(** ** The components *)
Lemma select_map {A B} (g : A -> B) mask : forall l, select mask (map g l) = map g (select mask l).
Proof. induction mask as [|b mask IH]; intros [|a l]; try reflexivity. cbn [select map]. destruct b; cbn [map]; now rewrite IH. Qed.

Lemma scatter_three {A B C} (P : A -> B -> C -> Prop) mask : forall xs bs cs ys zs, length mask = length xs ->
  Forall3 P xs bs cs -> Forall3 P (select mask xs) ys zs ->
  Forall3 P xs (scatter (fun _ v => v) mask bs ys) (scatter (fun _ v => v) mask cs zs).
Proof.
  induction mask as [|b mask IH]; intros xs bs cs ys zs L F G.
  - destruct xs; [|discriminate]. inversion F; subst. constructor.
  - destruct F as [|x y z xs bs cs H F]; [discriminate|]. cbn [length] in L. cbn [select scatter] in *. destruct b.
    + inversion G; subst. constructor; [assumption|]. apply IH; auto.
    + constructor; [exact H|]. apply IH; auto.
Qed.

Lemma vector_locations {A} (d : A) l : map (at_index (vector d l)) (indices [length l]) = l.
Proof.
  rewrite indices_1d, map_map. unfold at_index. cbn [vector dims length firstn get hd].
  induction l as [|a l IH]; [reflexivity|]. cbn [length seq map nth]. f_equal. rewrite <- seq_shift, map_map. exact IH.
Qed.

Definition relocate (ci : coord_type) (tx : option R * vec3) : option R * vec3 := (fst tx, convert (snd tx) ci CT_GEOCENTRIC_SPHERICAL).

Section Components.
Variables (internal : bool) (lo hi : Z) (ci co : coord_type) (s : vec3) (mem : arr * arr * coefs * arr * arr * arr).

Lemma component_frames validity items txs base base0 : (forall tx, In tx txs -> off_centre ci (snd tx)) ->
  Forall3 (transformed ci co s) (map snd txs) base0 base ->
  match component_array validity items internal lo hi ci co s mem base txs,
    component_array validity items internal lo hi CT_GEOCENTRIC_SPHERICAL CT_GEOCENTRIC_SPHERICAL (1, 1, 1) mem base0 (map (relocate ci) txs) with
  | Ok out, Ok fields => Forall3 (transformed ci co s) (map snd txs) fields out
  | Err e, Err e' => e' = e
  | _, _ => False
  end.
Proof.
  intros Hc Hb. unfold component_array. cbv zeta. rewrite map_map. cbn [relocate fst].
  set (mask := map (fun tx => time_valid validity (fst tx)) txs). rewrite select_map, !map_map. cbn [relocate fst snd].
  set (sel := select mask txs). set (ts := map (fun tx : option R * (R * R * R) => match fst tx with Some u => u | None => 0 end) sel).
  assert (Lm : length mask = length (map snd txs)) by (unfold mask; now rewrite !map_length).
  assert (Hs : forall tx, In tx sel -> off_centre ci (snd tx)).
  { intros tx I. apply Hc. unfold sel, mask in I. change (fun tx => time_valid validity (fst tx)) with (fun tx : option R * vec3 => time_valid validity (fst tx)) in I.
    rewrite (select_filter (fun tx : option R * vec3 => time_valid validity (fst tx))) in I. now apply filter_In in I. }
  assert (Lt : length ts = length sel) by (unfold ts; apply map_length).
  pose proof (interpolated_frames items internal lo hi (vector 0 ts) (vector (0, 0, 0) (map snd sel))
    (vector (0, 0, 0) (map (fun tx => convert (snd tx) ci CT_GEOCENTRIC_SPHERICAL) sel)) ci co s mem) as I.
  cbn [vector dims length Nat.leb] in I. rewrite !map_length, Lt in I. specialize (I eq_refl).
  assert (J : forall ix, In ix (indices [length sel]) ->
    off_centre ci (at_index (vector (0, 0, 0) (map snd sel)) ix) /\
    at_index (vector (0, 0, 0) (map (fun tx => convert (snd tx) ci CT_GEOCENTRIC_SPHERICAL) sel)) ix
      = convert (at_index (vector (0, 0, 0) (map snd sel)) ix) ci CT_GEOCENTRIC_SPHERICAL).
  { intros ix Hix. rewrite indices_1d in Hix. apply in_map_iff in Hix as (k & <- & Hk). apply in_seq in Hk.
    destruct (nth_error sel k) as [tx|] eqn:Ek; [|apply nth_error_None in Ek; lia].
    unfold at_index. cbn [vector dims length firstn get hd].
    rewrite (nth_error_nth _ _ _ (map_nth_error snd _ _ Ek)), (nth_error_nth _ _ _ (map_nth_error (fun tx => convert (snd tx) ci CT_GEOCENTRIC_SPHERICAL) _ _ Ek)).
    split; [|reflexivity]. apply Hs. exact (nth_error_In _ _ Ek). }
  specialize (I J).
  match goal with |- match match ?e1 with Ok _ => _ | Err _ => _ end with Ok _ => match match ?e2 with Ok _ => _ | Err _ => _ end with Ok _ => _ | Err _ => _ end | Err _ => _ end =>
    assert (I' : match e1, e2 with
      | Ok (od, out), Ok (od', fields) => od' = od /\ od = [length sel] /\
          Forall3 (transformed ci co s) (map (at_index (vector (0, 0, 0) (map snd sel))) (indices od)) (map snd fields) (map snd out)
      | Err e, Err e' => e' = e
      | _, _ => False
      end) by exact I; destruct e1 as [[od out]|e], e2 as [[od' fields]|e'] end; try exact I'; try contradiction.
  destruct I' as (-> & -> & I'). apply scatter_three; [exact Lm|exact Hb|]. rewrite select_map. fold sel.
  pose proof (vector_locations (0, 0, 0) (map snd sel)) as V. rewrite map_length in V. rewrite V in I'. exact I'.
Qed.

Lemma components_frames components txs : forall base base0, (forall tx, In tx txs -> off_centre ci (snd tx)) ->
  Forall3 (transformed ci co s) (map snd txs) base0 base ->
  match components_array internal lo hi ci co s mem components base txs,
    components_array internal lo hi CT_GEOCENTRIC_SPHERICAL CT_GEOCENTRIC_SPHERICAL (1, 1, 1) mem components base0 (map (relocate ci) txs) with
  | Ok out, Ok fields => Forall3 (transformed ci co s) (map snd txs) fields out
  | Err e, Err e' => e' = e
  | _, _ => False
  end.
Proof.
  induction components as [|[validity items] rest IH]; intros base base0 Hc Hb; cbn [components_array]; [exact Hb|].
  pose proof (component_frames validity items txs base base0 Hc Hb) as K.
  destruct (component_array validity items internal lo hi ci co s mem base txs) as [out|e];
    destruct (component_array validity items internal lo hi _ _ _ mem base0 _) as [fields|e']; try exact K; try contradiction.
  apply IH; assumption.
Qed.

Lemma nothing_transformed {A} (f : A -> vec3) (l : list A) : Forall3 (transformed ci co s) (map f l) (map (fun _ => None) l) (map (fun _ => None) l).
Proof. induction l as [|a l IH]; cbn [map]; constructor; [reflexivity|exact IH]. Qed.

Lemma scalar_frames components t location :
  (forall ix, In ix (indices (dims location)) -> off_centre ci (at_index location ix)) ->
  match components_scalar internal lo hi ci co s mem components t location,
    components_scalar internal lo hi CT_GEOCENTRIC_SPHERICAL CT_GEOCENTRIC_SPHERICAL (1, 1, 1) mem components t
      (nd_map (fun x => convert x ci CT_GEOCENTRIC_SPHERICAL) location) with
  | Ok (od, out), Ok (od', fields) => od = dims location /\ od' = od /\ Forall3 (transformed ci co s) (map (at_index location) (indices (dims location))) fields out
  | Err e, Err e' => e' = e
  | _, _ => False
  end.
Proof.
  intro Hc. induction components as [|[validity items] rest IH]; cbn [components_scalar].
  - change (dims (nd_map _ location)) with (dims location). split; [reflexivity|]. split; [reflexivity|]. exact (nothing_transformed (at_index location) (indices (dims location))).
  - destruct (time_valid validity t) eqn:V; [|exact IH]. unfold model_eval_scalar. rewrite V.
    set (u := match t with Some u => u | None => 0 end).
    assert (Od : (if (length (dims location) <=? length (dims (nd0 u)))%nat then dims (nd0 u) else dims location) = dims location)
      by (cbn [nd0 dims length]; now destruct (dims location)).
    pose proof (interpolated_frames items internal lo hi (nd0 u) location (nd_map (fun x => convert x ci CT_GEOCENTRIC_SPHERICAL) location) ci co s mem eq_refl) as I.
    unfold vec, vec3 in *. rewrite Od in I.
    specialize (I (fun ix Hix => conj (Hc ix Hix) eq_refl)).
    match goal with |- context [eval_interpolated items internal lo hi (nd0 u) location ci co s mem] =>
      set (e1 := eval_interpolated items internal lo hi (nd0 u) location ci co s mem) end.
    match goal with |- context [eval_interpolated items internal lo hi (nd0 u) ?l CT_GEOCENTRIC_SPHERICAL CT_GEOCENTRIC_SPHERICAL (1, 1, 1) mem] =>
      set (e2 := eval_interpolated items internal lo hi (nd0 u) l CT_GEOCENTRIC_SPHERICAL CT_GEOCENTRIC_SPHERICAL (1, 1, 1) mem) end.
    assert (I' : match e1, e2 with
        | Ok (od, out), Ok (od', fields) => od' = od /\ od = dims location /\
            Forall3 (transformed ci co s) (map (at_index location) (indices od)) (map snd fields) (map snd out)
        | Err e, Err e' => e' = e
        | _, _ => False
        end) by exact I.
    clearbody e1 e2. clear I. destruct e1 as [[od out]|e], e2 as [[od' fields]|e']; try exact I'.
    destruct I' as (-> & -> & I'). split; [reflexivity|]. split; [reflexivity|exact I'].
Qed.

Lemma array_transformed components txs : (forall t x, In (t, x) txs -> off_centre ci x) ->
  match components_array internal lo hi CT_GEOCENTRIC_SPHERICAL CT_GEOCENTRIC_SPHERICAL (1, 1, 1) mem components (map (fun _ => None) txs)
          (map (fun '(t, x) => (t, convert x ci CT_GEOCENTRIC_SPHERICAL)) txs) with
  | Ok fields => exists out, components_array internal lo hi ci co s mem components (map (fun _ => None) txs) txs = Ok out /\
      Forall3 (transformed ci co s) (map snd txs) fields out
  | Err e => components_array internal lo hi ci co s mem components (map (fun _ => None) txs) txs = Err e
  end.
Proof.
  intro Hc. pose proof (components_frames components txs (map (fun _ => None) txs) (map (fun _ => None) txs)) as K.
  assert (E : map (fun '(t, x) => (t, convert x ci CT_GEOCENTRIC_SPHERICAL)) txs = map (relocate ci) txs) by (apply map_ext; now intros [t x]).
  unfold vec, vec3 in *. rewrite E.
  assert (K' := K ltac:(intros [t x] I; exact (Hc t x I)) ltac:(clear; induction txs as [|tx l IH]; cbn [map]; constructor; [reflexivity|exact IH])).
  clear K. match goal with |- match ?e2 with Ok _ => _ | Err _ => _ end => destruct e2 as [fields|e'] end;
  match type of K' with match ?e1 with Ok _ => _ | Err _ => _ end => destruct e1 as [out|e] end; try contradiction.
  - exists out. split; [reflexivity|exact K'].
  - now rewrite K'.
Qed.

Lemma scalar_transformed components t location : (forall ix, In ix (indices (dims location)) -> off_centre ci (at_index location ix)) ->
  match components_scalar internal lo hi CT_GEOCENTRIC_SPHERICAL CT_GEOCENTRIC_SPHERICAL (1, 1, 1) mem components t
          (nd_map (fun x => convert x ci CT_GEOCENTRIC_SPHERICAL) location) with
  | Ok (od, fields) => exists out, components_scalar internal lo hi ci co s mem components t location = Ok (od, out) /\
      Forall3 (transformed ci co s) (map (at_index location) (indices (dims location))) fields out
  | Err e => components_scalar internal lo hi ci co s mem components t location = Err e
  end.
Proof.
  intro Hc. pose proof (scalar_frames components t location Hc) as K'. unfold vec, vec3 in *.
  match goal with |- match ?e2 with Ok _ => _ | Err _ => _ end => destruct e2 as [[od' fields]|e'] end;
  match type of K' with match ?e1 with Ok _ => _ | Err _ => _ end => destruct e1 as [[od out]|e] end; try contradiction.
  - destruct K' as (-> & -> & K'). exists out. split; [reflexivity|exact K'].
  - now rewrite K'.
Qed.

(** ** The field *)
Lemma located validity value N : forall txs fields out,
  Forall2 (field_result validity value internal lo hi N) (map (fun '(t, x) => (t, convert x ci CT_GEOCENTRIC_SPHERICAL)) txs) fields ->
  Forall3 (transformed ci co s) (map snd txs) fields out ->
  Forall2 (located_result validity value internal lo hi N ci co s) txs out.
Proof.
  induction txs as [|[t x] txs IH]; intros fields out F G; cbn [map] in *.
  - inversion F; subst. inversion G; subst. constructor.
  - inversion F as [|? f ? fs Hf F']; subst. inversion G as [|? ? o ? ? os Ho G']; subst. constructor; [|exact (IH fs os F' G')].
    unfold located_result. cbn [snd] in Ho. unfold field_result in Hf. destruct (convert x ci CT_GEOCENTRIC_SPHERICAL) as [[lat lon] rad] eqn:Ex. destruct Hf as [Hn Hv]. split.
    + intro V. rewrite (Hn V) in Ho. exact Ho.
    + intros u gh d0 d1 d2 Et V U Ud P T.
      destruct (convert_position ci CT_GEOCENTRIC_SPHERICAL x U ltac:(intro; discriminate)) as [P' U']. unfold vec in *. rewrite Ex in P', U'.
      destruct (Hv u gh Et V (proj1 U') ltac:(pose proof (proj2 U'); lra) T) as (f' & -> & Mg).
      destruct (field_exists internal gh N d0 d1 d2 (proj1 Ud) ltac:(pose proof (proj2 Ud); lra)) as [g Gg].
      destruct Ho as (w & Ew & ->). exists g, w. rewrite Ex in Ew. split; [exact Gg|]. split; [|reflexivity].
      rewrite Ew. exact (field_position internal gh N _ _ _ _ _ _ _ _ U' Ud (eq_trans P' (eq_sym P)) Mg Gg).
Qed.

Lemma evaluates_anywhere components validity value N :
  (forall txs, exists out, components_array internal lo hi CT_GEOCENTRIC_SPHERICAL CT_GEOCENTRIC_SPHERICAL (1, 1, 1) mem components (map (fun _ => None) txs) txs = Ok out /\
     Forall2 (field_result validity value internal lo hi N) txs out) ->
  (forall t location, exists out, components_scalar internal lo hi CT_GEOCENTRIC_SPHERICAL CT_GEOCENTRIC_SPHERICAL (1, 1, 1) mem components t location = Ok (dims location, out) /\
     Forall2 (field_result validity value internal lo hi N) (map (fun ix => (t, at_index location ix)) (indices (dims location))) out) ->
  evaluates_located internal lo hi ci co s mem components validity value N.
Proof.
  intros A B. split.
  - intros txs Hc. pose proof (array_transformed components txs Hc) as K.
    destruct (A (map (fun '(t, x) => (t, convert x ci CT_GEOCENTRIC_SPHERICAL)) txs)) as (fields & E & G). rewrite map_map in E.
    match type of K with match ?e with Ok _ => _ | Err _ => _ end => assert (E' : e = Ok fields) by exact E; rewrite E' in K end.
    destruct K as (out & Eo & K). exists out. split; [exact Eo|exact (located validity value N txs fields out G K)].
  - intros t location Hc. pose proof (scalar_transformed components t location Hc) as K.
    destruct (B t (nd_map (fun x => convert x ci CT_GEOCENTRIC_SPHERICAL) location)) as (fields & E & G).
    match type of K with match ?e with Ok _ => _ | Err _ => _ end => assert (E' : e = Ok (dims location, fields)) by exact E; rewrite E' in K end.
    destruct K as (out & Eo & K). exists out. split; [exact Eo|].
    apply (located validity value N _ fields out); [rewrite map_map; exact G|rewrite map_map; exact K].
Qed.

Lemma one_component validity items result :
  (forall txs, exists out, model_eval_array validity items internal lo hi CT_GEOCENTRIC_SPHERICAL CT_GEOCENTRIC_SPHERICAL (1, 1, 1) mem txs = Ok out /\ Forall2 result txs out) /\
  (forall t location, exists out, model_eval_scalar validity items internal lo hi CT_GEOCENTRIC_SPHERICAL CT_GEOCENTRIC_SPHERICAL (1, 1, 1) mem t location = Ok (dims location, out) /\
     Forall2 result (map (fun ix => (t, at_index location ix)) (indices (dims location))) out) ->
  (forall txs, exists out, components_array internal lo hi CT_GEOCENTRIC_SPHERICAL CT_GEOCENTRIC_SPHERICAL (1, 1, 1) mem [(validity, items)] (map (fun _ => None) txs) txs = Ok out /\ Forall2 result txs out) /\
  (forall t location, exists out, components_scalar internal lo hi CT_GEOCENTRIC_SPHERICAL CT_GEOCENTRIC_SPHERICAL (1, 1, 1) mem [(validity, items)] t location = Ok (dims location, out) /\
     Forall2 result (map (fun ix => (t, at_index location ix)) (indices (dims location))) out).
Proof.
  intros [A B]. split.
  - intro txs. destruct (A txs) as (out & E & G). exists out. split; [|exact G]. cbn [components_array]. unfold model_eval_array in E. rewrite E. reflexivity.
  - intros t location. destruct (B t location) as (out & E & G). exists out. split; [|exact G]. cbn [components_scalar].
    destruct (time_valid validity t) eqn:V; [exact E|]. unfold model_eval_scalar in E. rewrite V in E. exact E.
Qed.
End Components.

Lemma transformed_unique ci co s x field o1 o2 : transformed ci co s x field o1 -> transformed ci co s x field o2 -> o1 = o2.
Proof.
  unfold transformed. destruct field as [g|]; [|congruence]. intros (w1 & A & ->) (w2 & B & ->). rewrite <- B, <- !to_cart_space in A.
  apply to_cart_inj in A. now subst.
Qed.

Lemma field_anywhere internal lo hi ci co s mem components validity value N :
  (forall txs, exists out, components_array internal lo hi CT_GEOCENTRIC_SPHERICAL CT_GEOCENTRIC_SPHERICAL (1, 1, 1) mem components (map (fun _ => None) txs) txs = Ok out /\
     Forall2 (field_result validity value internal lo hi N) txs out) /\
  (forall t location, exists out, components_scalar internal lo hi CT_GEOCENTRIC_SPHERICAL CT_GEOCENTRIC_SPHERICAL (1, 1, 1) mem components t location = Ok (dims location, out) /\
     Forall2 (field_result validity value internal lo hi N) (map (fun ix => (t, at_index location ix)) (indices (dims location))) out) ->
  evaluates_located internal lo hi ci co s mem components validity value N.
Proof. intros [A B]. now apply evaluates_anywhere. Qed.

Lemma wmm_anywhere to_int to_float file epoch rows N internal lo hi ci co s mem :
  wmm_file to_int to_float file epoch rows -> proper_rows rows -> some_nonzero rows ->
  (forall r, In r rows -> (w_n r <= Z.of_nat N)%Z) -> (Z.of_nat N < 2 ^ 24)%Z ->
  exists td, load_coeff_wmm to_int to_float file = Parsed td /\
    evaluates_located internal lo hi ci co s mem [(year_validity td, [year_leaf td])]
      (Finite (decimal_year_to_mjd2k epoch), Finite (decimal_year_to_mjd2k (epoch + 5)))
      (fun u n m v => wmm_coefficient epoch rows n m (mjd2k_to_decimal_year u) v) N.
Proof.
  intros A B C D E. destruct (wmm_field to_int to_float file epoch rows N internal lo hi mem A B C D E) as (td & L & F).
  exists td. split; [exact L|]. exact (field_anywhere internal lo hi ci co s mem _ _ _ N (one_component internal lo hi mem _ _ _ F)).
Qed.

Lemma igrf_anywhere to_int to_float file times rows t1 t2 N internal lo hi ci co s mem :
  igrf_file to_int to_float file times rows -> increasing times -> proper_igrf times rows ->
  nth_error times 0 = Some t1 -> nth_error times (length times - 1) = Some t2 ->
  (forall r, In r rows -> (i_n r <= Z.of_nat N)%Z) -> (Z.of_nat N < 2 ^ 24)%Z ->
  exists td, load_coeff_igrf to_int to_float file = Parsed td /\
    evaluates_located internal lo hi ci co s mem [(year_validity td, [year_leaf td])]
      (Finite (decimal_year_to_mjd2k t1), Finite (decimal_year_to_mjd2k (t2 + 5)))
      (fun u n m v => igrf_coefficient times rows n m (mjd2k_to_decimal_year u) v) N.
Proof.
  intros A B C D E G H. destruct (igrf_field to_int to_float file times rows t1 t2 N internal lo hi mem A B C D E G H) as (td & L & F).
  exists td. split; [exact L|]. exact (field_anywhere internal lo hi ci co s mem _ _ _ N (one_component internal lo hi mem _ _ _ F)).
Qed.

Lemma emm_anywhere to_int to_float file_static file_secvar epoch variable constant secvar N internal lo hi ci co s mem :
  emm_file to_int to_float file_static epoch (variable ++ constant) -> emm_file to_int to_float file_secvar epoch secvar ->
  same_rows variable secvar -> proper_emm (variable ++ constant) -> secvar <> [] -> nonzero_rows constant ->
  (forall r, In r (variable ++ constant) -> (m_n r <= Z.of_nat N)%Z) -> (Z.of_nat N < 2 ^ 24)%Z ->
  exists emm, load_coeff_emm to_int to_float file_static file_secvar = Parsed emm /\
    evaluates_located internal lo hi ci co s mem [(emm_validity emm, emm_items emm)]
      (Finite (decimal_year_to_mjd2k epoch), Finite (decimal_year_to_mjd2k (epoch + 5)))
      (fun u n m v => emm_coefficient epoch variable constant secvar n m (mjd2k_to_decimal_year u) v) N.
Proof.
  intros A B C D E G H K. destruct (emm_field to_int to_float file_static file_secvar epoch variable constant secvar N internal lo hi mem A B C D E G H K) as (emm & L & F).
  exists emm. split; [exact L|]. exact (field_anywhere internal lo hi ci co s mem _ _ _ N (one_component internal lo hi mem _ _ _ F)).
Qed.

Lemma combined_anywhere to_int to_float years vstart vend files ds N internal lo hi ci co s mem :
  Forall2 (shc_file to_int to_float) files ds -> List.Forall proper_shc ds -> List.Forall (fun d => proper_times years (shc_t d)) ds ->
  List.Forall (fun d => degrees_up_to d N) ds -> (Z.of_nat N < 2 ^ 24)%Z -> disjoint_files ds -> (1 <= length ds <= 16)%nat ->
  exists sets components, pmap (load_coeff_shc to_int to_float years vstart vend) files = Parsed sets /\ combined_components sets = Some components /\
    evaluates_located internal lo hi ci co s mem components (combined_shc_validity sets) (sum_value years ds) N.
Proof.
  intros A B C D E G H. destruct (combined_field to_int to_float years vstart vend files ds N internal lo hi mem A B C D E G H) as (sets & comps & L & M & F).
  exists sets, comps. split; [exact L|]. split; [exact M|]. exact (field_anywhere internal lo hi ci co s mem _ _ _ N F).
Qed.

Lemma mma_anywhere nm files N internal lo hi ci co s mem :
  files <> [] -> proper_files nm files -> nm_up_to nm N -> (Z.of_nat N < 2 ^ 24)%Z ->
  exists td, load_coeff_mma_single_set files = Ok td /\ covers files (mma_validity td) /\
    evaluates_located internal lo hi ci co s mem (mma_components td) (mma_validity td) (fun u n m v => mma_value nm files n m u v) N.
Proof.
  intros A B C D. destruct (mma_2f_field nm files N internal lo hi mem A B C D) as (td & L & M & F).
  exists td. split; [exact L|]. split; [exact M|]. exact (field_anywhere internal lo hi ci co s mem _ _ _ N F).
Qed.
