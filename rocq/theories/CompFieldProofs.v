(** Proofs about the field of the models with several components. *)
From Coq Require Import Bool List Arith ZArith Reals Lia Lra.
From Coquelicot Require Import Coquelicot.
From Verif Require Import Ord ROrd RbarOrd IntervalsModel BisectModel InterpModel InterpSpec SnapshotProofs ArrModel CoefModel LegendreModel LegendreSpec GeoModel ShEvalModel ShEvalSpec
  SparseModel SparseSpec SparseProofs SeriesModel SeriesSpec SeriesProofs SeriesLineProofs TimeModel TempModel TempSpec TempProofs TempEquivProofs YearSetModel
  TextModel TextSpec TextProofs ShcModel ShcSpec ShcProofs ShcLoadModel ShcLoadSpec ShcLoadProofs EmmProofs FieldModel FieldSpec FieldProofs FileFieldSpec FileFieldProofs DecomposeClosed CompFieldSpec.
Import ListNotations.
Open Scope R_scope.
Set Bullet Behavior "Strict Subproofs".

Lemma combine_at {A B} (l1 : list A) (l2 : list B) : forall i a b, nth_error l1 i = Some a -> nth_error l2 i = Some b -> nth_error (combine l1 l2) i = Some (a, b).
Proof. revert l2. induction l1 as [|x l1 IH]; intros [|y l2] [|i] a b; cbn; try discriminate; [now intros [= ->] [= ->]|]. apply IH. Qed.
Lemma combine_inv {A B} (l1 : list A) (l2 : list B) : forall i ab, nth_error (combine l1 l2) i = Some ab -> nth_error l1 i = Some (fst ab) /\ nth_error l2 i = Some (snd ab).
Proof. revert l2. induction l1 as [|x l1 IH]; intros [|y l2] [|i] ab; cbn; try discriminate; [now intros [= <-]|]. apply IH. Qed.
Lemma length_at {A B} (l1 : list A) (l2 : list B) i a : length l1 = length l2 -> nth_error l1 i = Some a -> exists b, nth_error l2 i = Some b.
Proof.
  intros L H. destruct (nth_error l2 i) as [b|] eqn:E; [now exists b|]. apply nth_error_None in E. assert (K : nth_error l1 i <> None) by congruence.
  apply nth_error_Some in K. lia.
Qed.

(** what is required of a component *)
Record fits (N : nat) (items : list leaf_set) (value : R -> Z -> Z -> R -> Prop) : Prop := {
  f_length : (1 <= length items <= 16)%nat;
  f_built : List.Forall built_set items;
  f_disjoint : disjoint_sets items;
  f_call : forall t lo hi n m v, valid_nm n m -> value t n m v -> exists vs, v = fold_right Rplus 0 vs /\
     Forall2 (fun (l : leaf_set) w => exists result, td_call (fst l) (apply_convert (first_convert items)) (Some t) lo hi = Some result /\
                bounded_coefficient lo hi result n m w) items vs;
  f_exists : forall t n m, valid_nm n m -> exists v, value t n m v;
  f_above : forall t n m v, (Z.of_nat N < n)%Z -> value t n m v -> v = 0 }.

Section Components.
Variables (N : nat) (internal : bool) (lo hi : Z) (mem : arr * arr * coefs * arr * arr * arr).

Lemma component_set items validity value base txs : fits N items value -> length base = length txs ->
  exists out, component_array validity items internal lo hi CT_GEOCENTRIC_SPHERICAL CT_GEOCENTRIC_SPHERICAL (1, 1, 1) mem base txs = Ok out /\ length out = length txs /\
    forall i t lat lon rad b o, nth_error txs i = Some (t, (lat, lon, rad)) -> nth_error base i = Some b -> nth_error out i = Some o ->
      (~ in_validity validity t -> o = b) /\
      (forall u gh, t = Some u -> in_validity validity t -> -90 <= lat <= 90 -> rad <> 0 ->
         coefficient_table (value u) lo hi gh ->
         exists field, o = Some field /\ field_of internal gh N lat lon rad field).
Proof.
  intros [HL Hb Hd Hcall Hex Habove] Lb.
  destruct (component_elements items validity internal lo hi CT_GEOCENTRIC_SPHERICAL CT_GEOCENTRIC_SPHERICAL (1, 1, 1) mem base txs Lb HL Hb Hd) as (out & Eo & F).
  exists out. split; [exact Eo|]. split; [pose proof (forall2_length _ _ _ F) as L; rewrite combine_length, Lb, Nat.min_id in L; now symmetry|].
  intros i t lat lon rad b o Hi Hbi Ho. destruct (forall2_at _ _ _ F i _ _ (combine_at _ _ _ _ _ Hi Hbi) Ho) as [F1 F2]. cbn [fst snd] in F1, F2. split; [exact F2|].
  intros u gh -> V Hl Hr Hg. destruct (F1 V) as (u' & [= <-] & Hs). destruct (Hs mem) as [pot Hp].
  destruct (field_at items value N HL Hb Hcall Hex Habove internal lo hi u gh Hg lat lon rad mem Hl Hr) as (field & Ef & Gf).
  exists field. split; [|exact Gf]. pose proof (eq_trans (eq_sym Hp) Ef) as X. now injection X as _ ->.
Qed.

Lemma components_array_field cs values txs : Forall2 (fun (c : (Rbar * Rbar) * list leaf_set) value => fits N (snd c) value) cs values ->
  forall base, length base = length txs ->
  exists out, components_array internal lo hi CT_GEOCENTRIC_SPHERICAL CT_GEOCENTRIC_SPHERICAL (1, 1, 1) mem cs base txs = Ok out /\ length out = length txs /\
    forall i t lat lon rad b o, nth_error txs i = Some (t, (lat, lon, rad)) -> nth_error base i = Some b -> nth_error out i = Some o ->
      ((forall v, In v (map fst cs) -> ~ in_validity v t) -> o = b) /\
      (forall k value u gh, t = Some u -> chosen false (map fst cs) t k -> nth_error values k = Some value ->
         -90 <= lat <= 90 -> rad <> 0 -> coefficient_table (value u) lo hi gh ->
         exists field, o = Some field /\ field_of internal gh N lat lon rad field).
Proof.
  induction 1 as [|[v items] value cs values Hf F IH]; intros base Lb.
  - exists base. split; [reflexivity|]. split; [exact Lb|]. intros i t lat lon rad b o _ Hb Ho. split; [congruence|].
    intros k value u gh _ ((v & Hk & _) & _). now destruct k.
  - cbn [snd] in Hf. destruct (component_set items v value base txs Hf Lb) as (out1 & E1 & L1 & H1). destruct (IH out1 L1) as (out & E & L & H).
    exists out. split; [cbn [components_array]; now rewrite E1|]. split; [exact L|]. intros i t lat lon rad b o Hi Hbi Ho.
    destruct (length_at txs out1 i _ (eq_sym L1) Hi) as [o1 Ho1]. destruct (H1 i t lat lon rad b o1 Hi Hbi Ho1) as [A1 A2].
    destruct (H i t lat lon rad o1 o Hi Ho1 Ho) as [B1 B2]. cbn [map fst]. split.
    + intro K. rewrite B1; [apply A1, K; now left|]. intros v' Hv'. apply K. now right.
    + intros k w u gh Ht [(v' & Hk & Vk) Hlast] Hw Hl Hr Hg. destruct k as [|k].
      * injection Hk as <-. injection Hw as <-. rewrite B1; [now apply (A2 u gh)|].
        intros v' Hv' V'. apply In_nth_error in Hv' as [j Hj]. specialize (Hlast (S j) v' Hj V'). cbn in Hlast. lia.
      * apply (B2 k w u gh Ht); try assumption. split; [now exists v'|]. intros j v'' Hj V''. specialize (Hlast (S j) v'' Hj V''). cbn in Hlast |- *. lia.
Qed.

Lemma array_components cs values txs : Forall2 (fun (c : (Rbar * Rbar) * list leaf_set) value => fits N (snd c) value) cs values ->
  exists out, components_array internal lo hi CT_GEOCENTRIC_SPHERICAL CT_GEOCENTRIC_SPHERICAL (1, 1, 1) mem cs (map (fun _ => None) txs) txs = Ok out /\
    Forall2 (composed_result false (map fst cs) values internal lo hi N) txs out.
Proof.
  intro F. destruct (components_array_field cs values txs F (map (fun _ => None) txs) (map_length _ _)) as (out & E & L & H).
  exists out. split; [exact E|]. apply forall2_nth; [now symmetry|]. intros i [t [[lat lon] rad]] Hi.
  destruct (length_at txs out i _ (eq_sym L) Hi) as [o Ho]. exists o. split; [exact Ho|].
  exact (H i t lat lon rad None o Hi (map_nth_error _ _ _ Hi) Ho).
Qed.

Lemma scalar_components cs values t location : Forall2 (fun (c : (Rbar * Rbar) * list leaf_set) value => fits N (snd c) value) cs values ->
  exists out, components_scalar internal lo hi CT_GEOCENTRIC_SPHERICAL CT_GEOCENTRIC_SPHERICAL (1, 1, 1) mem cs t location = Ok (dims location, out) /\
    Forall2 (composed_result true (map fst cs) values internal lo hi N) (map (fun ix => (t, at_index location ix)) (indices (dims location))) out.
Proof.
  induction 1 as [|[v items] value cs values Hf F IH].
  - eexists. split; [reflexivity|]. apply forall2_nth; [now rewrite !map_length|]. intros i tx Hi. exists None.
    apply nth_map_some in Hi as (ix & Hix & ->). split; [exact (map_nth_error _ _ _ Hix)|].
    unfold composed_result. destruct (at_index location ix) as [[lat lon] rad]. split; [reflexivity|]. intros k value u gh _ ((v & Hk & _) & _). now destruct k.
  - cbn [components_scalar snd] in *. destruct (time_valid v t) eqn:V.
    + apply time_valid_spec in V. destruct Hf as [HL Hb Hd Hcall Hex Habove].
      destruct (proj2 (evaluates_set items v value N internal lo hi mem HL Hb Hd Hcall Hex Habove) t location) as (out & E & G).
      exists out. split; [exact E|]. apply forall2_nth; [exact (forall2_length _ _ _ G)|]. intros i tx Hi.
      destruct (length_at _ out i _ (forall2_length _ _ _ G) Hi) as [o Ho]. exists o. split; [exact Ho|].
      pose proof (forall2_at _ _ _ G i _ _ Hi Ho) as Go. apply nth_map_some in Hi as (ix & Hix & ->).
      unfold field_result, composed_result in *. destruct (at_index location ix) as [[lat lon] rad]. cbn [map fst]. split.
      * intro K. exfalso. apply (K v); [now left|exact V].
      * intros k w u gh Ht [_ Hfirst] Hw Hl Hr Hg. specialize (Hfirst 0%nat v eq_refl V). cbn in Hfirst. replace k with 0%nat in Hw by lia.
        injection Hw as <-. now apply (proj2 Go u gh).
    + destruct IH as (out & E & G). exists out. split; [exact E|].
      assert (NV : ~ in_validity v t) by (intro K; apply time_valid_spec in K; congruence).
      apply forall2_nth; [exact (forall2_length _ _ _ G)|]. intros i tx Hi.
      destruct (length_at _ out i _ (forall2_length _ _ _ G) Hi) as [o Ho]. exists o. split; [exact Ho|].
      pose proof (forall2_at _ _ _ G i _ _ Hi Ho) as Go. apply nth_map_some in Hi as (ix & Hix & ->).
      unfold composed_result in *. destruct (at_index location ix) as [[lat lon] rad]. destruct Go as [G1 G2]. cbn [map fst]. split.
      * intro K. apply G1. intros v' Hv'. apply K. now right.
      * intros k w u gh Ht [(v' & Hk & Vk) Hfirst] Hw Hl Hr Hg. destruct k as [|k]; [injection Hk as <-; contradiction|].
        apply (G2 k w u gh Ht); try assumption. split; [now exists v'|]. intros j v'' Hj V''. specialize (Hfirst (S j) v'' Hj V''). cbn in Hfirst |- *. lia.
Qed.
End Components.

(** ** SHC files *)
Section Files.
Variables (to_int : text -> option Z) (to_float : text -> option R) (years : bool) (vstart vend : option R).

Lemma up_to_small d N : degrees_up_to d N -> (Z.of_nat N < 2 ^ 24)%Z -> small_degrees d.
Proof. intros H L n m Hl. specialize (H n m Hl). lia. Qed.

Lemma single_disjoint' (l : leaf_set) : disjoint_sets [l].
Proof. intros [|i] [|j] a b nm Hi Hj _ _; [reflexivity| | |]; exfalso; cbn [nth_error] in *; eauto using nil_none. Qed.

Lemma shc_fits file d N set : shc_file to_int to_float file d -> proper_shc d -> proper_times years (shc_t d) -> degrees_up_to d N -> (Z.of_nat N < 2 ^ 24)%Z ->
  load_coeff_shc to_int to_float years vstart vend file = Parsed set -> fits N [shc_leaf set] (fun u n m v => shc_value years d n m u v).
Proof.
  intros Hf P T Dn HN El. constructor.
  - apply single_length.
  - constructor; [|constructor]. exact (shc_built to_int to_float years vstart vend file d set Hf P T (up_to_small d N Dn HN) El).
  - apply single_disjoint'.
  - apply (single_call (shc_leaf set) (fun u n m v => shc_value years d n m u v)). exact (shc_leaf_values to_int to_float years vstart vend file d set Hf P T El).
  - intros t n m _. exact (shc_value_exists to_int to_float years file d t n m Hf P T).
  - intros t n m v L. now apply (shc_value_above years d t n m v N).
Qed.

Lemma load_all files ds N : Forall2 (shc_file to_int to_float) files ds -> List.Forall proper_shc ds -> List.Forall (fun d => proper_times years (shc_t d)) ds ->
  List.Forall (fun d => degrees_up_to d N) ds ->
  exists sets, pmap (load_coeff_shc to_int to_float years vstart vend) files = Parsed sets /\
    Forall2 (fun set d => exists file, shc_file to_int to_float file d /\ proper_shc d /\ proper_times years (shc_t d) /\ degrees_up_to d N /\
               load_coeff_shc to_int to_float years vstart vend file = Parsed set) sets ds.
Proof.
  induction 1 as [|file d files ds Hf F IH]; intros P T D; [exists []; split; [reflexivity|constructor]|].
  inversion P; inversion T; inversion D; subst. destruct IH as (sets & E & G); try assumption.
  destruct (shc_load_values to_int to_float years vstart vend file d Hf) as (set & El & _); try assumption.
  exists (set :: sets). split; [cbn [pmap]; rewrite El; cbn [pbind]; rewrite E; reflexivity|]. constructor; [|exact G]. exists file. tauto.
Qed.

(** *** Composed files *)
Lemma nonoverlapping_one (v : Rbar * Rbar) (items : list leaf_set) : Rbar_lt (fst v) (snd v) -> get_nonoverlapping_intervals [(v, items)] = Some [(v, items)].
Proof. destruct v as [s e]. intro L. apply nonoverlapping_single. cbn [fst snd] in L. apply not_le. intro K. apply leb_le in K.
  destruct s as [s| |], e as [e| |]; cbn in L, K; try contradiction; try discriminate. apply Rleb_le in K. lra. Qed.

Lemma composed_are sets : (forall s, In s sets -> Rbar_lt (fst (shc_validity s)) (snd (shc_validity s))) ->
  composed_components sets = Some (map (fun s => (shc_validity s, [shc_leaf s])) sets).
Proof.
  intro H. assert (G : forall l, (forall s, In s l -> Rbar_lt (fst (shc_validity s)) (snd (shc_validity s))) ->
    all_some (map (fun s => get_nonoverlapping_intervals [(shc_validity s, [shc_leaf s])]) l) = Some (map (fun s => [(shc_validity s, [shc_leaf s])]) l)).
  { induction l as [|s l IH]; intro K; [reflexivity|]. cbn [map all_some]. rewrite (nonoverlapping_one _ _ (K s (or_introl eq_refl))), IH by (intros; apply K; now right). reflexivity. }
  assert (C : forall l : list shc_set, concat (map (fun s => [(shc_validity s, [shc_leaf s])]) l) = map (fun s => (shc_validity s, [shc_leaf s])) l).
  { induction l as [|s l IH]; [reflexivity|]. cbn [map concat app]. now rewrite IH. }
  unfold composed_components. rewrite (G _ H), C. destruct sets as [|s [|s' sets]]; reflexivity.
Qed.

Lemma composed_field files ds N internal lo hi mem :
  Forall2 (shc_file to_int to_float) files ds -> List.Forall proper_shc ds -> List.Forall (fun d => proper_times years (shc_t d)) ds ->
  List.Forall (fun d => degrees_up_to d N) ds -> (Z.of_nat N < 2 ^ 24)%Z ->
  exists sets, pmap (load_coeff_shc to_int to_float years vstart vend) files = Parsed sets /\
    ((forall s, In s sets -> Rbar_lt (fst (shc_validity s)) (snd (shc_validity s))) ->
     exists components, composed_components sets = Some components /\
       (forall txs, exists out,
          components_array internal lo hi CT_GEOCENTRIC_SPHERICAL CT_GEOCENTRIC_SPHERICAL (1, 1, 1) mem components (map (fun _ => None) txs) txs = Ok out /\
          Forall2 (composed_result false (map shc_validity sets) (map (fun d u n m v => shc_value years d n m u v) ds) internal lo hi N) txs out) /\
       (forall t location, exists out,
          components_scalar internal lo hi CT_GEOCENTRIC_SPHERICAL CT_GEOCENTRIC_SPHERICAL (1, 1, 1) mem components t location = Ok (dims location, out) /\
          Forall2 (composed_result true (map shc_validity sets) (map (fun d u n m v => shc_value years d n m u v) ds) internal lo hi N)
            (map (fun ix => (t, at_index location ix)) (indices (dims location))) out)).
Proof.
  intros F P T D HN. destruct (load_all files ds N F P T D) as (sets & E & G). exists sets. split; [exact E|]. intro V.
  eexists. split; [exact (composed_are sets V)|].
  assert (M : map fst (map (fun s => (shc_validity s, [shc_leaf s])) sets) = map shc_validity sets) by (rewrite map_map; reflexivity).
  assert (Fit : Forall2 (fun (c : (Rbar * Rbar) * list leaf_set) value => fits N (snd c) value) (map (fun s => (shc_validity s, [shc_leaf s])) sets)
    (map (fun d u n m v => shc_value years d n m u v) ds)).
  { clear - G HN. induction G as [|set d sets ds (file & Hf & P & T & D & El) G IH]; [constructor|]. cbn [map]. constructor; [|exact IH].
    exact (shc_fits file d N set Hf P T D HN El). }
  rewrite <- M. split; [intro txs; now apply array_components|intros t location; now apply scalar_components].
Qed.

(** *** Combined files *)
Lemma aggregate_one (agg : (Rbar * Rbar) * list leaf_set) (int : (Rbar * Rbar) * leaf_set) :
  aggregate_loop [agg] [int] = match intersect (istart agg) (iend agg) (istart int) (iend int) with Some se => [(se, iobj agg ++ [iobj int])] | None => [] end.
Proof. cbn [aggregate_loop]. destruct (ltb _ _); destruct (intersect _ _ _ _); reflexivity. Qed.
Lemma aggregate_none (int : (Rbar * Rbar) * leaf_set) : aggregate_loop [] [int] = []. Proof. reflexivity. Qed.

Definition never (v : Rbar * Rbar) : Prop := forall t, ~ in_validity v t.

Lemma rbar_le a b : Rbar_le a b <-> le a b.
Proof.
  destruct a as [a| |], b as [b| |]; try (symmetry; exact (le_Rbar_finite a b)); rewrite <- leb_le; cbn; split; intro H;
    try exact I; try reflexivity; try discriminate H; now destruct H.
Qed.
Lemma never_step v s : never v -> never (tmax (fst v) (fst (shc_validity s)), tmin (snd v) (snd (shc_validity s))).
Proof.
  intros H t (u & -> & A & B). cbn [fst snd] in A, B. apply (H (Some u)). exists u. split; [reflexivity|].
  apply rbar_le in A, B. apply le_tmax in A. apply tmin_le in B. split; apply rbar_le; tauto.
Qed.

Lemma combined_fold sets : forall (v : Rbar * Rbar) ls aggs, aggs = [(v, ls)] \/ aggs = [] /\ never v ->
  exists comps, fold_left (fun aggregates s => Some (aggregate_intersected_intervals [(shc_validity s, shc_leaf s)] aggregates)) sets (Some aggs) = Some comps /\
    let v' := fold_left (fun v s => (tmax (fst v) (fst (shc_validity s)), tmin (snd v) (snd (shc_validity s)))) sets v in
    (comps = [(v', ls ++ map shc_leaf sets)] \/ comps = [] /\ never v').
Proof.
  induction sets as [|s sets IH]; intros v ls aggs H.
  - exists aggs. split; [reflexivity|]. cbv zeta. cbn [fold_left map]. rewrite app_nil_r. exact H.
  - cbn [fold_left map]. replace (ls ++ shc_leaf s :: map shc_leaf sets) with ((ls ++ [shc_leaf s]) ++ map shc_leaf sets) by (rewrite <- app_assoc; reflexivity).
    apply IH. unfold aggregate_intersected_intervals. destruct H as [->|[-> H]]; [|right; split; [apply aggregate_none|now apply never_step]].
    rewrite aggregate_one. unfold istart, iend, iobj. cbn [fst snd]. unfold intersect.
    destruct (leb (fst v) (snd (shc_validity s)) && leb (fst (shc_validity s)) (snd v)) eqn:B; [left; reflexivity|right; split; [reflexivity|]].
    intros t (u & -> & A1 & A2). cbn [fst snd] in A1, A2.
    apply rbar_le in A1, A2. apply le_tmax in A1 as [A1 A1']. apply tmin_le in A2 as [A2 A2'].
    assert (leb (fst v) (snd (shc_validity s)) = true) as B1 by (apply leb_le; eapply le_trans; eauto).
    assert (leb (fst (shc_validity s)) (snd v) = true) as B2 by (apply leb_le; eapply le_trans; eauto). rewrite B1, B2 in B. discriminate.
Qed.

Lemma combined_are sets : sets <> [] -> exists comps, combined_components sets = Some comps /\
  (comps = [(combined_shc_validity sets, map shc_leaf sets)] \/ comps = [] /\ never (combined_shc_validity sets)).
Proof.
  destruct sets as [|s sets]; [contradiction|intros _]. unfold combined_components. cbn [fold_left].
  destruct (combined_fold (s :: sets) (m_infty, p_infty) [] [((m_infty, p_infty), [])] (or_introl eq_refl)) as (comps & E & H).
  exists comps. split; [exact E|exact H].
Qed.

Lemma conversion_any sets ds N : Forall2 (fun set d => exists file, shc_file to_int to_float file d /\ proper_shc d /\ proper_times years (shc_t d) /\ degrees_up_to d N /\
               load_coeff_shc to_int to_float years vstart vend file = Parsed set) sets ds ->
  List.Forall (fun set => own_conversion set (apply_convert (first_convert (map shc_leaf sets)))) sets.
Proof.
  intro G.
  assert (Kind : List.Forall (fun set => match set with Shc_constant _ => True | Shc_series _ => years = false | Shc_year_series _ => years = true end) sets).
  { induction G as [|set d sets ds (file & _ & _ & _ & _ & El) G IH]; constructor; [|exact IH]. clear - El.
    unfold load_coeff_shc in El. destruct (parse_shc_file _ _ _) as [d'|e]; [|discriminate El]. cbn [pbind] in El. cbv zeta in El.
    match type of El with pbind ?x _ = _ => destruct x as [ps|e]; [|discriminate El] end. cbn [pbind] in El.
    destruct (Nat.eqb _ _).
    - match type of El with pbind ?x _ = _ => destruct x as [cs|e]; [|discriminate El] end. cbn [pbind] in El. destruct (mk_constant _ _ _ _ _); [|discriminate El]. injection El as <-. exact I.
    - destruct years; [destruct (mk_year_set _ _ _ _ _ _ _)|destruct (mk_time_dependent _ _ _ _ _ _ _)]; try discriminate El; injection El as <-; reflexivity. }
  clear G. destruct years eqn:Ey.
  - assert (FC : first_convert (map shc_leaf sets) = Some mjd2k_to_decimal_year \/ List.Forall (fun set => match set with Shc_constant _ => True | _ => False end) sets).
    { induction Kind as [|set sets K Kind IH]; [right; constructor|]. destruct set as [td|td|td]; [|discriminate|left; reflexivity].
      destruct IH as [IH|IH]; [left; exact IH|right; constructor; [exact I|exact IH]]. }
    destruct FC as [FC|FC].
    + rewrite FC. apply List.Forall_impl with (2 := Kind). intros [td|td|td] K; [exact I|discriminate|reflexivity].
    + apply List.Forall_impl with (2 := FC). intros [td|td|td] K; [exact I|destruct K|destruct K].
  - assert (FC : first_convert (map shc_leaf sets) = None).
    { induction Kind as [|set sets K Kind IH]; [reflexivity|]. destruct set as [td|td|td]; [exact IH|exact IH|discriminate]. }
    rewrite FC. apply List.Forall_impl with (2 := Kind). intros [td|td|td] K; [exact I|reflexivity|discriminate].
Qed.

Lemma shc_nms file d set nm : shc_file to_int to_float file d -> proper_shc d ->
  load_coeff_shc to_int to_float years vstart vend file = Parsed set -> In nm (leaf_nms (shc_leaf set)) -> file_lists d (fst nm) (snd nm).
Proof.
  intros Hf P. destruct (shc_parsed to_int to_float file d Hf P) as (d' & ps & E & Et & Eg & Ep & En & Nn & Lp & Hv & Hd & _).
  destruct P as (_ & _ & _ & P4).
  assert (Fin : In nm ps -> file_lists d (fst nm) (snd nm)).
  { intro H. unfold file_lists. rewrite En. apply pairs_in. now destruct nm. }
  unfold load_coeff_shc. rewrite E. cbn [pbind]. cbv zeta. rewrite Ep. cbn [pbind]. rewrite Et, Eg.
  destruct (Nat.eqb_spec (length (shc_t d)) 1) as [L1|L1].
  - rewrite L1 in P4. destruct (first_column_ok _ P4) as (cs & Ec & Eh). rewrite Ec. cbn [pbind].
    match goal with |- context [mk_constant ps (map Some cs) ?s ?e ?c] => destruct (mk_constant ps (map Some cs) s e c) as [td|] eqn:Em; [|discriminate] end.
    intros [= <-] H. apply Fin. exact (constant_nms _ _ _ _ _ _ nm None Em Hv Hd H).
  - destruct years.
    + match goal with |- context [mk_year_set ?a ?b ?c ?x ?y ?z ?f] => destruct (mk_year_set a b c x y z f) as [td|] eqn:Em; [|discriminate] end.
      intros [= <-] H. apply Fin. exact (year_set_nms _ _ _ _ _ _ _ _ nm Em Hv Hd H).
    + match goal with |- context [mk_time_dependent ?a ?b ?c ?x ?y ?z ?f] => destruct (mk_time_dependent a b c x y z f) as [td|] eqn:Em; [|discriminate] end.
      intros [= <-] H. apply Fin. exact (built_nms _ _ _ _ _ _ _ _ nm Em Hv Hd H).
Qed.

Lemma combined_fits sets ds N : Forall2 (fun set d => exists file, shc_file to_int to_float file d /\ proper_shc d /\ proper_times years (shc_t d) /\ degrees_up_to d N /\
               load_coeff_shc to_int to_float years vstart vend file = Parsed set) sets ds ->
  disjoint_files ds -> (1 <= length ds <= 16)%nat -> (Z.of_nat N < 2 ^ 24)%Z -> fits N (map shc_leaf sets) (sum_value years ds).
Proof.
  intros G Dj Ln HN. constructor.
  - now rewrite map_length, (forall2_length _ _ _ G).
  - clear - G HN. induction G as [|set d sets ds (file & Hf & P & T & D & El) G IH]; constructor; [|exact IH].
    exact (shc_built to_int to_float years vstart vend file d set Hf P T (up_to_small d N D HN) El).
  - intros i j a b nm Hi Hj Ha Hb. apply nth_map_some in Hi as (sa & Hi & ->). apply nth_map_some in Hj as (sb & Hj & ->).
    destruct (length_at _ ds i _ (forall2_length _ _ _ G) Hi) as [da Da]. destruct (length_at _ ds j _ (forall2_length _ _ _ G) Hj) as [db Db].
    destruct (forall2_at _ _ _ G i _ _ Hi Da) as (fa & Fa & Pa & _ & _ & La). destruct (forall2_at _ _ _ G j _ _ Hj Db) as (fb & Fb & Pb & _ & _ & Lb).
    exact (Dj i j da db _ _ Da Db (shc_nms fa da sa nm Fa Pa La Ha) (shc_nms fb db sb nm Fb Pb Lb Hb)).
  - intros t lo hi n m v V (vs & Hvs & ->). exists vs. split; [reflexivity|]. pose proof (conversion_any sets ds N G) as Cv.
    revert Cv. generalize (apply_convert (first_convert (map shc_leaf sets))) as f. intros f Cv. clear Dj Ln. revert vs Hvs Cv.
    induction G as [|set d sets ds (file & Hf & P & T & D & El) G IH]; intros vs Hvs Cv; inversion Hvs as [|? w ? vs' Hw Hvs']; subst; cbn [map]; constructor.
    + inversion Cv; subst. destruct (shc_leaf_values_any to_int to_float years vstart vend file d set f Hf P T El) with (t := t) (lo := lo) (hi := hi) as (res & Er & B); [assumption|].
      exists res. split; [exact Er|now apply B].
    + apply IH; [assumption|now inversion Cv].
  - intros t n m _. unfold sum_value. clear - G. assert (X : exists vs, Forall2 (fun d w => shc_value years d n m t w) ds vs).
    { induction G as [|set d sets ds (file & Hf & P & T & D & El) G IH]; [exists []; constructor|]. destruct IH as [vs Hvs].
      destruct (shc_value_exists to_int to_float years file d t n m Hf P T) as [w Hw]. exists (w :: vs). now constructor. }
    destruct X as [vs Hvs]. eexists. exists vs. now split.
  - intros t n m v L (vs & Hvs & ->). clear - G L Hvs. revert vs Hvs. induction G as [|set d sets ds (file & Hf & P & T & D & El) G IH]; intros vs Hvs;
      inversion Hvs as [|? w ? vs' Hw Hvs']; subst; cbn [fold_right]; [reflexivity|]. rewrite (IH _ Hvs'), (shc_value_above years d t n m w N D L Hw). ring.
Qed.

Lemma combined_field files ds N internal lo hi mem :
  Forall2 (shc_file to_int to_float) files ds -> List.Forall proper_shc ds -> List.Forall (fun d => proper_times years (shc_t d)) ds ->
  List.Forall (fun d => degrees_up_to d N) ds -> (Z.of_nat N < 2 ^ 24)%Z -> disjoint_files ds -> (1 <= length ds <= 16)%nat ->
  exists sets components, pmap (load_coeff_shc to_int to_float years vstart vend) files = Parsed sets /\ combined_components sets = Some components /\
    (forall txs, exists out,
       components_array internal lo hi CT_GEOCENTRIC_SPHERICAL CT_GEOCENTRIC_SPHERICAL (1, 1, 1) mem components (map (fun _ => None) txs) txs = Ok out /\
       Forall2 (field_result (combined_shc_validity sets) (sum_value years ds) internal lo hi N) txs out) /\
    (forall t location, exists out,
       components_scalar internal lo hi CT_GEOCENTRIC_SPHERICAL CT_GEOCENTRIC_SPHERICAL (1, 1, 1) mem components t location = Ok (dims location, out) /\
       Forall2 (field_result (combined_shc_validity sets) (sum_value years ds) internal lo hi N)
         (map (fun ix => (t, at_index location ix)) (indices (dims location))) out).
Proof.
  intros F P T D HN Dj Ln. destruct (load_all files ds N F P T D) as (sets & E & G).
  assert (Ns : sets <> []) by (intros ->; inversion G; subst; cbn in Ln; lia).
  destruct (combined_are sets Ns) as (comps & Ec & Hc). exists sets, comps. split; [exact E|]. split; [exact Ec|].
  pose proof (combined_fits sets ds N G Dj Ln HN) as Fit.
  destruct Hc as [->|[-> Nv]].
  - destruct Fit as [HL Hb Hd Hcall Hex Habove]. destruct (evaluates_set (map shc_leaf sets) (combined_shc_validity sets) (sum_value years ds) N internal lo hi mem HL Hb Hd Hcall Hex Habove) as [EA ES].
    split.
    + intro txs. destruct (EA txs) as (out & Eo & Ho). exists out. split; [|exact Ho]. cbn [components_array]. unfold model_eval_array in Eo. now rewrite Eo.
    + intros t location. cbn [components_scalar]. destruct (time_valid (combined_shc_validity sets) t) eqn:V; [apply ES|].
      destruct (ES t location) as (out & Eo & Ho). exists out. split; [|exact Ho]. unfold model_eval_scalar in Eo. rewrite V in Eo. exact Eo.
  - assert (No : forall tx, field_result (combined_shc_validity sets) (sum_value years ds) internal lo hi N tx None).
    { intros [t [[lat lon] rad]]. split; [reflexivity|]. intros u gh _ V. now apply Nv in V. }
    split.
    + intro txs. eexists. split; [reflexivity|]. apply forall2_nth; [now rewrite map_length|]. intros k tx Hk. exists None. split; [exact (map_nth_error _ _ _ Hk)|apply No].
    + intros t location. eexists. split; [reflexivity|]. apply forall2_nth; [now rewrite !map_length|]. intros k tx Hk. exists None.
      apply nth_map_some in Hk as (ix & Hix & ->). split; [exact (map_nth_error _ _ _ Hix)|apply No].
Qed.
End Files.
