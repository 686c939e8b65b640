(** Examples for the MIO models. *)

From Coq Require Import Bool List ZArith Reals Lra Lia Arith.
From Verif Require Import Ord CoefModel ArrModel LegendreModel GeoModel ShEvalModel ShEvalSpec ShEvalProofs SparseSpec FourierModel
  FourierSpec FourierExamples CoordModel CoordSpec ConvertProofs ComposedModel ComposedSpec ComposedProofs MioModel MioSpec MioProofs.
Import ListNotations.
Open Scope R_scope.

Section F107.
Context {T : Type} {OT : TOrd T}.

(** F10.7 for the first dimension of the positions *)
Definition ex_f107 : nd (option R) := {| dims := [2%nat]; get := fun ix => match ix with [0%nat] => Some 0 | _ => None end |}.
Definition all_times (t : T) : nd (option T) := {| dims := [2%nat; 2%nat]; get := fun _ => Some t |}.

Lemma f107_rows (m : @mio T) N t x ci co s mem : distinct_series (mio_set m) N -> in_range t (mio_validity m) -> dims x = [2%nat; 2%nat] ->
  exists r r1, mio_eval m (all_times t) x ci co s (Some ex_f107) None None mem = Ok r /\ get r [0%nat; 1%nat] = None /\
    mio_eval m (nd0 (Some t)) (nd0 (get x [0%nat; 1%nat])) ci co s (Some (nd0 (get ex_f107 [0%nat]))) None None mem = Ok r1 /\ get r1 [] <> None.
Proof.
  intros Ds Hr Dx.
  destruct (mio_value m N (nd0 (Some t)) (nd0 (get x [0%nat; 1%nat])) ci co s (Some (nd0 (get ex_f107 [0%nat]))) None None mem Ds)
    as (r1 & E1 & _ & V1); [apply prefix_refl|left; reflexivity|exact I|exact I|intros [W _]; now apply W|].
  specialize (V1 [] (or_introl eq_refl)). cbn in V1. destruct V1 as [_ V1]. destruct (V1 Hr) as (c & w & lat & lon & cs & _ & _ & _ & _ & V).
  assert (M : exists r, mio_eval m (all_times t) x ci co s (Some ex_f107) None None mem = Ok r /\ get r [0%nat; 1%nat] = None).
  { unfold mio_eval, reshape_times. rewrite Dx. cbn [dims all_times prefixb Nat.eqb andb bind option_map].
    unfold broadcast2. cbn [nd_apply dims rev app ex_f107 broadcast_rev Nat.eqb bind mask_option].
    match goal with |- context [take ?a ?b] => set (mask := b); set (ts := a) end.
    assert (Pm : prefix (dims mask) (dims ts)) by apply prefix_refl.
    assert (Px : prefix (dims mask) (dims x)) by (rewrite Dx; apply prefix_refl).
    destruct (take_ok ts mask Pm) as (ts' & -> & Dts & Gts). cbn [bind].
    destruct (take_ok x mask Px) as (xs & -> & Dxs & Gxs). cbn [bind].
    destruct (core_ok m N ts' xs ci co s None None mem Ds) as (vs & -> & Dvs & _).
    { rewrite Dts, Dxs, Dx. apply prefix_refl. } { exact I. } { exact I. }
    cbn [bind].
    destruct (store_ok {| dims := [2%nat; 2%nat]; get := fun _ => None |} mask vs) as (r & -> & Dr & Vr).
    { apply prefix_refl. } { rewrite Dvs, Dxs, Dx. reflexivity. }
    cbn [bind dims prefixb Nat.eqb andb]. eexists. split; [reflexivity|]. cbn [get].
    destruct (Vr [0%nat; 1%nat]) as [_ Vf]; [cbn; tauto|]. rewrite Vf; [now destruct (get _ _)|].
    cbn. apply andb_false_r. }
  destruct M as (r & E & V0). exists r, r1. split; [exact E|split; [exact V0|split; [exact E1|]]]. rewrite V. discriminate.
Qed.
End F107.

(** a model for the examples *)
Definition ex_mio : @mio Zx := {|
  mio_validity := (zf 0, zf 10); mio_north_pole := (80, -70); mio_wolf_ratio := 0.01485; mio_set := ex_set; mio_internal := false;
  mio_year_fraction := fun _ => 0.5; mio_subsol := fun _ => (10, 20) |}.
Definition ex_locations : nd vec := {| dims := [2%nat]; get := fun ix => match ix with [0%nat] => (0, 0, 6371.2) | _ => (0, 90, 6800) end |}.
Lemma ex_other_times : ~ prefix [3%nat] (dims ex_locations) /\ ~ prefix (dims ex_locations) [3%nat].
Proof. split; intros (c & H); discriminate H. Qed.

Lemma ex_mio_ok : distinct_series (mio_set ex_mio) 2 /\ in_range (zf 5) (mio_validity ex_mio) /\ ~ in_range (zf 11) (mio_validity ex_mio) /\
  scalar_or_full (nd0 (Some (zf 5))) (dims ex_locations).
Proof.
  split; [|split; [|split; [|left; reflexivity]]].
  - destruct ex_set_ok as (A & B & C & _). split; [exact A|split; [exact B|split; [exact C|lia]]].
  - split; apply leb_le; reflexivity.
  - intros [_ H]. apply leb_le in H. discriminate H.
Qed.

(** two models with a constant field *)
Definition ex_constant (v : R) : @evaluator Zx := fun _ location _ _ _ _ _ _ => Ok {| dims := dims location; get := fun _ => Some (v, 0, 0) |}.
Definition ex_is (v : R) : @element Zx := fun _ _ _ _ _ _ _ _ out => out = Some (v, 0, 0).
Lemma ex_pointwise v : pointwise (ex_constant v) (ex_is v).
Proof. intros time location co s f107 lat_sol lon_sol _ _ _ _ _. eexists. split; [reflexivity|split; [reflexivity|]]. reflexivity. Qed.

Lemma ex_switch : exists r,
  primary_eval (ex_constant 1) (ex_constant 2) 110 6371.2 (fun _ => None) (nd0 (Some (zf 5))) ex_locations
    CT_GEOCENTRIC_SPHERICAL CT_GEOCENTRIC_SPHERICAL None None None None = Ok r /\
  get r [0%nat] = Some (1, 0, 0) /\ get r [1%nat] = Some (2, 0, 0).
Proof.
  destruct (primary_value (ex_constant 1) (ex_constant 2) (ex_is 1) (ex_is 2) 110 6371.2 (fun _ => None) (nd0 (Some (zf 5))) ex_locations
    CT_GEOCENTRIC_SPHERICAL CT_GEOCENTRIC_SPHERICAL None None None None (ex_pointwise 1) (ex_pointwise 2)) as (r & E & _ & V);
    [left; reflexivity|exact I|exact I|exact I|exact (fun H => H)|].
  exists r. split; [exact E|]. split.
  - specialize (V [0%nat]). cbv zeta in V. rewrite (convert_same CT_GEOCENTRIC_SPHERICAL) in V. cbn [ex_locations get snd] in V.
    apply V; [cbn; tauto|lra].
  - specialize (V [1%nat]). cbv zeta in V. rewrite (convert_same CT_GEOCENTRIC_SPHERICAL) in V. cbn [ex_locations get snd] in V.
    apply V; [cbn; tauto|lra].
Qed.

Lemma min_degree_refuted : exists below above, primary_min_degree below above <> Z.min below above.
Proof. exists 1%Z, 2%Z. discriminate. Qed.
Lemma primary_degree_max below above :
  (below <= primary_degree below above /\ above <= primary_degree below above)%Z /\
  (primary_degree below above = below \/ primary_degree below above = above).
Proof. unfold primary_degree. lia. Qed.
Lemma ex_validity : in_range (zf 3) (primary_validity (zf 0, zf 4) (zf 2, zf 9)) /\ ~ in_range (zf 5) (primary_validity (zf 0, zf 4) (zf 2, zf 9)).
Proof.
  split; [split; apply leb_le; reflexivity|]. intros [_ H]. apply leb_le in H. discriminate H.
Qed.
