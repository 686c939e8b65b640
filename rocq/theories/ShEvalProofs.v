(** The evaluation of a point as a function of its arguments only, and of arrays of points. *)

From Coq Require Import Bool List Reals Arith ZArith Lra Lia.
From Coquelicot Require Import Coquelicot.
From Verif Require Import ArrModel LegendreModel LegendreSpec LoopProofs LegendrePoly LegendreGauss LegendreLow LegendreHigh
  LegendreProofs GeoModel SizeModel CoefModel ShEvalModel ShEvalSpec ShEvalSum ShEvalDeriv.
Import ListNotations.
Open Scope R_scope.

(** ** The content of the work arrays *)
Definition lp_ok (degree : nat) (c : R) (lp ldp : arr) : Prop :=
  forall n m, (m <= n <= degree)%nat ->
    lp (nm_index n m) = schmidt n m (asin (sin c)) /\ ldp (nm_index n m) = schmidt' n m (asin (sin c)).
Definition lcs_ok (degree : nat) (c : R) (lcs : coefs) : Prop :=
  forall k, (k <= degree)%nat -> lcs k = (cos (INR k * c), sin (INR k * c)).
(** relative radius powers *)
Definition rr (internal : bool) (relrad : R) (k : nat) : R :=
  if internal then (1 / relrad) ^ (k + 2) else match k with O => 1 / relrad | S k' => relrad ^ k' end.
Definition rrp_ok (internal : bool) (degree : nat) (relrad : R) (rrp : arr) : Prop :=
  forall k, (k <= degree)%nat -> rrp k = rr internal relrad k.

Lemma legendre_ok lp ldp degree c psqrt prsqrt : sqrt_table degree psqrt prsqrt ->
  lp_ok degree c (fst (shc_legendre lp ldp degree c psqrt prsqrt)) (snd (shc_legendre lp ldp degree c psqrt prsqrt)).
Proof.
  intros Q n m Hn. rewrite !(shc_legendre_sin _ _ degree c).
  assert (B : - (PI / 2) <= asin (sin c) <= PI / 2) by apply asin_bound.
  pose proof (shc_legendre_correct lp ldp degree _ psqrt prsqrt n m Q B Hn) as A1.
  destruct (shc_legendre lp ldp degree (asin (sin c)) psqrt prsqrt) as [a b]. cbn [fst snd].
  destruct A1 as [A1 D1]. split; [exact A1|]. symmetry. now apply is_derive_unique.
Qed.
Lemma cos_sin_ok lcs degree c : lcs_ok degree c (fs_cos_sin lcs degree c).
Proof. intros k Hk. rewrite fs_spec. destruct (Nat.leb_spec k degree); [reflexivity|lia]. Qed.

Lemma external_any rrp degree relrad k : (k <= degree)%nat ->
  shc_relradpow_external rrp degree relrad k = rr false relrad k.
Proof.
  intro Hk. unfold shc_relradpow_external. cbv zeta.
  set (r1 := if Nat.leb 1 degree then _ else _).
  match goal with |- context [loop 2 degree ?b ?i] => set (body := b); set (i0 := i) end.
  assert (R1 : forall k, (k < Nat.min 2 (S degree))%nat -> r1 k = rr false relrad k).
  { intros j Hj. unfold r1. destruct (Nat.leb_spec 1 degree).
    - destruct j as [|[|j]]; [reflexivity|reflexivity|lia].
    - destruct j as [|j]; [reflexivity|lia]. }
  destruct (Nat.lt_ge_cases degree 2) as [L|L].
  - rewrite loop_empty by lia. unfold i0. cbn [fst]. apply R1. lia.
  - assert (P : forall st, st = loop 2 degree body i0 ->
      (forall k, (k < S degree)%nat -> fst st k = rr false relrad k) /\ snd st = relrad ^ (S degree - 2)).
    { intros st ->. apply (loop_inv (fun i st => (forall k, (k < i)%nat -> fst st k = rr false relrad k)
        /\ snd st = relrad ^ (i - 2))); [lia| |].
      - split; [|reflexivity]. intros j Hj. unfold i0. cbn [fst]. apply R1. lia.
      - intros i [a v] Hi [H1 H2]. unfold body. cbn [fst snd] in *. subst v.
        assert (E : relrad ^ (i - 2) * relrad = rr false relrad i).
        { destruct i as [|[|i]]; [lia|lia|]. replace (S (S i) - 2)%nat with i by lia. cbn [rr pow]. ring. }
        split.
        + intros j Hj. destruct (Nat.eq_dec j i) as [->|N].
          * rewrite upd_same. exact E.
          * rewrite upd_other by auto. apply H1. lia.
        + replace (S i - 2)%nat with (S (i - 2)) by lia. cbn [pow]. ring. }
    destruct (P _ eq_refl) as [P1 _]. apply P1. lia.
Qed.
Lemma relradpow_ok (internal : bool) rrp degree relrad :
  rrp_ok internal degree relrad
    ((if internal then shc_relradpow_internal else shc_relradpow_external) rrp degree relrad).
Proof.
  intros k Hk. destruct internal.
  - rewrite internal_spec. destruct (Nat.leb_spec k degree); [reflexivity|lia].
  - now apply external_any.
Qed.

(** ** The value at a point *)
Section Value.
Variables (degree : nat) (internal : bool) (clat clon crad ref : R) (coef : coefs).
Let th := asin (sin clat).
Let gh n m := coef (nm_index n m).
Let q k := rr internal (crad / ref) k.

Definition val_v : R := crad * sum_f_R0 (fun n => q n * sum_f_R0 (fun m => harmonic (gh n m) m clon * schmidt n m th) n) degree.
Definition val_el : R := sum_f_R0 (fun n => q n * sum_f_R0 (fun m => harmonic (gh n m) m clon * schmidt' n m th) n) degree.
Definition val_az : R :=
  (if Nat.ltb 0 degree && Rltb (Rabs (cos clat)) (1 / 10 ^ 10)
   then sum_f_R0 (fun n => q n *
     (if Nat.leb 1 n then harmonic' (gh n 1) 1 clon * (nf n 1 * legendre_deriv n 1 (sin clat)) else 0)) degree
   else sum_f_R0 (fun n => q n * sum_f_R0 (fun m => harmonic' (gh n m) m clon * schmidt n m th) n) degree / cos clat).
Definition val_rd : R := sum_f_R0 (fun n => radial_rate internal n * q n * sum_f_R0 (fun m => harmonic (gh n m) m clon * schmidt n m th) n) degree.

Definition value (mode : sheval_mode) : option R * option (R * R * R) :=
  match mode with
  | SM_POTENTIAL => (Some val_v, None)
  | SM_GRADIENT => (None, Some (val_el, val_az, val_rd))
  | SM_POTENTIAL_AND_GRADIENT => (Some val_v, Some (val_el, val_az, val_rd))
  end.

Variables (lcs : coefs) (lp ldp rrp : arr).
Hypotheses (Hlp : lp_ok degree clat lp ldp) (Hlcs : lcs_ok degree clon lcs)
  (Hrrp : rrp_ok internal degree (crad / ref) rrp).

Lemma row_v_val i : (i <= degree)%nat ->
  row_v coef lcs lp i = sum_f_R0 (fun m => harmonic (gh i m) m clon * schmidt i m th) i.
Proof using Hlp Hlcs.
  intro Hi. unfold row_v. rewrite S1_sum. f_equal.
  - unfold gh, harmonic. rewrite T_index, Nat.add_0_r. cbn [INR]. rewrite Rmult_0_l, cos_0, sin_0.
    destruct (Hlp i 0%nat ltac:(lia)) as [E _]. rewrite T_index, Nat.add_0_r in E. rewrite E. fold th. ring.
  - apply S1_ext. intros j Hj. destruct (Hlp i j ltac:(lia)) as [E _]. rewrite T_index in E. rewrite E. fold th.
    unfold tmp0. rewrite (Hlcs j) by lia. reflexivity.
Qed.
Lemma row_el_val i : (i <= degree)%nat ->
  row_el coef lcs ldp i = sum_f_R0 (fun m => harmonic (gh i m) m clon * schmidt' i m th) i.
Proof using Hlp Hlcs.
  intro Hi. unfold row_el. rewrite S1_sum. f_equal.
  - unfold gh, harmonic. rewrite T_index, Nat.add_0_r. cbn [INR]. rewrite Rmult_0_l, cos_0, sin_0.
    destruct (Hlp i 0%nat ltac:(lia)) as [_ E]. rewrite T_index, Nat.add_0_r in E. rewrite E. fold th. ring.
  - apply S1_ext. intros j Hj. destruct (Hlp i j ltac:(lia)) as [_ E]. rewrite T_index in E. rewrite E. fold th.
    unfold tmp0. rewrite (Hlcs j) by lia. reflexivity.
Qed.
Lemma row_az_val i : (i <= degree)%nat ->
  - row_az coef lcs lp i = sum_f_R0 (fun m => harmonic' (gh i m) m clon * schmidt i m th) i.
Proof using Hlp Hlcs.
  intro Hi. unfold row_az. rewrite S1_sum. unfold harmonic' at 1. cbn [INR].
  rewrite Ropp_0, !Rmult_0_l, Rplus_0_l.
  replace (- S1 (fun j => tmp1 coef lcs i j * lp (T i + j)%nat * INR j) i)
    with (-1 * S1 (fun j => tmp1 coef lcs i j * lp (T i + j)%nat * INR j) i) by ring.
  rewrite <- S1_scal. apply S1_ext. intros j Hj. destruct (Hlp i j ltac:(lia)) as [E _]. rewrite T_index in E. rewrite E. fold th.
  unfold tmp1, harmonic', gh. rewrite T_index, (Hlcs j) by lia. cbn [fst snd]. ring.
Qed.

Lemma eval_value mode : shc_eval degree mode clat crad coef lcs lp ldp rrp internal = value mode.
Proof using Hlp Hlcs Hrrp.
  assert (V : sum_v coef lcs lp rrp degree * crad = val_v).
  { unfold sum_v, val_v. rewrite S1_sum, Rmult_comm. f_equal. f_equal.
    - cbn [sum_f_R0]. rewrite (Hrrp 0%nat) by lia. fold (q 0%nat). unfold gh, harmonic. cbn [INR].
      rewrite Rmult_0_l, cos_0, sin_0, schmidt_00. change (nm_index 0 0) with 0%nat. ring.
    - apply S1_ext. intros i Hi. rewrite row_v_val, (Hrrp i) by lia. reflexivity. }
  assert (E : sum_el coef lcs ldp rrp degree = val_el).
  { unfold sum_el, val_el. rewrite S1_sum. cbn [sum_f_R0].
    assert (D0 : schmidt' 0 0 th = 0).
    { unfold schmidt'. rewrite (Derive_ext _ (fun _ => 1)) by apply schmidt_00. apply Derive_const. }
    rewrite D0, !Rmult_0_r, Rplus_0_l. apply S1_ext. intros i Hi. rewrite row_el_val, (Hrrp i) by lia. reflexivity. }
  assert (D : sum_rd coef lcs lp rrp internal degree = val_rd).
  { unfold sum_rd, val_rd. rewrite S1_sum.
    replace (- (fst (coef 0%nat) * rrp 0%nat * i_dr internal 0) - S1 (fun i => rrp i * (row_v coef lcs lp i * i_dr internal i)) degree)
      with (- (fst (coef 0%nat) * rrp 0%nat * i_dr internal 0) + -1 * S1 (fun i => rrp i * (row_v coef lcs lp i * i_dr internal i)) degree) by ring.
    assert (I : forall i, i_dr internal i = - radial_rate internal i).
    { intro i. unfold i_dr, radial_rate. clear. case internal; rewrite plus_INR; cbn [INR]; ring. }
    rewrite <- S1_scal. f_equal.
    - cbn [sum_f_R0]. rewrite (Hrrp 0%nat), I by lia. fold (q 0%nat). unfold gh, harmonic. cbn [INR].
      rewrite Rmult_0_l, cos_0, sin_0, schmidt_00. change (nm_index 0 0) with 0%nat. ring.
    - apply S1_ext. intros i Hi. rewrite row_v_val, (Hrrp i), I by lia. fold (q i). ring. }
  assert (A : (if Nat.ltb 0 degree && Rltb (Rabs (cos clat)) (1 / 10 ^ 10)
    then shc_eval_dvaz_pole degree clat coef lcs rrp else sum_az coef lcs lp rrp degree / cos clat) = val_az).
  { unfold val_az. destruct (Nat.ltb 0 degree && Rltb (Rabs (cos clat)) (1 / 10 ^ 10)) eqn:C.
    - apply andb_true_iff in C. destruct C as [C _]. apply Nat.ltb_lt in C. rewrite pole_sum by lia.
      rewrite S1_sum. cbn [Nat.leb]. rewrite Rmult_0_r, Rplus_0_l.
      replace (- S1 (pole_term coef lcs rrp (sin clat)) degree) with (-1 * S1 (pole_term coef lcs rrp (sin clat)) degree) by ring.
      rewrite <- S1_scal. apply S1_ext. intros i Hi. unfold pole_term. destruct (Nat.leb_spec 1 i); [|lia].
      rewrite (Hrrp i), (Hlcs 1%nat) by lia. fold (q i). unfold G, F, harmonic', gh. rewrite T_index. cbn [INR fst snd].
      rewrite Rmult_1_l. pose proof (gc_pos i 1). destruct i; [lia|]. field. lra.
    - f_equal. unfold sum_az. rewrite S1_sum. cbn [sum_f_R0]. unfold harmonic' at 1. cbn [INR].
      replace (- S1 (fun i => rrp i * row_az coef lcs lp i) degree) with (-1 * S1 (fun i => rrp i * row_az coef lcs lp i) degree) by ring.
      rewrite <- S1_scal. rewrite Ropp_0, !Rmult_0_l, Rmult_0_r, Rplus_0_l. apply S1_ext. intros i Hi.
      rewrite <- row_az_val, (Hrrp i) by lia. fold (q i). ring. }
  unfold shc_eval, value. destruct mode.
  - rewrite eval_v_sum, V. reflexivity.
  - rewrite eval_dv_sum, E, D, A. reflexivity.
  - rewrite eval_v_dv_sum, V, E, D, A. reflexivity.
Qed.
End Value.

(** ** The state *)
Definition cfg_ok (cfg : model_cfg) : Prop := sqrt_table (degree cfg) (psqrt cfg) (prsqrt cfg).
Definition state_ok (cfg : model_cfg) (st : model_state) : Prop :=
  (forall c, clat_last st = Some c -> lp_ok (degree cfg) c (lp st) (ldp st)) /\
  (forall c, clon_last st = Some c -> lcs_ok (degree cfg) c (lcs st)) /\
  (forall c, crad_last st = Some c -> rrp_ok (is_internal cfg) (degree cfg) (c / crad_ref cfg) (rrp st)).

(** The result of the evaluation of a point *)
Definition point_value (cfg : model_cfg) (mode : sheval_mode) (xyz : R * R * R) (coef : coefs)
  : option R * option (R * R * R) :=
  let '(x, y, z) := xyz in
  let '(clat, clon, crad, glat) := input_coordinates cfg x y z in
  let '(fpot, fgrd) := value (degree cfg) (is_internal cfg) clat clon crad (crad_ref cfg) coef mode in
  (match fpot with Some v => Some (v * scale_potential cfg) | None => None end,
   match fgrd with
   | Some grd =>
       match project_gradient cfg clat clon glat grd with
       | Some (fx, fy, fz) =>
           Some (fx * scale_gradient0 cfg, fy * scale_gradient1 cfg, fz * scale_gradient2 cfg)
       | None => None
       end
   | None => None
   end).

Lemma neq_last_false last x : neq_last last x = false -> last = Some x.
Proof. unfold neq_last. destruct last as [y|]; [|discriminate]. destruct (Req_EM_T y x); [congruence|discriminate]. Qed.

Lemma model_eval_value cfg mode xyz coef st : cfg_ok cfg -> state_ok cfg st ->
  fst (model_eval cfg mode xyz coef st) = point_value cfg mode xyz coef /\
  state_ok cfg (snd (model_eval cfg mode xyz coef st)).
Proof.
  intros Hc (S1' & S2' & S3'). destruct xyz as [[x y] z]. unfold model_eval, point_value.
  destruct (input_coordinates cfg x y z) as [[[clat clon] crad] glat].
  set (l := if neq_last (clat_last st) clat then _ else _).
  set (lcs' := if neq_last (clon_last st) clon then _ else _).
  set (rrp' := if neq_last (crad_last st) crad then _ else _).
  assert (Hl : lp_ok (degree cfg) clat (fst l) (snd l)).
  { unfold l. destruct (neq_last (clat_last st) clat) eqn:E; [now apply legendre_ok|]. apply neq_last_false in E. cbn [fst snd]. now apply S1'. }
  assert (Hcs : lcs_ok (degree cfg) clon lcs').
  { unfold lcs'. destruct (neq_last (clon_last st) clon) eqn:E; [now apply cos_sin_ok|]. apply neq_last_false in E. now apply S2'. }
  assert (Hr : rrp_ok (is_internal cfg) (degree cfg) (crad / crad_ref cfg) rrp').
  { unfold rrp'. destruct (neq_last (crad_last st) crad) eqn:E; [apply relradpow_ok|]. apply neq_last_false in E. now apply S3'. }
  clearbody l lcs' rrp'. destruct l as [lp' ldp']. cbn [fst snd] in Hl.
  rewrite (eval_value (degree cfg) (is_internal cfg) clat clon crad (crad_ref cfg) coef lcs' lp' ldp' rrp' Hl Hcs Hr mode).
  destruct (value (degree cfg) (is_internal cfg) clat clon crad (crad_ref cfg) coef mode) as [fpot fgrd].
  cbn [fst snd]. split; [reflexivity|].
  split; [|split]; cbn [clat_last clon_last crad_last lp ldp lcs rrp]; intros c E; injection E as <-; assumption.
Qed.

(** ** Arrays *)
Lemma at_index_item {A} (a : nd A) i ix : at_index (nd_item a i) ix = at_index a (i :: ix).
Proof. unfold at_index, nd_item. destruct (dims a) as [|d ds] eqn:E; [rewrite E; reflexivity|reflexivity]. Qed.

Lemma sheval_items_value cfg mode odims : cfg_ok cfg -> forall x coef st, state_ok cfg st ->
  fst (sheval_items cfg mode odims x coef st)
    = map (fun ix => point_value cfg mode (at_index x ix) (at_index coef ix)) (indices odims) /\
  state_ok cfg (snd (sheval_items cfg mode odims x coef st)).
Proof.
  intro Hc. induction odims as [|d ds IH]; intros x coef st Hs.
  - cbn [sheval_items indices map]. unfold at_index. rewrite !firstn_nil.
    destruct (model_eval_value cfg mode (get x []) (get coef []) st Hc Hs) as [A B].
    destruct (model_eval cfg mode (get x []) (get coef []) st) as [o st']. cbn [fst snd] in *. subst o. auto.
  - cbn [sheval_items indices]. generalize (seq 0 d) as is. intro is. revert st Hs.
    induction is as [|i is IHi]; intros st Hs; [split; [reflexivity|exact Hs]|].
    destruct (IH (nd_item x i) (nd_item coef i) st Hs) as [A B].
    destruct (sheval_items cfg mode ds (nd_item x i) (nd_item coef i) st) as [o st1]. cbn [fst snd] in A, B. subst o.
    destruct (IHi st1 B) as [A2 B2].
    match goal with |- context [let '(os, st2) := ?e in _] => destruct e as [os st2] end.
    cbn [fst snd] in *. subst os. split; [|exact B2].
    cbn [flat_map]. rewrite map_app, map_map. f_equal. apply map_ext. intro ix. now rewrite !at_index_item.
Qed.

Lemma model_init_ok internal degree ci co sp sg mem :
  let '(cfg, st) := model_init internal degree ci co sp sg mem in cfg_ok cfg /\ state_ok cfg st.
Proof.
  destruct mem as [[[[[m1 m2] m3] m4] m5] m6]. destruct sg as [[s0 s1] s2]. cbn [model_init].
  split; [apply tables|]. split; [|split]; cbn [clat_last clon_last crad_last]; discriminate.
Qed.

(** the configuration without the tables *)
Definition cfg0 (internal : bool) (degree : nat) (ci co : coord_type) (sp : R) (sg : R * R * R) : model_cfg :=
  fst (model_init internal degree ci co sp sg
    (fun _ => 0, fun _ => 0, fun _ => (0, 0), fun _ => 0, fun _ => 0, fun _ => 0)).

Lemma point_value_cfg0 internal degree ci co sp sg mem mode xyz coef :
  point_value (fst (model_init internal degree ci co sp sg mem)) mode xyz coef
    = point_value (cfg0 internal degree ci co sp sg) mode xyz coef.
Proof.
  unfold cfg0. destruct mem as [[[[[m1 m2] m3] m4] m5] m6]. destruct sg as [[s0 s1] s2]. destruct xyz as [[x y] z].
  reflexivity.
Qed.

Definition eff_degree (csize degree : Z) : nat :=
  Z.to_nat (if (degree <? 0)%Z || (size_to_degree csize <? degree)%Z then size_to_degree csize else degree).

Lemma sheval_value x csize coef ci co mode internal deg sp sg mem odims out :
  sheval x csize coef ci co mode internal deg sp sg mem = Ok (odims, out) ->
  odims = (if Nat.ltb (length (dims x)) (length (dims coef)) then dims coef else dims x) /\
  out = map (fun ix => point_value (cfg0 internal (eff_degree csize deg) ci co sp sg) mode (at_index x ix) (at_index coef ix))
          (indices odims).
Proof.
  unfold sheval. cbv zeta.
  destruct (size_to_degree csize <? 0)%Z; [discriminate|].
  destruct ((2147483647 <? size_to_degree csize)%Z && (deg <? 0)%Z); [discriminate|].
  set (od := if Nat.ltb _ _ then _ else _).
  destruct (compare_dimensions od (dims x) || compare_dimensions od (dims coef)); [discriminate|].
  fold (eff_degree csize deg).
  pose proof (model_init_ok internal (eff_degree csize deg) ci co sp sg mem) as M.
  pose proof (point_value_cfg0 internal (eff_degree csize deg) ci co sp sg mem mode) as P.
  destruct (model_init internal (eff_degree csize deg) ci co sp sg mem) as [cfg st]. cbn [fst] in P.
  destruct M as [M1 M2]. intro H. injection H as <- <-. split; [reflexivity|].
  rewrite (proj1 (sheval_items_value cfg mode od M1 x coef st M2)). apply map_ext. intro ix. apply P.
Qed.

(** when the call succeeds *)
Lemma compare_prefix b : forall a, (length a <= length b)%nat -> (compare_dimensions b a = false <-> prefix a b).
Proof.
  induction b as [|y b IH]; intros [|x a] Hl; cbn [compare_dimensions length] in *; try lia.
  - split; [exists []; reflexivity|reflexivity].
  - split; [intros _; exists (y :: b); reflexivity|reflexivity].
  - destruct (Nat.eqb_spec y x) as [->|N].
    + rewrite IH by lia. split; intros [c E].
      * exists c. now rewrite E.
      * exists c. cbn in E. now injection E.
    + split; [discriminate|]. intros [c E]. cbn in E. injection E as E _. congruence.
Qed.
Lemma compare_refl a : compare_dimensions a a = false.
Proof. apply compare_prefix; [lia|]. exists []. now rewrite app_nil_r. Qed.

Lemma sheval_succeeds x csize coef ci co mode internal deg sp sg mem :
  (exists r, sheval x csize coef ci co mode internal deg sp sg mem = Ok r) <->
  (0 <= size_to_degree csize)%Z /\ ~ ((2147483647 < size_to_degree csize)%Z /\ (deg < 0)%Z) /\
  (prefix (dims x) (dims coef) \/ prefix (dims coef) (dims x)).
Proof.
  unfold sheval. cbv zeta.
  destruct (Z.ltb_spec (size_to_degree csize) 0).
  { split; [intros [r E]; discriminate|lia]. }
  destruct ((2147483647 <? size_to_degree csize)%Z && (deg <? 0)%Z) eqn:E1.
  { apply andb_true_iff in E1. destruct E1 as [E1 E2]. apply Z.ltb_lt in E1. apply Z.ltb_lt in E2.
    split; [intros [r E]; discriminate|tauto]. }
  assert (N : ~ ((2147483647 < size_to_degree csize)%Z /\ (deg < 0)%Z)).
  { intros [A B]. apply Z.ltb_lt in A. apply Z.ltb_lt in B. rewrite A, B in E1. discriminate. }
  assert (Q : prefix (dims x) (dims coef) \/ prefix (dims coef) (dims x) <->
    compare_dimensions (if Nat.ltb (length (dims x)) (length (dims coef)) then dims coef else dims x) (dims x)
    || compare_dimensions (if Nat.ltb (length (dims x)) (length (dims coef)) then dims coef else dims x) (dims coef) = false).
  { rewrite orb_false_iff. destruct (Nat.ltb_spec (length (dims x)) (length (dims coef))).
    - rewrite compare_refl, compare_prefix by lia. split; [|tauto]. intros [P|[c E]]; [tauto|].
      rewrite E, app_length in *. lia.
    - rewrite compare_refl, compare_prefix by lia. split; [|tauto]. intros [[c E]|P]; [|tauto]. split; [reflexivity|].
      exists []. rewrite E, app_length in *. assert (length c = 0%nat) by lia. destruct c; [|discriminate]. now rewrite !app_nil_r. }
  destruct (compare_dimensions _ (dims x) || compare_dimensions _ (dims coef)).
  - split; [intros [r E]; discriminate|]. intros (_ & _ & D). apply Q in D. discriminate.
  - destruct (model_init _ _ _ _ _ _ _). split; [|eauto]. intros _. split; [lia|split; [exact N|apply Q; reflexivity]].
Qed.

Lemma sheval_point xyz csize coef ci co mode internal deg sp sg mem :
  (0 <= size_to_degree csize)%Z -> ~ ((2147483647 < size_to_degree csize)%Z /\ (deg < 0)%Z) ->
  sheval (nd0 xyz) csize (nd0 coef) ci co mode internal deg sp sg mem
    = Ok ([], [point_value (cfg0 internal (eff_degree csize deg) ci co sp sg) mode xyz coef]).
Proof.
  intros H1 H2. destruct (proj2 (sheval_succeeds (nd0 xyz) csize (nd0 coef) ci co mode internal deg sp sg mem)) as [[od out] E].
  { split; [exact H1|split; [exact H2|left; exists []; reflexivity]]. }
  rewrite E. destruct (sheval_value _ _ _ _ _ _ _ _ _ _ _ _ _ E) as [-> ->]. reflexivity.
Qed.

Lemma batch_pointwise x csize coef ci co mode internal deg sp sg mem odims out :
  sheval x csize coef ci co mode internal deg sp sg mem = Ok (odims, out) ->
  length out = length (indices odims) /\
  forall k ix, nth_error (indices odims) k = Some ix ->
    exists o, nth_error out k = Some o /\
      forall mem', sheval (nd0 (at_index x ix)) csize (nd0 (at_index coef ix)) ci co mode internal deg sp sg mem' = Ok ([], [o]).
Proof.
  intro E. destruct (sheval_value _ _ _ _ _ _ _ _ _ _ _ _ _ E) as [_ ->]. split; [apply map_length|].
  intros k ix Hk. eexists. split; [apply map_nth_error; exact Hk|]. intro mem'. apply sheval_point.
  - apply (sheval_succeeds x csize coef ci co mode internal deg sp sg mem). eauto.
  - apply (sheval_succeeds x csize coef ci co mode internal deg sp sg mem). eauto.
Qed.
