(** Coefficient sets with common coefficients or with different time conversions, and examples. *)

From Coq Require Import Bool List Reals Arith ZArith Lra Lia.
From Coquelicot Require Import Coquelicot.
From Verif Require Import Ord ROrd BisectModel BisectSpec BisectProofs InterpModel InterpSpec InterpProofs
  ArrModel LegendreModel LegendreSpec LoopProofs LegendrePoly LegendreGauss LegendreLow LegendreHigh LegendreProofs
  GeoModel SizeModel SizeProofs CoefModel SparseModel SparseSpec SparseProofs
  SeriesModel SeriesProofs ShEvalModel ShEvalSpec ShEvalSum ShEvalDeriv ShEvalHarmonic ShEvalProofs ShEvalGradProofs ShEvalLinProofs
  ShEvalExamples TempModel TempSpec TempProofs TempEquivProofs.
Import ListNotations.
Open Scope R_scope.

(** ** The field of the axial dipole on the equator *)
Definition sph_cfg (s : R) := cfg0 true 1 CT_GEOCENTRIC_SPHERICAL CT_GEOCENTRIC_SPHERICAL 1 (s, s, s).
Definition some_mem : arr * arr * coefs * arr * arr * arr :=
  ((fun _ => 0), (fun _ => 0), (fun _ => (0, 0)), (fun _ => 0), (fun _ => 0), (fun _ => 0)).

Lemma equator (c : coefs) q s : c 0%nat = (0, 0) -> c 1%nat = (q, 0) -> c 2%nat = (0, 0) ->
  exists e u, point_value (sph_cfg s) SM_GRADIENT (0, 0, 6371.2) c = (None, Some (s * q, e, u)).
Proof.
  intros H0 H1 H2. assert (Hc : (1 <= 3 < 2 ^ 50)%Z) by lia.
  assert (E : exists e u, sheval (nd0 (0, 0, 6371.2)) 3 (nd0 c) CT_GEOCENTRIC_SPHERICAL CT_GEOCENTRIC_SPHERICAL SM_GRADIENT true (-1)
    1 (1, 1, 1) some_mem = Ok ([], [(None, Some (q, e, u))])).
  { rewrite sph_call by now apply call_ok_size.
    rewrite (eff_degree_spec 3 (-1) 1 Hc deg3). cbn [value option_map]. rewrite !Rmult_1_r.
    match goal with |- context [val_el ?a ?b ?c ?d ?e ?f ?g] => assert (E1 : val_el a b c d e f g = q) end.
    { unfold val_el. cbn [sum_f_R0]. rewrite !table_index.
      change (table c 0 0) with (c 0%nat). change (table c 1 0) with (c 1%nat). change (table c 1 1) with (c 2%nat).
      rewrite H0, H1, H2. rewrite Rmult_0_r, sin_0, asin_0, schmidt'_10, cos_0. unfold harmonic. cbn [fst snd INR].
      rewrite ?Rmult_0_l, ?Rmult_0_r, ?cos_0. unfold rr. rewrite ref_one, Rdiv_1. rewrite !pow1. ring. }
    rewrite E1. eauto. }
  destruct E as (e & u & E). apply (sheval_scaled _ _ _ _ _ _ _ _ 1 (s, s, s)) in E.
  destruct (call_ok_size 3 (-1) Hc) as [C1 C2]. rewrite sheval_point in E by assumption.
  rewrite (eff_degree_spec 3 (-1) 1 Hc deg3) in E. exists (s * e), (s * u).
  unfold sph_cfg. assert (E2 : forall A (x y : A) (l : list nat), Ok (l, [x]) = Ok (l, [y]) -> x = y) by (intros; congruence).
  apply E2 in E. exact E.
Qed.

(** ** Sets of the coefficients (1, 0) and (1, 1) *)
Lemma bisect_any t v : exists i, bisect_right (Some t) v = Some i /\ (-1 <= i < Z.max 1 (Z.of_nat (length v)))%Z.
Proof. destruct (bisect_right_total (Some t) v) as (i & E & B). exists i. split; [exact E|lia]. Qed.

Lemma clip_00 i : clip i 0 0 = 0%Z.
Proof. pose proof (clip_bounds i 0 0 ltac:(lia)). lia. Qed.

Lemma basis_const t v : exists b, get_interp0_basis (Some t) [v] = Some b /\ b_i b = 0%Z.
Proof.
  unfold get_interp0_basis. destruct (bisect_any t [v]) as (i & -> & _). eexists. split; [reflexivity|]. cbn [b_i].
  apply clip_00.
Qed.

Lemma eval_const t v b c : get_interp0_basis (Some t) [v] = Some b -> interp0_eval b [c] = Some (Some c).
Proof.
  intro E. destruct (basis_const t v) as (b' & E' & H). assert (b' = b) by congruence. subst b'.
  unfold interp0_eval. rewrite H. reflexivity.
Qed.

Lemma linear_two t v0 v1 : exists b, get_interp1_basis (Some t) [v0; v1] = Some b /\
  forall c0 c1, interp1_eval b [c0; c1] = Some (Some ((1 - (t - v0) / (v1 - v0)) * c0 + (t - v0) / (v1 - v0) * c1)).
Proof.
  unfold get_interp1_basis. destruct (bisect_any t [v0; v1]) as (i & -> & _).
  change (Z.of_nat (length [v0; v1]) - 2)%Z with 0%Z. rewrite clip_00.
  change (aread [v0; v1] 0) with (Some v0). change (aread [v0; v1] (0 + 1)) with (Some v1). cbv iota beta.
  eexists. split; [reflexivity|]. intros c0 c1. unfold interp1_eval. cbn [b_i b_0 b_1].
  change (aread [c0; c1] 0) with (Some c0). change (aread [c0; c1] (0 + 1)) with (Some c1). reflexivity.
Qed.

Definition lin_set (v0 v1 c0 c1 : R) (nm : Z * Z) : set_args := ([v0; v1], [[c0; c1]], [nm], 2%Z).
Definition const_set (c : R) (nm : Z * Z) : set_args := ([0], [[c]], [nm], 1%Z).

Lemma lin_usable v0 v1 c0 c1 n m : valid_nm n m -> usable_set (lin_set v0 v1 c0 c1 (n, m)).
Proof.
  intro V. split; [right; cbn; lia|]. split; [reflexivity|]. split.
  - intros r [<-|[]]. reflexivity.
  - intros a b [E|[]]. injection E as <- <-. exact V.
Qed.
Lemma const_usable c n m : valid_nm n m -> usable_set (const_set c (n, m)).
Proof.
  intro V. split; [left; cbn; lia|]. split; [reflexivity|]. split.
  - intros r [<-|[]]. reflexivity.
  - intros a b [E|[]]. injection E as <- <-. exact V.
Qed.

(** a linear and a constant set of the same coefficient: the constant set is written only for the
    first time, and the linear set overwrites it for the next ones *)
Definition overlap_sets : list set_args := [lin_set 0 1 1 2 (1, 0)%Z; const_set 5 (1, 0)%Z].
Definition two_times : nd R := {| dims := [2%nat]; get := fun ix => match ix with [0%nat] => 0 | _ => 1 end |}.

Lemma valid_10 : valid_nm 1 0. Proof. unfold valid_nm. lia. Qed.
Lemma valid_11 : valid_nm 1 1. Proof. unfold valid_nm. lia. Qed.

Lemma overlap_usable : List.Forall usable_set overlap_sets.
Proof.
  constructor; [apply lin_usable, valid_10|]. constructor; [apply const_usable, valid_10|constructor].
Qed.

Definition lin_cs : coefset := {| cs_ct := [0; 1]; cs_rows := [(1%Z, [1; 2])]; cs_order := 2; cs_degree := 1 |}.
Definition const_cs : coefset := {| cs_ct := [0]; cs_rows := [(1%Z, [5])]; cs_order := 1; cs_degree := 1 |}.
Lemma overlap_parsed : parse_coefsets overlap_sets = Some [lin_cs; const_cs].
Proof. reflexivity. Qed.

Lemma write_10 c v : write_coef 3 c 1 v = Some (fun k => if Nat.eqb k 1 then (v, snd (c k)) else c k).
Proof. reflexivity. Qed.

Lemma step_lin t i c : exists c', coeff_set_interp 3 t lin_cs i c = Some (c', i) /\
  c' 0%nat = c 0%nat /\ c' 1%nat = (1 + t, snd (c 1%nat)) /\ c' 2%nat = c 2%nat.
Proof.
  unfold coeff_set_interp. cbn [cs_order lin_cs Z.eqb Pos.eqb cs_ct cs_rows].
  destruct (linear_two t 0 1) as (b & -> & E). cbn [write_rows]. rewrite E.
  rewrite write_10.
  eexists. split; [reflexivity|]. cbn [Nat.eqb]. split; [reflexivity|]. split; [|reflexivity]. f_equal. field.
Qed.
Lemma step_const t i c : exists c', coeff_set_interp 3 t const_cs i c = Some (c', 0%Z) /\
  c' 0%nat = c 0%nat /\ c' 1%nat = (if (i =? 0)%Z then c 1%nat else (5, snd (c 1%nat))) /\ c' 2%nat = c 2%nat.
Proof.
  unfold coeff_set_interp. cbn [cs_order const_cs Z.eqb Pos.eqb cs_ct cs_rows].
  destruct (basis_const t 0) as (b & E & Hb). rewrite E, Hb. destruct (Z.eqb_spec i 0) as [->|N].
  - exists c. auto.
  - cbn [write_rows]. rewrite (eval_const t 0 b 5 E).
    rewrite write_10.
    eexists. split; [reflexivity|]. cbn [Nat.eqb]. auto.
Qed.

Lemma step_both t i j c : exists c', coeff_interp 3 t [lin_cs; const_cs] [i; j] c = Some (c', [i; 0%Z]) /\
  c' 0%nat = c 0%nat /\ c' 1%nat = (if (j =? 0)%Z then 1 + t else 5, snd (c 1%nat)) /\ c' 2%nat = c 2%nat.
Proof.
  cbn [coeff_interp]. destruct (step_lin t i c) as (c1 & -> & A0 & A1 & A2).
  destruct (step_const t j c1) as (c2 & -> & B0 & B1 & B2). exists c2. split; [reflexivity|].
  split; [congruence|]. split; [|congruence]. rewrite B1, A1. cbn [snd]. destruct (j =? 0)%Z; reflexivity.
Qed.

Lemma update_fresh t sh : exists st, update_coef 3 [lin_cs; const_cs] t
  {| ts_coef := fun _ => (0, 0); ts_time_last := None; ts_idx_last := [(-1)%Z; (-1)%Z]; ts_sh := sh |} = Some st /\
  ts_sh st = sh /\ ts_time_last st = Some t /\ ts_idx_last st = [(-1)%Z; 0%Z] /\
  ts_coef st 0%nat = (0, 0) /\ ts_coef st 1%nat = (5, 0) /\ ts_coef st 2%nat = (0, 0).
Proof.
  unfold update_coef. cbn [ts_time_last neq_last ts_idx_last ts_coef ts_sh].
  destruct (step_both t (-1) (-1) (fun _ => (0, 0))) as (c & -> & A0 & A1 & A2). eexists. split; [reflexivity|].
  cbn [ts_time_last ts_idx_last ts_coef ts_sh]. cbn [Z.eqb snd] in A1. auto 10.
Qed.

Definition temp_call t x sets mem := shevaltemp t x sets CT_GEOCENTRIC_SPHERICAL CT_GEOCENTRIC_SPHERICAL SM_GRADIENT true 1 (1, 1, 1) mem.

Lemma overlap_single t mem : exists e u,
  temp_call (nd0 t) (nd0 (0, 0, 6371.2)) overlap_sets mem = Ok ([], [(None, Some (1 * 5, e, u))]).
Proof.
  unfold temp_call, shevaltemp. cbn [length overlap_sets Nat.ltb Nat.leb]. change [lin_set 0 1 1 2 (1, 0)%Z; const_set 5 (1, 0)%Z] with overlap_sets.
  rewrite overlap_parsed. cbn [fold_left cs_degree lin_cs const_cs]. change (Z.max (Z.max 0 1) 1) with 1%Z.
  cbn [common_dims_match dims nd0 negb length Nat.leb]. cbv zeta.
  pose proof (model_init_ok true (Z.to_nat 1) CT_GEOCENTRIC_SPHERICAL CT_GEOCENTRIC_SPHERICAL 1 (1, 1, 1) mem) as I.
  pose proof (point_value_cfg0 true (Z.to_nat 1) CT_GEOCENTRIC_SPHERICAL CT_GEOCENTRIC_SPHERICAL 1 (1, 1, 1) mem SM_GRADIENT) as P.
  destruct (model_init true (Z.to_nat 1) CT_GEOCENTRIC_SPHERICAL CT_GEOCENTRIC_SPHERICAL 1 (1, 1, 1) mem) as [cfg sh]. cbn [fst] in P. destruct I as [I1 I2].
  cbn [shevaltemp_items get nd0 map]. change (nterm_of (Z.to_nat 1)) with 3%nat.
  destruct (update_fresh t sh) as (st & -> & S1 & _ & _ & C0 & C1 & C2).
  destruct (sheval_items_value cfg SM_GRADIENT [] I1 (nd0 (0, 0, 6371.2)) (scalar_array (ts_coef st)) (ts_sh st)) as [A B]; [now rewrite S1|].
  destruct (sheval_items _ _ _ _ _ _) as [out sh']. cbn [fst] in A.
  destruct (equator (ts_coef st) 5 1 C0 C1 C2) as (e & u & Eq). exists e, u. do 2 f_equal. rewrite A.
  cbn [indices map]. f_equal. rewrite P. exact Eq.
Qed.

Lemma overlap_batch mem : exists o e u,
  temp_call two_times (nd0 (0, 0, 6371.2)) overlap_sets mem = Ok ([2%nat], [o; (None, Some (1 * (1 + 1), e, u))]).
Proof.
  unfold temp_call, shevaltemp. cbn [length overlap_sets Nat.ltb Nat.leb]. change [lin_set 0 1 1 2 (1, 0)%Z; const_set 5 (1, 0)%Z] with overlap_sets.
  rewrite overlap_parsed. cbn [fold_left cs_degree lin_cs const_cs]. change (Z.max (Z.max 0 1) 1) with 1%Z.
  cbn [common_dims_match dims nd0 two_times negb length Nat.leb]. cbv zeta.
  pose proof (model_init_ok true (Z.to_nat 1) CT_GEOCENTRIC_SPHERICAL CT_GEOCENTRIC_SPHERICAL 1 (1, 1, 1) mem) as I.
  pose proof (point_value_cfg0 true (Z.to_nat 1) CT_GEOCENTRIC_SPHERICAL CT_GEOCENTRIC_SPHERICAL 1 (1, 1, 1) mem SM_GRADIENT) as P.
  destruct (model_init true (Z.to_nat 1) CT_GEOCENTRIC_SPHERICAL CT_GEOCENTRIC_SPHERICAL 1 (1, 1, 1) mem) as [cfg sh]. cbn [fst] in P. destruct I as [I1 I2].
  change (nterm_of (Z.to_nat 1)) with 3%nat. cbn [shevaltemp_items seq map tl].
  change (get (nd_item two_times 0) []) with 0. change (get (nd_item two_times 1) []) with 1.
  destruct (update_fresh 0 sh) as (st & -> & S1 & S2 & S3 & C0 & C1 & C2).
  destruct (sheval_items_value cfg SM_GRADIENT [] I1 (nd_item (nd0 (0, 0, 6371.2)) 0) (scalar_array (ts_coef st)) (ts_sh st)) as [A B]; [now rewrite S1|].
  destruct (sheval_items _ _ _ _ _ _) as [out sh']. cbn [fst snd] in A, B.
  unfold update_coef. cbn [ts_time_last ts_idx_last ts_coef ts_sh]. rewrite S2, S3.
  destruct (neq_last (Some 0) 1) eqn:En; [|apply neq_last_false in En; injection En as En; lra].
  destruct (step_both 1 (-1) 0 (ts_coef st)) as (c & -> & D0 & D1 & D2). cbn [ts_time_last ts_idx_last ts_coef ts_sh].
  destruct (sheval_items_value cfg SM_GRADIENT [] I1 (nd_item (nd0 (0, 0, 6371.2)) 1) (scalar_array c) sh') as [A' B']; [exact B|].
  destruct (sheval_items _ _ _ _ _ _) as [out' sh'']. cbn [fst snd] in A'.
  cbn [Z.eqb] in D1. rewrite C1 in D1. cbn [snd] in D1.
  destruct (equator c (1 + 1) 1 ltac:(congruence) D1 ltac:(congruence)) as (e & u & Eq).
  eexists. exists e, u. do 2 f_equal. rewrite A, A'. cbn [indices map app]. f_equal. f_equal. rewrite P. exact Eq.
Qed.

Lemma batch_refuted mem : exists sets t x odims out k ix o o',
  List.Forall usable_set sets /\ temp_call t x sets mem = Ok (odims, out) /\
  nth_error (indices odims) k = Some ix /\ nth_error out k = Some o /\
  temp_call (nd0 (at_index t ix)) (nd0 (at_index x ix)) sets mem = Ok ([], [o']) /\ o' <> o.
Proof.
  destruct (overlap_batch mem) as (o & e & u & E). destruct (overlap_single 1 mem) as (e' & u' & E').
  exists overlap_sets, two_times, (nd0 (0, 0, 6371.2)). do 2 eexists. exists 1%nat, [1%nat]. do 2 eexists.
  split; [exact overlap_usable|]. split; [exact E|]. split; [reflexivity|]. split; [reflexivity|].
  split; [exact E'|]. intro H. assert (H1 : 1 * 5 = 1 * (1 + 1)) by congruence. lra.
Qed.

(** a single time with the linear interpolation: the code reads after the end of the times *)
Lemma single_node_refuted mem : temp_call (nd0 0) (nd0 (0, 0, 6371.2)) [([0], [[1]], [(1, 0)%Z], 2%Z)] mem = Err OutOfBounds.
Proof.
  unfold temp_call, shevaltemp. cbn [length Nat.ltb Nat.leb parse_coefsets].
  change (parse_coefset ([0], [[1]], [(1, 0)%Z], 2%Z)) with
    (Some {| cs_ct := [0]; cs_rows := [(1%Z, [1])]; cs_order := 2; cs_degree := 1 |}). cbv iota beta.
  cbn [fold_left cs_degree]. change (Z.max 0 1) with 1%Z. cbn [common_dims_match dims nd0 negb length Nat.leb]. cbv zeta.
  destruct (model_init _ _ _ _ _ _ _) as [cfg sh]. cbn [shevaltemp_items get nd0 map].
  unfold update_coef. cbn [ts_time_last neq_last ts_idx_last ts_coef ts_sh coeff_interp].
  unfold coeff_set_interp. cbn [cs_order Z.eqb Pos.eqb cs_ct cs_rows]. unfold get_interp1_basis.
  destruct (bisect_any 0 [0]) as (i & -> & B). cbn [length] in B. cbv zeta. change (Z.of_nat (length [0%R]) - 2)%Z with (-1)%Z.
  assert (C : clip i 0 (-1) = 0%Z \/ clip i 0 (-1) = (-1)%Z).
  { unfold clip. destruct (Z.ltb_spec i 0); [auto|]. destruct (Z.ltb_spec (-1) i); lia. }
  destruct C as [-> | ->]; reflexivity.
Qed.

(** ** The two evaluation methods *)
Definition lin_leaf (v0 v1 c0 c1 : R) (n m : Z) (conv : option (R -> R)) : leaf_set :=
  ({| td_sparse := {| s_entries := [{| e_n := n; e_m := m; e_c := [c0; c1] |}]; s_degree := n; s_min_degree := n |};
      td_validity := (v0, v1); td_times := [v0; v1]; td_order := 2 |}, conv).

Lemma argsort_two v0 v1 : v0 < v1 -> argsort [v0; v1] = [0%nat; 1%nat].
Proof.
  intro H. unfold argsort. cbn [length seq combine sort_by insert_by fst]. 
  assert (E : leb v0 v1 = true) by (apply Rleb_le; lra). rewrite E. reflexivity.
Qed.

Lemma lin_built v0 v1 c0 c1 n m conv : v0 < v1 -> valid_nm n m -> (n < 2 ^ 24)%Z -> built_set (lin_leaf v0 v1 c0 c1 n m conv).
Proof.
  intros H V B. exists [(n, m)], [[c0; c1]], [v0; v1], 2%Z, None, None, (fun x => x), (fst (lin_leaf v0 v1 c0 c1 n m conv)).
  split. { unfold mk_time_dependent. rewrite argsort_two by exact H. reflexivity. }
  split; [reflexivity|]. split; [reflexivity|]. split; [reflexivity|]. split; [|split].
  - intros [|[|i]] a b E; try discriminate E. injection E as <- <-. auto.
  - intros [|[|i]] [|[|j]] p E1 E2; try discriminate E1; try discriminate E2; reflexivity.
  - intros _. cbn. lia.
Qed.

Definition lin_coefset (v0 v1 c0 c1 : R) (n m : Z) : coefset :=
  {| cs_ct := [v0; v1]; cs_rows := [(nm_offset (n, m), [c0; c1])]; cs_order := 2; cs_degree := Z.max 0 n |}.

Lemma lin_parsed v0 v1 c0 c1 n m conv : parse_coefset (coefficient_set (lin_leaf v0 v1 c0 c1 n m conv) (-1) (-1)) = Some (lin_coefset v0 v1 c0 c1 n m).
Proof.
  unfold coefficient_set, subset_degree, lin_leaf. cbn [fst td_sparse s_degree s_min_degree s_entries Z.ltb Z.compare].
  rewrite Z.ltb_irrefl. reflexivity.
Qed.

Lemma lin_row v0 v1 c0 c1 n m t : row_val (lin_coefset v0 v1 c0 c1 n m) t [c0; c1] = (1 - (t - v0) / (v1 - v0)) * c0 + (t - v0) / (v1 - v0) * c1.
Proof.
  unfold row_val. cbn [kind_of lin_coefset cs_order Z.eqb Pos.eqb get_interp_basis cs_ct interp_eval].
  change (kind_of (lin_coefset v0 v1 c0 c1 n m)) with INTERP_C1. cbn [get_interp_basis interp_eval].
  destruct (linear_two t v0 v1) as (b & E & H). unfold get_interp1_basis in *. rewrite E. now rewrite H.
Qed.

Lemma lin_lookup v0 v1 c0 c1 n m t a : lookup (writes (lin_coefset v0 v1 c0 c1 n m) t) a =
  if aeqb a (addr (nm_offset (n, m))) then Some ((1 - (t - v0) / (v1 - v0)) * c0 + (t - v0) / (v1 - v0) * c1) else None.
Proof. unfold writes. cbn [cs_rows lin_coefset map fst snd lookup]. rewrite lin_row. reflexivity. Qed.

Definition interpolated items x mem := eval_interpolated items true (-1) (-1) (nd0 0) (nd0 x) CT_GEOCENTRIC_SPHERICAL CT_GEOCENTRIC_SPHERICAL (1, 1, 1) mem.
Definition single items x mem := eval_single_time items true (-1) (-1) 0 (nd0 x) CT_GEOCENTRIC_SPHERICAL CT_GEOCENTRIC_SPHERICAL (1, 1, 1) mem.

Lemma both_values l1 l2 cs1 cs2 q1 q2 mem :
  built_set l1 -> built_set l2 -> td_order (fst l2) = 2%Z ->
  parse_coefset (coefficient_set l1 (-1) (-1)) = Some cs1 -> parse_coefset (coefficient_set l2 (-1) (-1)) = Some cs2 ->
  max_degree [cs1; cs2] = 1%Z ->
  (forall k c, defl (flook [cs1; cs2] (apply_convert (first_convert [l1; l2]) 0) (k, c)) = if aeqb (k, c) (1%nat, false) then q1 else 0) ->
  (forall k c, defl (lookup (writes cs1 (apply_convert (snd l1) 0)) (k, c)) + defl (lookup (writes cs2 (apply_convert (snd l2) 0)) (k, c))
     = if aeqb (k, c) (1%nat, false) then q2 else 0) ->
  (exists e u, interpolated [l1; l2] (0, 0, 6371.2) mem = Ok ([], [(None, Some (- (1) * q1, e, u))])) /\
  (exists e u, single [l1; l2] (0, 0, 6371.2) mem = Some (Ok ([], [(None, Some (- (1) * q2, e, u))]))).
Proof.
  intros B1 B2 O2 P1 P2 M H1 H2.
  assert (K : List.Forall leaf_ok [l1; l2]) by (constructor; [now apply built_ok|constructor; [now apply built_ok|constructor]]).
  destruct (leaves_res (-1) (-1) 0 [l1; l2] K) as [ps F].
  inversion F as [|? p1 ? ps1 R1 F1]; subst. inversion F1 as [|? p2 ? ps2 R2 F2]; subst. inversion F2; subst.
  assert (E1 : fst p1 = cs1) by (destruct R1; congruence). assert (E2 : fst p2 = cs2) by (destruct R2; congruence).
  split.
  - assert (N : no_stale (map (fun l => coefficient_set l (-1) (-1)) [l1; l2])).
    { intros i j a b Hij Hi Hj O. exfalso.
      destruct j as [|[|[|j]]]; cbn in Hj; try lia; try discriminate.
      - injection Hj as <-. unfold coefficient_set in O. destruct (subset_degree _ _ _). cbn [set_order] in O. lia. }
    unfold interpolated. rewrite (interpolated_value [l1; l2] true (-1) (-1) 0 (nd0 (0, 0, 6371.2)) CT_GEOCENTRIC_SPHERICAL CT_GEOCENTRIC_SPHERICAL
       1 1 1 mem [p1; p2]) by (cbn; lia || assumption).
    cbn [map dims nd0 indices]. rewrite E1, E2, M. change (at_index (nd0 (0, 0, 6371.2)) []) with (0, 0, 6371.2).
    destruct (equator (full [cs1; cs2] (apply_convert (first_convert [l1; l2]) 0)) q1 (- (1))) as (e & u & Eq);
      [unfold full; rewrite !H1; reflexivity..|]. exists e, u. do 3 f_equal. exact Eq.
  - unfold single. destruct (single_time_value [l1; l2] true (-1) (-1) 0 (nd0 (0, 0, 6371.2)) CT_GEOCENTRIC_SPHERICAL CT_GEOCENTRIC_SPHERICAL
       1 1 1 mem [p1; p2] K F) as (rows & -> & Hc).
    cbn [map dims nd0 indices]. rewrite E1, E2, M. change (at_index (nd0 (0, 0, 6371.2)) []) with (0, 0, 6371.2).
    assert (Hk : forall k c, cell (rows_coefs rows) (k, c) = if aeqb (k, c) (1%nat, false) then q2 else 0).
    { intros k c. rewrite Hc. cbn [map sum_cells fold_right]. destruct R1 as (_ & _ & _ & _ & ->). destruct R2 as (_ & _ & _ & _ & ->).
      rewrite E1, E2, <- H2. ring. }
    assert (Hr : forall k, rows_coefs rows k = (if aeqb (k, false) (1%nat, false) then q2 else 0, if aeqb (k, true) (1%nat, false) then q2 else 0)).
    { intro k. rewrite <- !Hk. unfold cell. cbn [fst snd]. now destruct (rows_coefs rows k). }
    destruct (equator (rows_coefs rows) q2 (- (1))) as (e & u & Eq); [rewrite Hr; reflexivity..|]. exists e, u. do 4 f_equal. exact Eq.
Qed.

Lemma paths_refuted mem : exists items x r r',
  List.Forall built_set items /\ (forall time, same_conversion items time) /\
  interpolated items x mem = Ok r /\ single items x mem = Some (Ok r') /\ r <> r'.
Proof.
  set (l1 := lin_leaf 0 1 1 2 1 0 None). set (l2 := lin_leaf 0 1 5 5 1 0 None).
  assert (B1 : built_set l1) by (apply lin_built; [lra|apply valid_10|lia]).
  assert (B2 : built_set l2) by (apply lin_built; [lra|apply valid_10|lia]).
  destruct (both_values l1 l2 (lin_coefset 0 1 1 2 1 0) (lin_coefset 0 1 5 5 1 0) 5 6 mem B1 B2 eq_refl
    (lin_parsed _ _ _ _ _ _ _) (lin_parsed _ _ _ _ _ _ _) eq_refl) as [(e & u & E) (e' & u' & E')].
  - intros k c. cbn [flook first_convert apply_convert l1 l2 lin_leaf]. rewrite !lin_lookup.
    change (addr (nm_offset (1, 0)%Z)) with (1%nat, false). destruct (aeqb (k, c) (1%nat, false)); cbn [defl]; [field|reflexivity].
  - intros k c. rewrite !lin_lookup. change (addr (nm_offset (1, 0)%Z)) with (1%nat, false).
    cbn [apply_convert l1 l2 lin_leaf snd]. destruct (aeqb (k, c) (1%nat, false)); cbn [defl]; [field|ring].
  - exists [l1; l2], (0, 0, 6371.2). do 2 eexists. split; [constructor; [exact B1|constructor; [exact B2|constructor]]|].
    split; [|split; [exact E|split; [exact E'|]]].
    + intros time a b [<-|[<-|[]]] [<-|[<-|[]]]; reflexivity.
    + intro Q. assert (X : - (1) * 5 = - (1) * 6) by congruence. lra.
Qed.

Lemma convert_refuted mem : exists items x r r',
  List.Forall built_set items /\ disjoint_sets items /\
  interpolated items x mem = Ok r /\ single items x mem = Some (Ok r') /\ r <> r'.
Proof.
  set (year := fun t => 2000 + t / 366).
  set (l1 := lin_leaf 2000 2001 0 1 1 1 (Some year)). set (l2 := lin_leaf 0 1 0 1 1 0 None).
  assert (B1 : built_set l1) by (apply lin_built; [lra|apply valid_11|lia]).
  assert (B2 : built_set l2) by (apply lin_built; [lra|apply valid_10|lia]).
  destruct (both_values l1 l2 (lin_coefset 2000 2001 0 1 1 1) (lin_coefset 0 1 0 1 1 0) 2000 0 mem B1 B2 eq_refl
    (lin_parsed _ _ _ _ _ _ _) (lin_parsed _ _ _ _ _ _ _) eq_refl) as [(e & u & E) (e' & u' & E')].
  - intros k c. cbn [flook first_convert apply_convert l1 l2 lin_leaf]. rewrite !lin_lookup.
    change (addr (nm_offset (1, 0)%Z)) with (1%nat, false). change (addr (nm_offset (1, 1)%Z)) with (2%nat, false). unfold year.
    destruct (aeqb (k, c) (1%nat, false)); cbn [defl]; [field|]. destruct (aeqb (k, c) (2%nat, false)); cbn [defl]; [field|reflexivity].
  - intros k c. rewrite !lin_lookup. change (addr (nm_offset (1, 0)%Z)) with (1%nat, false). change (addr (nm_offset (1, 1)%Z)) with (2%nat, false).
    cbn [apply_convert l1 l2 lin_leaf snd]. unfold year.
    destruct (aeqb (k, c) (1%nat, false)), (aeqb (k, c) (2%nat, false)); cbn [defl]; field.
  - exists [l1; l2], (0, 0, 6371.2). do 2 eexists. split; [constructor; [exact B1|constructor; [exact B2|constructor]]|].
    split; [|split; [exact E|split; [exact E'|]]].
    + intros [|[|i]] [|[|j]] a b nm Ha Hb Ia Ib; cbn in Ha, Hb; try reflexivity;
        try (destruct i; discriminate Ha); try (destruct j; discriminate Hb); exfalso;
        injection Ha as <-; injection Hb as <-; destruct Ia as [<-|[]]; destruct Ib as [X|[]]; discriminate X.
    + intro Q. assert (X : - (1) * 2000 = - (1) * 0) by congruence. lra.
Qed.

(** ** The hypotheses are satisfiable *)
Definition ex_sets : list set_args := [lin_set 0 1 (-30000) (-29990) (1, 0)%Z; const_set 5 (1, 1)%Z].
Lemma ex_sets_ok : List.Forall usable_set ex_sets /\ no_stale ex_sets /\ leading_match [2%nat] [2%nat; 3%nat].
Proof.
  split; [|split].
  - constructor; [apply lin_usable, valid_10|]. constructor; [apply const_usable, valid_11|constructor].
  - intros [|[|i]] [|[|j]] a b Hij Hi Hj O (nm & H1 & H2); cbn in Hi, Hj; try lia; try (destruct i; discriminate Hi); try (destruct j; discriminate Hj).
    injection Hi as <-. injection Hj as <-. cbn in H1, H2. destruct H1 as [<-|[]]. destruct H2 as [X|[]]. discriminate X.
  - left. exists [3%nat]. reflexivity.
Qed.

Definition ex_items : list leaf_set := [lin_leaf 0 1 (-30000) (-29990) 1 0 None; lin_leaf 0 2 5 7 1 1 None].
Lemma ex_items_ok : List.Forall built_set ex_items /\ disjoint_sets ex_items /\ forall time, same_conversion ex_items time.
Proof.
  split; [|split].
  - constructor; [apply lin_built; [lra|apply valid_10|lia]|]. constructor; [apply lin_built; [lra|apply valid_11|lia]|constructor].
  - intros [|[|i]] [|[|j]] a b nm Ha Hb Ia Ib; cbn in Ha, Hb; try reflexivity;
        try (destruct i; discriminate Ha); try (destruct j; discriminate Hb); exfalso;
        injection Ha as <-; injection Hb as <-; destruct Ia as [<-|[]]; destruct Ib as [X|[]]; discriminate X.
  - intros time a b [<-|[<-|[]]] [<-|[<-|[]]]; reflexivity.
Qed.

(** ** More than 16 sets *)
Definition many_items : list leaf_set := map (fun k => lin_leaf 0 1 1 2 (Z.of_nat k) 0 None) (seq 1 17).
Lemma many_nth i a : nth_error many_items i = Some a -> a = lin_leaf 0 1 1 2 (Z.of_nat (S i)) 0 None.
Proof.
  unfold many_items. intro H. assert (L : (i < 17)%nat).
  { assert (i < length (map (fun k => lin_leaf 0 1 1 2 (Z.of_nat k) 0 None) (seq 1 17)))%nat by (apply nth_error_Some; congruence).
    rewrite map_length, seq_length in *. assumption. }
  rewrite (map_nth_error _ i _ (d := (1 + i)%nat)) in H.
  - injection H as <-. reflexivity.
  - rewrite (nth_error_nth' _ 0%nat) by (now rewrite seq_length). f_equal. now apply seq_nth.
Qed.
Lemma many_built : List.Forall built_set many_items.
Proof.
  apply List.Forall_forall. intros l Hl. unfold many_items in Hl. apply in_map_iff in Hl as (k & <- & Hk). apply in_seq in Hk.
  apply lin_built; [lra|unfold valid_nm; lia|lia].
Qed.
Lemma too_many_refuted mem : exists items x r,
  List.Forall built_set items /\ disjoint_sets items /\ (forall time, same_conversion items time) /\
  interpolated items x mem = Err ValueError /\ single items x mem = Some (Ok r).
Proof.
  exists many_items, (0, 0, 6371.2).
  assert (K : List.Forall leaf_ok many_items) by (eapply List.Forall_impl; [|exact many_built]; apply built_ok).
  destruct (leaves_res (-1) (-1) 0 many_items K) as [ps F].
  destruct (single_time_value many_items true (-1) (-1) 0 (nd0 (0, 0, 6371.2)) CT_GEOCENTRIC_SPHERICAL CT_GEOCENTRIC_SPHERICAL
       1 1 1 mem ps K F) as (rows & E & _).
  eexists. split; [exact many_built|]. split; [|split; [|split; [|exact E]]].
  - intros i j a b nm Hi Hj Ia Ib. apply many_nth in Hi, Hj. subst a b. destruct Ia as [<-|[]]. destruct Ib as [X|[]].
    cbn [e_n e_m] in X. assert (Q : Z.of_nat (S j) = Z.of_nat (S i)) by congruence. lia.
  - intros time a b Ia Ib. apply in_map_iff in Ia as (k & <- & _). apply in_map_iff in Ib as (k' & <- & _). reflexivity.
  - reflexivity.
Qed.
