(** Proofs about the evaluation of the models for arrays in memory. *)

From Coq Require Import Bool List Reals ZArith Lia Arith.
From Verif Require Import ArrModel LegendreModel GeoModel SizeModel SizeProofs CoefModel ShEvalModel ShEvalSpec
  ShEvalProofs ShEvalLinProofs TempModel FourierModel StridedModel StridedSpec StridedProofs
  StridedEvalModel StridedEvalSpec.
Import ListNotations.
Open Scope Z_scope.

Definition item_out := (option R * option (R * R * R))%type.

(** ** The outputs of a point *)

Definition complete (mode : sheval_mode) (o : item_out) : Prop :=
  match mode with
  | SM_POTENTIAL => exists v, o = (Some v, None)
  | SM_GRADIENT => exists g, o = (None, Some g)
  | SM_POTENTIAL_AND_GRADIENT => exists v g, o = (Some v, Some g)
  end.

Lemma project_some cfg x y z clat clon crad glat g :
  input_coordinates cfg x y z = (clat, clon, crad, glat) ->
  exists g', project_gradient cfg clat clon glat g = Some g'.
Proof.
  intro H. unfold input_coordinates in H. unfold project_gradient. destruct g as [[g0 g1] g2].
  destruct (coord_out cfg) eqn:Co.
  - assert (S : exists gl, glat = Some gl).
    { destruct (coord_in cfg).
      - destruct (geodetic2geocentric_sph x y z (elps_a cfg) (elps_eps2 cfg)) as [[a b] c].
        eexists. injection H as _ _ _ <-. reflexivity.
      - destruct (geocentric_sph2geodetic z (DG2RAD * x) (DG2RAD * y) (elps_a cfg) (elps_eps2 cfg)) as [[a b] c].
        eexists. injection H as _ _ _ <-. reflexivity.
      - destruct (cart2sph x y z) as [[a b] c].
        destruct (geocentric_sph2geodetic a b c (elps_a cfg) (elps_eps2 cfg)) as [[d e] f].
        eexists. injection H as _ _ _ <-. reflexivity. }
    destruct S as (gl & ->). destruct (rot2d _ _ _ _). eauto.
  - eauto.
  - destruct (rot2d _ _ _ _). destruct (rot2d _ _ _ _). eauto.
Qed.

Lemma model_eval_complete cfg mode xyz c st : complete mode (fst (model_eval cfg mode xyz c st)).
Proof.
  destruct xyz as [[x y] z]. unfold model_eval.
  destruct (input_coordinates cfg x y z) as [[[clat clon] crad] glat] eqn:E.
  destruct (if neq_last (clat_last st) clat then _ else _) as [lp' ldp'].
  unfold shc_eval. destruct mode; cbn [complete]; cbv beta iota; cbn [fst snd].
  - eexists. reflexivity.
  - match goal with |- context [project_gradient cfg clat clon glat ?g] => set (g0 := g) end.
    destruct (project_some cfg x y z clat clon crad glat g0 E) as ([[a b] d] & ->). eexists. reflexivity.
  - destruct (shc_eval_v_dv _ _ _ _ _ _ _ _ _) as [v g0].
    destruct (project_some cfg x y z clat clon crad glat g0 E) as ([[a b] d] & ->). do 2 eexists. reflexivity.
Qed.

Lemma complete_parts mode (o : item_out) : complete mode o ->
  (if has_potential mode then exists v, fst o = Some v else fst o = None) /\
  (if has_gradient mode then exists g, snd o = Some g else snd o = None).
Proof.
  destruct mode; cbn; [intros (v & ->)|intros (v & ->)|intros (v & g & ->)]; cbn; eauto.
Qed.

(** the result depends only on the coefficients up to the degree, the buffers do not depend on them *)
Lemma model_eval_coefs cfg mode xyz c c' st : cfg_ok cfg -> state_ok cfg st ->
  (forall k, (k < nterm_of (degree cfg))%nat -> c' k = c k) ->
  model_eval cfg mode xyz c' st = model_eval cfg mode xyz c st.
Proof.
  intros Hc Hs He.
  destruct (model_eval_value cfg mode xyz c st Hc Hs) as [A _].
  destruct (model_eval_value cfg mode xyz c' st Hc Hs) as [A' _].
  assert (B : snd (model_eval cfg mode xyz c' st) = snd (model_eval cfg mode xyz c st)).
  { destruct xyz as [[x y] z]. unfold model_eval.
    destruct (input_coordinates cfg x y z) as [[[clat clon] crad] glat].
    destruct (if neq_last (clat_last st) clat then _ else _) as [lp' ldp'].
    destruct (shc_eval (degree cfg) mode clat crad c' _ lp' ldp' _ _).
    destruct (shc_eval (degree cfg) mode clat crad c _ lp' ldp' _ _). reflexivity. }
  assert (V : point_value cfg mode xyz c' = point_value cfg mode xyz c).
  { unfold point_value. destruct xyz as [[x y] z].
    destruct (input_coordinates cfg x y z) as [[[clat clon] crad] glat].
    rewrite (value_cut c c' (degree cfg) (degree cfg)); [reflexivity|lia|exact He|].
    intros k Hk. lia. }
  destruct (model_eval cfg mode xyz c' st) as [o' s']. destruct (model_eval cfg mode xyz c st) as [o s].
  cbn [fst snd] in *. congruence.
Qed.

(** ** Simulation *)

Lemma size_app ds : size (ds ++ [3%nat]) = (3 * size ds)%nat.
Proof. induction ds as [|d ds IH]; cbn [app size fold_right]; [reflexivity|]. fold (size (ds ++ [3%nat])). fold (size ds). rewrite IH. lia. Qed.

Lemma arrd_eq a b : data a = data b -> shape a = shape b -> stride a = stride b -> a = b.
Proof. destruct a, b. cbn. congruence. Qed.

Section Sim.
Variables (m0 : memory) (mode : sheval_mode) (P0 G0 : Z) (N : nat).
Let hp := has_potential mode.
Let hg := has_gradient mode.
Hypothesis Hfp : hp = true -> forall k, P0 <= k < P0 + Z.of_nat N -> m0 k = None.
Hypothesis Hfg : hg = true -> forall k, G0 <= k < G0 + 3 * Z.of_nat N -> m0 k = None.
Hypothesis Hdis : hp = true -> hg = true -> P0 + Z.of_nat N <= G0 \/ G0 + 3 * Z.of_nat N <= P0.

Definition good2 (m : memory) : Prop :=
  (forall k v, m0 k = Some v -> m k = Some v) /\
  (hp = true -> forall k, P0 <= k < P0 + Z.of_nat N -> exists v, m k = Some v) /\
  (hg = true -> forall k, G0 <= k < G0 + 3 * Z.of_nat N -> exists v, m k = Some v).

Definition in_block (j n : nat) (k : Z) : Prop :=
  (hp = true /\ P0 + Z.of_nat j <= k < P0 + Z.of_nat (j + n)) \/
  (hg = true /\ G0 + 3 * Z.of_nat j <= k < G0 + 3 * Z.of_nat (j + n)).

Definition holds (m : memory) (j : nat) (o : item_out) : Prop :=
  (hp = true -> exists v g, o = (Some v, g) /\ m (P0 + Z.of_nat j) = Some v) /\
  (hg = true -> exists v x y z, o = (v, Some (x, y, z)) /\ m (G0 + 3 * Z.of_nat j) = Some x /\
     m (G0 + 3 * Z.of_nat j + 1) = Some y /\ m (G0 + 3 * Z.of_nat j + 2) = Some z).

Lemma holds_frame m m' j o : (forall k, in_block j 1 k -> m' k = m k) -> holds m j o -> holds m' j o.
Proof.
  intros F (A & B). split.
  - intro Hp. destruct (A Hp) as (v & g & -> & E). exists v, g. split; [reflexivity|]. rewrite F; [exact E|].
    left. split; [exact Hp|lia].
  - intro Hg. destruct (B Hg) as (v & x & y & z & -> & E1 & E2 & E3). exists v, x, y, z. split; [reflexivity|].
    split; [|split]; rewrite F; try assumption; right; (split; [exact Hg|lia]).
Qed.

Definition sim {St} (Inv : St -> Prop) (n j : nat) (pm : memory * St -> result (memory * St))
  (pn : St -> option (list item_out * St)) : Prop :=
  forall m st, good2 m -> Inv st ->
  match pn st with
  | None => pm (m, st) = Err OutOfBounds
  | Some (out, st') =>
      length out = n /\ Inv st' /\ exists m', pm (m, st) = Ok (m', st') /\ good2 m' /\
        (forall k, ~ in_block j n k -> m' k = m k) /\
        forall i o, nth_error out i = Some o -> holds m' (j + i) o
  end.

(** the loop over the items of the first dimension *)
Fixpoint run {St} (pns : nat -> St -> option (list item_out * St)) (is : list nat) (st : St)
  : option (list item_out * St) :=
  match is with
  | [] => Some ([], st)
  | i :: is' =>
      match pns i st with
      | None => None
      | Some (o, st1) =>
          match run pns is' st1 with None => None | Some (os, st2) => Some (o ++ os, st2) end
      end
  end.

Lemma fold_err {A} (body : nat -> A -> result A) is e :
  fold_left (fun r i => match r with Ok s => body i s | Err e => Err e end) is (Err e) = Err e.
Proof. induction is; cbn; auto. Qed.

Lemma sim_loop {St} (Inv : St -> Prop) d n j pms (pns : nat -> St -> option (list item_out * St)) :
  (forall i, (i < d)%nat -> sim Inv n (j + i * n) (pms i) (pns i)) ->
  (j + d * n <= N)%nat -> sim Inv (d * n) j (for_st d pms) (run pns (seq 0 d)).
Proof using Hdis.
  intros H HN. unfold for_st.
  assert (G : forall k i, (i + k = d)%nat -> sim Inv (k * n) (j + i * n)
    (fun s => fold_left (fun r i => match r with Ok s => pms i s | Err e => Err e end) (seq i k) (Ok s))
    (run pns (seq i k))).
  { induction k as [|k IH]; intros i Hi m st Hm Hst; cbn [seq run fold_left].
    - cbn [length Nat.mul]. split; [reflexivity|]. split; [exact Hst|]. exists m. split; [reflexivity|]. split; [exact Hm|].
      split; [reflexivity|]. intros i' o E. destruct i'; discriminate.
    - pose proof (H i ltac:(lia) m st Hm Hst) as A.
      destruct (pns i st) as [[o st1]|]; [|rewrite A; apply fold_err].
      destruct A as (L & I1 & m1 & E1 & G1 & F1 & V1). rewrite E1.
      pose proof (IH (S i) ltac:(lia) m1 st1 G1 I1) as B.
      destruct (run pns (seq (S i) k) st1) as [[os st2]|]; [|exact B].
      destruct B as (L2 & I2 & m2 & E2 & G2 & F2 & V2).
      split; [rewrite app_length, L, L2; cbn; lia|]. split; [exact I2|]. exists m2. split; [exact E2|].
      split; [exact G2|].
      replace (j + S i * n)%nat with (j + i * n + n)%nat in * by (cbn; lia). split.
      + intros q Hq. rewrite F2, F1; [reflexivity| |].
        * intros [[Hp Hb]|[Hg Hb]]; apply Hq; [left|right]; (split; [assumption|]); cbn [Nat.mul]; lia.
        * intros [[Hp Hb]|[Hg Hb]]; apply Hq; [left|right]; (split; [assumption|]); cbn [Nat.mul]; lia.
      + intros q o' Hq. destruct (Nat.ltb_spec q (length o)) as [Lq|Lq].
        * rewrite nth_error_app1 in Hq by exact Lq.
          apply (holds_frame m1); [|now apply V1].
          intros w Hw. apply F2. intros Hw'. unfold in_block in Hw, Hw'.
          assert (Hj : (j + i * n + n + k * n <= N)%nat) by nia.
          destruct Hw as [[Hp Hb]|[Hg Hb]]; destruct Hw' as [[Hp' Hb']|[Hg' Hb']]; try lia.
          -- specialize (Hdis Hp Hg'). lia.
          -- specialize (Hdis Hp' Hg). lia.
        * rewrite nth_error_app2 in Hq by exact Lq.
          replace (j + i * n + q)%nat with (j + i * n + n + (q - length o))%nat by lia. now apply V2. }
  specialize (G d 0%nat ltac:(lia)). rewrite Nat.mul_0_l, Nat.add_0_r in G. exact G.
Qed.

Lemma load_good m addr v : good2 m -> load m0 addr = Ok v -> load m addr = Ok v.
Proof.
  intros (A & _ & _). unfold load. destruct (addr mod 8 =? 0); [|discriminate].
  destruct (m0 (addr / 8)) as [w|] eqn:E; [|discriminate]. now rewrite (A _ _ E).
Qed.

(** the outputs from the item j on *)
Definition pot_at (j : nat) (ds : list nat) : option arrd :=
  if hp then Some (out_array (8 * (P0 + Z.of_nat j)) ds) else None.
Definition grd_at (j : nat) (ds : list nat) : option arrd :=
  if hg then Some (out_array (8 * (G0 + 3 * Z.of_nat j)) (ds ++ [3%nat])) else None.

Lemma pot_item j d ds i : option_map (fun a => get_arrd_item_nocheck a i) (pot_at j (d :: ds)) = pot_at (j + i * size ds) ds.
Proof.
  unfold pot_at. destruct hp; [|reflexivity]. cbn [option_map]. f_equal. apply arrd_eq; cbn [get_arrd_item_nocheck out_array data shape stride c_strides hd tl]; try reflexivity.
  lia.
Qed.
Lemma grd_item j d ds i : option_map (fun a => get_arrd_item_nocheck a i) (grd_at j (d :: ds)) = grd_at (j + i * size ds) ds.
Proof.
  unfold grd_at. destruct hg; [|reflexivity]. cbn [option_map]. f_equal.
  apply arrd_eq; cbn [get_arrd_item_nocheck out_array data shape stride c_strides hd tl app]; try reflexivity.
  rewrite size_app. lia.
Qed.
Lemma pot_item' j d ds i : option_map (fun a => get_arrd_item a i) (pot_at j (d :: ds)) = pot_at (j + i * size ds) ds.
Proof. rewrite <- (pot_item j d ds i). unfold pot_at. destruct hp; reflexivity. Qed.
Lemma grd_item' j d ds i : option_map (fun a => get_arrd_item a i) (grd_at j (d :: ds)) = grd_at (j + i * size ds) ds.
Proof. rewrite <- (grd_item j d ds i). unfold grd_at. destruct hg; reflexivity. Qed.

(** the positions as they are read by the code *)
Definition raw_positions (x : arrd) (nx : nd (R * R * R)) : Prop :=
  (exists n, shape x = dims nx ++ [n]) /\ length (stride x) = length (shape x) /\
  forall idx, index_of (dims nx) idx ->
    load m0 (address x idx) = Ok (fst (fst (get nx idx))) /\
    load m0 (address x idx + 8) = Ok (snd (fst (get nx idx))) /\
    load m0 (address x idx + 16) = Ok (snd (get nx idx)).

(** the rows of coefficients as they are read *)
Inductive raw_coefs (K : nat) : coef_ref -> nd coefs -> Prop :=
| raw_rows a (nc : nd coefs) n1 n2 : shape a = dims nc ++ [n1; n2] -> length (stride a) = length (shape a) ->
    (forall idx k, index_of (dims nc) idx -> (k < K)%nat ->
      load m0 (address a idx + 16 * Z.of_nat k) = Ok (fst (get nc idx k)) /\
      load m0 (address a idx + 16 * Z.of_nat k + 8) = Ok (snd (get nc idx k))) ->
    raw_coefs K (Rows a) nc
| raw_workspace c (nc : nd coefs) : dims nc = [] -> get nc [] = c -> raw_coefs K (Workspace c) nc.

Lemma address_item a i idx s st : stride a = s :: st ->
  address (get_arrd_item_nocheck a i) idx = address a (i :: idx).
Proof. intro E. rewrite !address_dot. cbn [get_arrd_item_nocheck data stride]. rewrite E. cbn [hd tl]. rewrite dot_cons. lia. Qed.

Lemma raw_positions_item x nx i d ds : raw_positions x nx -> prefix (dims nx) (d :: ds) -> (i < d)%nat ->
  raw_positions (get_arrd_item_with_guard x i 1) (nd_item nx i) /\ prefix (dims (nd_item nx i)) ds.
Proof.
  intros ((n & Hs) & Hl & H) (c & Hp) Hi. unfold nd_item, get_arrd_item_with_guard.
  destruct (dims nx) as [|d' ds'] eqn:E.
  - rewrite Hs. cbn [app length Nat.leb]. split.
    + split; [exists n; now rewrite E|]. split; [exact Hl|]. now rewrite E.
    + rewrite E. exists ds. reflexivity.
  - cbn [app] in Hp. injection Hp as <- Hp.
    destruct (Nat.leb_spec (length (shape x)) 1) as [L|L].
    { rewrite Hs in L. cbn [length app] in L. rewrite app_length in L. cbn [length] in L. lia. }
    destruct (stride x) as [|s st] eqn:Es.
    { rewrite Hs in Hl. discriminate. }
    cbn [dims]. split; [|exists c; exact Hp]. split; [|split].
    + exists n. cbn [dims get_arrd_item_nocheck shape]. now rewrite Hs.
    + cbn [dims get_arrd_item_nocheck shape stride]. rewrite Hs, Es. cbn [app tl]. rewrite Hs in Hl. cbn [app length] in Hl. congruence.
    + intros idx Hidx. cbn [dims] in Hidx. rewrite (address_item x i idx s st Es). cbn [get].
      apply H. now constructor.
Qed.

Lemma raw_coefs_item K c nc i d ds : raw_coefs K c nc -> prefix (dims nc) (d :: ds) -> (i < d)%nat ->
  raw_coefs K (coef_item c i) (nd_item nc i) /\ prefix (dims (nd_item nc i)) ds.
Proof.
  intros H (c' & Hp) Hi. destruct H as [a nc n1 n2 Hs Hl H|c nc E E']; cbn [coef_item].
  - unfold nd_item, get_arrd_item_with_guard. destruct (dims nc) as [|d' ds'] eqn:E.
    + rewrite Hs. cbn [app length Nat.leb]. split.
      * apply (raw_rows K a nc n1 n2); [now rewrite E|exact Hl|now rewrite E].
      * rewrite E. exists ds. reflexivity.
    + cbn [app] in Hp. injection Hp as <- Hp.
      destruct (Nat.leb_spec (length (shape a)) 2) as [L|L].
      { rewrite Hs in L. cbn [length app] in L. rewrite app_length in L. cbn [length] in L. lia. }
      destruct (stride a) as [|s st] eqn:Es.
      { rewrite Hs in Hl. discriminate. }
      cbn [dims]. split; [|exists c'; exact Hp]. apply (raw_rows K _ _ n1 n2).
      * cbn [dims get_arrd_item_nocheck shape]. now rewrite Hs.
      * cbn [dims get_arrd_item_nocheck shape stride]. rewrite Hs, Es. cbn [app tl]. rewrite Hs in Hl. cbn [app length] in Hl. congruence.
      * intros idx k Hidx Hk. cbn [dims] in Hidx. rewrite (address_item a i idx s st Es). cbn [get].
        apply H; [now constructor|exact Hk].
  - unfold nd_item. rewrite E. split; [now constructor|]. rewrite E. exists ds. reflexivity.
Qed.

Lemma get_coefs_ok m K c nc : good2 m -> raw_coefs K c nc -> dims nc = [] ->
  exists c', get_coefs m c K = Ok c' /\ forall k, (k < K)%nat -> c' k = get nc [] k.
Proof.
  intros Gm H E. destruct H as [a nc n1 n2 Hs Hl H|c nc E1 E2]; cbn [get_coefs].
  - unfold load_coefs.
    assert (A : forall k, (k < K)%nat ->
      load m (data a + 16 * Z.of_nat k) = Ok (fst (get nc [] k)) /\ load m (data a + 16 * Z.of_nat k + 8) = Ok (snd (get nc [] k))).
    { intros k Hk. destruct (H [] k) as (A & B); [rewrite E; constructor|exact Hk|].
      rewrite address_dot, dot_nil, Z.add_0_r in A, B. split; now apply (load_good m). }
    replace (forallb _ (seq 0 K)) with true.
    + eexists. split; [reflexivity|]. intros k Hk. destruct (A k Hk) as (B1 & B2). unfold read_value. rewrite B1, B2.
      now destruct (get nc [] k).
    + symmetry. apply forallb_forall. intros k Hk. apply in_seq in Hk. destruct (A k ltac:(lia)) as (B1 & B2).
      unfold readable. now rewrite B1, B2.
  - exists c. split; [reflexivity|]. intros k _. now rewrite E2.
Qed.

Lemma prefix_nil (ds : list nat) : prefix ds [] -> ds = [].
Proof. intros (c & E). destruct ds; [reflexivity|discriminate]. Qed.

Lemma good2_set m k v : good2 m -> m0 k = None -> good2 (set m k v).
Proof.
  intros (A & B & C) Hk. split; [|split].
  - intros q w Hq. rewrite set_other; [now apply A|]. intros ->. congruence.
  - intros Hp q Hq. unfold set. destruct (q =? k); [eauto|now apply B].
  - intros Hp q Hq. unfold set. destruct (q =? k); [eauto|now apply C].
Qed.

(** the stores of an item *)
Lemma stores_ok m j o : good2 m -> (j < N)%nat -> complete mode o ->
  exists m1 m2, store_potential m (pot_at j []) (fst o) = Ok m1 /\ store_gradient m1 (grd_at j []) (snd o) = Ok m2 /\
    good2 m2 /\ (forall k, ~ in_block j 1 k -> m2 k = m k) /\ holds m2 j o.
Proof using Hfp Hfg Hdis.
  intros Gm Hj Ho.
  assert (SP : forall v, hp = true -> store_potential m (pot_at j []) (Some v) = Ok (set m (P0 + Z.of_nat j) v)
      /\ good2 (set m (P0 + Z.of_nat j) v)).
  { intros v Hp. unfold pot_at. rewrite Hp. cbn [store_potential out_array data].
    destruct Gm as (A & B & C). destruct (B Hp (P0 + Z.of_nat j) ltac:(lia)) as (w & Hw).
    split; [now apply (store_ok _ _ _ w)|]. apply good2_set; [now split|]. apply Hfp; [exact Hp|lia]. }
  assert (SG : forall m1 x y z, good2 m1 -> hg = true ->
      let b := G0 + 3 * Z.of_nat j in
      store_gradient m1 (grd_at j []) (Some (x, y, z)) = Ok (set (set (set m1 b x) (b + 1) y) (b + 2) z)
      /\ good2 (set (set (set m1 b x) (b + 1) y) (b + 2) z)).
  { intros m1 x y z G1 Hg b. unfold grd_at. rewrite Hg. cbn [store_gradient out_array data].
    assert (N0 : forall i, 0 <= i < 3 -> m0 (b + i) = None) by (intros i Hi; apply Hfg; [exact Hg|unfold b; lia]).
    assert (W : forall m2 i, good2 m2 -> 0 <= i < 3 -> exists w, m2 (b + i) = Some w).
    { intros m2 i (_ & _ & C) Hi. apply C; [exact Hg|unfold b; lia]. }
    assert (G2 : good2 (set m1 b x)).
    { apply good2_set; [exact G1|]. rewrite <- (Z.add_0_r b). apply N0. lia. }
    assert (G3 : good2 (set (set m1 b x) (b + 1) y)).
    { apply good2_set; [exact G2|]. apply N0. lia. }
    fold b. destruct (W m1 0 G1 ltac:(lia)) as (w0 & W0). rewrite Z.add_0_r in W0.
    destruct (W _ 1 G2 ltac:(lia)) as (w1 & W1). destruct (W _ 2 G3 ltac:(lia)) as (w2 & W2).
    rewrite (store_ok _ _ x w0 W0). cbn [bind].
    replace (8 * b + 8) with (8 * (b + 1)) by lia. rewrite (store_ok _ _ y w1 W1). cbn [bind].
    replace (8 * b + 16) with (8 * (b + 2)) by lia. rewrite (store_ok _ _ z w2 W2).
    split; [reflexivity|]. apply good2_set; [exact G3|]. apply N0. lia. }
  assert (HG : forall m1 x y z v, hg = true ->
      let b := G0 + 3 * Z.of_nat j in
      let m2 := set (set (set m1 b x) (b + 1) y) (b + 2) z in
      exists v' x' y' z', (v, Some (x, y, z)) = (v' : option R, Some (x', y', z')) /\ m2 b = Some x' /\ m2 (b + 1) = Some y' /\ m2 (b + 2) = Some z').
  { intros m1 x y z v Hg b m2. exists v, x, y, z. split; [reflexivity|]. unfold m2. split; [|split].
    - rewrite !set_other by lia. apply set_same.
    - rewrite set_other by lia. apply set_same.
    - apply set_same. }
  apply complete_parts in Ho. fold hp hg in Ho. destruct o as [op og]. cbn [fst snd] in *. destruct Ho as (Ho1 & Ho2).
  assert (P1 : exists m1, store_potential m (pot_at j []) op = Ok m1 /\ good2 m1 /\
    (forall k, ~ (hp = true /\ k = P0 + Z.of_nat j) -> m1 k = m k) /\
    (hp = true -> exists v, op = Some v /\ m1 (P0 + Z.of_nat j) = Some v)).
  { case_eq hp; intro Hp; rewrite Hp in Ho1.
    - destruct Ho1 as (v & ->). destruct (SP v Hp) as (E & Gs). exists (set m (P0 + Z.of_nat j) v).
      split; [exact E|]. split; [exact Gs|]. split.
      + intros k Hk. apply set_other. tauto.
      + intros _. exists v. split; [reflexivity|apply set_same].
    - subst op. exists m. unfold pot_at. rewrite Hp. split; [reflexivity|]. split; [exact Gm|]. split; [reflexivity|discriminate]. }
  destruct P1 as (m1 & E1 & G1 & F1 & V1). exists m1.
  case_eq hg; intro Hg; rewrite Hg in Ho2.
  - destruct Ho2 as ([[x y] z] & ->). destruct (SG m1 x y z G1 Hg) as (E & Gs). eexists. split; [exact E1|]. split; [exact E|].
    split; [exact Gs|]. split.
    + intros k Hk. rewrite !set_other.
      * apply F1. intros (Hp & ->). apply Hk. left. split; [exact Hp|lia].
      * intros ->. apply Hk. right. split; [exact Hg|lia].
      * intros ->. apply Hk. right. split; [exact Hg|lia].
      * intros ->. apply Hk. right. split; [exact Hg|lia].
    + split.
      * intro Hp. destruct (V1 Hp) as (v & -> & Hv). exists v, (Some (x, y, z)). split; [reflexivity|].
        specialize (Hdis Hp Hg). rewrite !set_other by lia. exact Hv.
      * intros _. exact (HG m1 x y z op Hg).
  - subst og. exists m1. unfold grd_at. rewrite Hg. split; [exact E1|]. split; [reflexivity|]. split; [exact G1|]. split.
    + intros k Hk. apply F1. intros (Hp & ->). apply Hk. left. split; [exact Hp|lia].
    + split; [|rewrite Hg; discriminate]. intro Hp. destruct (V1 Hp) as (v & -> & Hv). exists v, None. split; [reflexivity|exact Hv].
Qed.

Lemma sim_ext {St} (Inv : St -> Prop) n j pm pm' pn (pn' : St -> option (list item_out * St)) :
  (forall s, pm' s = pm s) -> (forall st, pn' st = pn st) -> sim Inv n j pm pn -> sim Inv n j pm' pn'.
Proof. intros E1 E2 H m st Hm Hst. rewrite E2, E1. now apply H. Qed.

Lemma for_st_ext {A} n (body body' : nat -> A -> result A) s :
  (forall i s, body' i s = body i s) -> for_st n body' s = for_st n body s.
Proof.
  intro E. unfold for_st. generalize (Ok s) as r. induction (seq 0 n) as [|i l IH]; intro r; [reflexivity|].
  cbn [fold_left]. rewrite IH. f_equal. destruct r; [apply E|reflexivity].
Qed.

Lemma sim_sheval cfg : cfg_ok cfg -> forall odims x nx c nc j,
  raw_positions x nx -> raw_coefs (nterm_of (degree cfg)) c nc ->
  prefix (dims nx) odims -> prefix (dims nc) odims -> (j + size odims <= N)%nat ->
  sim (state_ok cfg) (size odims) j
    (sheval_rec cfg mode odims (pot_at j odims) (grd_at j odims) x c)
    (fun st => Some (sheval_items cfg mode odims nx nc st)).
Proof using Hfp Hfg Hdis.
  intro Hc. induction odims as [|d ds IH]; intros x nx c nc j Hx Hcf Px Pc Hj.
  - intros m st Gm Hst. cbn [sheval_items sheval_rec].
    apply prefix_nil in Px. apply prefix_nil in Pc.
    destruct Hx as (_ & _ & Hx). rewrite Px in Hx. destruct (Hx [] ltac:(constructor)) as (X0 & X1 & X2).
    rewrite address_dot, dot_nil, Z.add_0_r in X0, X1, X2.
    rewrite (load_good m _ _ Gm X0), (load_good m _ _ Gm X1), (load_good m _ _ Gm X2). cbn [bind].
    destruct (get_coefs_ok m _ c nc Gm Hcf Pc) as (c' & Ec & Hc'). rewrite Ec. cbn [bind].
    replace (fst (fst (get nx [])), snd (fst (get nx [])), snd (get nx [])) with (get nx []) by (now destruct (get nx []) as [[? ?] ?]).
    rewrite (model_eval_coefs cfg mode (get nx []) (get nc []) c' st Hc Hst Hc').
    pose proof (model_eval_complete cfg mode (get nx []) (get nc []) st) as Co.
    pose proof (model_eval_value cfg mode (get nx []) (get nc []) st Hc Hst) as (_ & Hst').
    destruct (model_eval cfg mode (get nx []) (get nc []) st) as [o st']. cbn [fst snd] in Co, Hst'.
    destruct (stores_ok m j o Gm ltac:(cbn [size fold_right] in Hj; lia) Co) as (m1 & m2 & S1 & S2 & G2 & F2 & H2).
    destruct o as [op og]. cbn [fst snd] in S1, S2. rewrite S1. cbn [bind]. rewrite S2. cbn [bind].
    split; [reflexivity|]. split; [exact Hst'|]. exists m2. split; [reflexivity|]. split; [exact G2|]. split; [exact F2|].
    intros i o' Ho. destruct i as [|i]; [|destruct i; discriminate]. injection Ho as <-. now rewrite Nat.add_0_r.
  - cbn [size fold_right] in *. fold (size ds) in *.
    apply (sim_ext _ _ _
      (for_st d (fun i => sheval_rec cfg mode ds (pot_at (j + i * size ds) ds) (grd_at (j + i * size ds) ds)
                            (get_arrd_item_with_guard x i 1) (coef_item c i))) _
      (run (fun i st => Some (sheval_items cfg mode ds (nd_item nx i) (nd_item nc i) st)) (seq 0 d))).
    + intro s0. cbn [sheval_rec]. apply for_st_ext. intros i s1. now rewrite pot_item, grd_item.
    + intro st. cbn [sheval_items]. revert st. generalize (seq 0 d) as is. induction is as [|i is IHi]; intro st; [reflexivity|].
      cbn [run]. destruct (sheval_items cfg mode ds (nd_item nx i) (nd_item nc i) st) as [o st1].
      rewrite <- IHi. match goal with |- context [let '(os, st2) := ?e in _] => destruct e end. reflexivity.
    + apply sim_loop; [|exact Hj]. intros i Hi.
      destruct (raw_positions_item x nx i d ds Hx Px Hi) as (Hx' & Px').
      destruct (raw_coefs_item _ c nc i d ds Hcf Pc Hi) as (Hc' & Pc').
      apply IH; [assumption..|]. nia.
Qed.

(** numbers as they are read *)
Definition raw_numbers (t : arrd) (nt : nd R) : Prop :=
  shape t = dims nt /\ length (stride t) = length (shape t) /\
  forall idx, index_of (dims nt) idx -> load m0 (address t idx) = Ok (get nt idx).

Lemma raw_numbers_item t nt i d ds : raw_numbers t nt -> prefix (dims nt) (d :: ds) -> (i < d)%nat ->
  raw_numbers (get_arrd_item t i) (nd_item nt i) /\ prefix (dims (nd_item nt i)) ds.
Proof.
  intros (Hs & Hl & H) (c & Hp) Hi. unfold nd_item, get_arrd_item, get_arrd_item_with_guard.
  destruct (dims nt) as [|d' ds'] eqn:E.
  - rewrite Hs. cbn [length Nat.leb]. split.
    + split; [now rewrite E|]. split; [exact Hl|]. now rewrite E.
    + rewrite E. exists ds. reflexivity.
  - cbn [app] in Hp. injection Hp as <- Hp. rewrite Hs. cbn [length Nat.leb].
    destruct (stride t) as [|s st] eqn:Es.
    { rewrite Hs in Hl. discriminate. }
    cbn [dims]. split; [|exists c; exact Hp]. split; [|split].
    + cbn [dims get_arrd_item_nocheck shape]. now rewrite Hs.
    + cbn [get_arrd_item_nocheck shape stride]. rewrite Hs, Es. cbn [tl]. rewrite Hs in Hl. cbn [length] in Hl. congruence.
    + intros idx Hidx. cbn [dims] in Hidx. rewrite (address_item t i idx s st Es). cbn [get].
      apply H. now constructor.
Qed.

Lemma raw_numbers_load m t nt : good2 m -> raw_numbers t nt -> dims nt = [] -> load m (data t) = Ok (get nt []).
Proof.
  intros Gm (_ & _ & H) E. rewrite E in H. apply (load_good m _ _ Gm).
  specialize (H [] ltac:(constructor)). now rewrite address_dot, dot_nil, Z.add_0_r in H.
Qed.

Lemma prefix_cons_inv d (ds os : list nat) : prefix (d :: ds) os -> exists os', os = d :: os' /\ prefix ds os'.
Proof. intros (c & ->). exists (ds ++ c). split; [reflexivity|]. exists c. reflexivity. Qed.

Lemma sim_shevaltemp cfg nterm css : cfg_ok cfg -> forall tdims odims t nt x nx j,
  dims nt = tdims -> raw_numbers t nt -> raw_positions x nx -> prefix tdims odims -> prefix (dims nx) odims ->
  (j + size odims <= N)%nat ->
  sim (fun st => state_ok cfg (ts_sh st)) (size odims) j
    (shevaltemp_rec cfg nterm css mode tdims odims (pot_at j odims) (grd_at j odims) t x)
    (shevaltemp_items cfg nterm css mode tdims odims nt nx).
Proof using Hfp Hfg Hdis.
  intro Hc. induction tdims as [|d ds IH]; intros odims t nt x nx j Et Ht Hx Pt Px Hj.
  - intros m st Gm Hst. cbn [shevaltemp_items shevaltemp_rec].
    rewrite (raw_numbers_load m t nt Gm Ht Et). cbn [bind].
    destruct (update_coef nterm css (get nt []) st) as [st1|] eqn:U; [|reflexivity].
    assert (Esh : ts_sh st1 = ts_sh st).
    { unfold update_coef in U. destruct (neq_last _ _); [|now injection U as <-].
      destruct (coeff_interp _ _ _ _ _) as [[? ?]|]; [|discriminate]. now injection U as <-. }
    rewrite Esh.
    pose proof (sim_sheval cfg Hc odims x nx (Workspace (ts_coef st1)) (scalar_array (ts_coef st1)) j Hx
      (raw_workspace _ _ (scalar_array (ts_coef st1)) eq_refl eq_refl) Px ltac:(exists odims; reflexivity) Hj m (ts_sh st) Gm Hst) as A.
    cbv beta iota in A. destruct (sheval_items cfg mode odims nx (scalar_array (ts_coef st1)) (ts_sh st)) as [out sh].
    destruct A as (L & I1 & m' & E & A). rewrite E. cbn [bind]. split; [exact L|]. split; [exact I1|].
    exists m'. split; [reflexivity|exact A].
  - apply prefix_cons_inv in Pt. destruct Pt as (os & -> & Pt).
    cbn [size fold_right] in *. fold (size os) in *.
    apply (sim_ext _ _ _
      (for_st d (fun i => shevaltemp_rec cfg nterm css mode ds os (pot_at (j + i * size os) os) (grd_at (j + i * size os) os)
                            (get_arrd_item t i) (get_arrd_item_with_guard x i 1))) _
      (run (fun i => shevaltemp_items cfg nterm css mode ds os (nd_item nt i) (nd_item nx i)) (seq 0 d))).
    + intro s0. cbn [shevaltemp_rec tl]. apply for_st_ext. intros i s1. now rewrite pot_item', grd_item'.
    + intro st. cbn [shevaltemp_items tl]. revert st. generalize (seq 0 d) as is. induction is as [|i is IHi]; intro st; [reflexivity|].
      cbn [run]. destruct (shevaltemp_items cfg nterm css mode ds os (nd_item nt i) (nd_item nx i) st) as [[o st1]|]; [|reflexivity].
      rewrite <- IHi. reflexivity.
    + apply sim_loop; [|exact Hj]. intros i Hi.
      destruct (raw_positions_item x nx i d os Hx Px Hi) as (Hx' & Px').
      destruct (raw_numbers_item t nt i d ds Ht ltac:(exists []; now rewrite app_nil_r) Hi) as (Ht' & _).
      apply IH; try assumption; [|nia]. unfold nd_item. now rewrite Et.
Qed.

Lemma sim_sheval2dfs cfg nterm rows : cfg_ok cfg -> forall fuel odims t1 nt1 t2 nt2 x nx j,
  fuel = Nat.max (length (dims nt1)) (length (dims nt2)) ->
  raw_numbers t1 nt1 -> raw_numbers t2 nt2 -> raw_positions x nx ->
  prefix (dims nt1) odims -> prefix (dims nt2) odims -> prefix (dims nx) odims ->
  (j + size odims <= N)%nat ->
  sim (fun st => state_ok cfg (fst_sh st)) (size odims) j
    (sheval2dfs_rec cfg nterm rows mode fuel odims (pot_at j odims) (grd_at j odims) t1 t2 x)
    (sheval2dfs_items cfg nterm rows mode fuel odims nt1 nt2 nx).
Proof using Hfp Hfg Hdis.
  intro Hc. induction fuel as [|fuel IH]; intros odims t1 nt1 t2 nt2 x nx j Ef Ht1 Ht2 Hx P1 P2 Px Hj.
  - assert (E1 : dims nt1 = []) by (apply length_zero_iff_nil; lia).
    assert (E2 : dims nt2 = []) by (apply length_zero_iff_nil; lia).
    intros m st Gm Hst. cbn [sheval2dfs_items sheval2dfs_rec].
    rewrite (proj1 Ht1), (proj1 Ht2), E1, E2.
    rewrite (raw_numbers_load m t1 nt1 Gm Ht1 E1), (raw_numbers_load m t2 nt2 Gm Ht2 E2). cbn [bind].
    destruct (fs_update nterm rows (get nt1 []) (get nt2 []) st) as [st1|] eqn:U; [|reflexivity].
    assert (Esh : fst_sh st1 = fst_sh st).
    { unfold fs_update in U. destruct (_ || _); [|now injection U as <-].
      destruct (fourier2d_cossin _ _ _) as [?|]; [|discriminate]. destruct (fs_write_rows _ _ _ _); [|discriminate]. now injection U as <-. }
    rewrite Esh.
    pose proof (sim_sheval cfg Hc odims x nx (Workspace (fst_coef st1)) (scalar_array (fst_coef st1)) j Hx
      (raw_workspace _ _ (scalar_array (fst_coef st1)) eq_refl eq_refl) Px ltac:(exists odims; reflexivity) Hj m (fst_sh st) Gm Hst) as A.
    cbv beta iota in A. destruct (sheval_items cfg mode odims nx (scalar_array (fst_coef st1)) (fst_sh st)) as [out sh].
    destruct A as (L & I1 & m' & E & A). rewrite E. cbn [bind]. split; [exact L|]. split; [exact I1|].
    exists m'. split; [reflexivity|exact A].
  - assert (D : exists d os, odims = d :: os /\
      match dims nt1, dims nt2 with d :: _, _ => Some d | [], d :: _ => Some d | [], [] => None end = Some d).
    { clear - Ef P1 P2. destruct (dims nt1) as [|d1 ds1].
      - destruct (dims nt2) as [|d2 ds2]; [cbn in Ef; lia|]. apply prefix_cons_inv in P2. destruct P2 as (os & -> & _). eauto.
      - apply prefix_cons_inv in P1. destruct P1 as (os & -> & _). eauto. }
    destruct D as (d & os & -> & Ed).
    cbn [size fold_right] in *. fold (size os) in *.
    apply (sim_ext _ _ _
      (for_st d (fun i => sheval2dfs_rec cfg nterm rows mode fuel os (pot_at (j + i * size os) os) (grd_at (j + i * size os) os)
                            (get_arrd_item t1 i) (get_arrd_item t2 i) (get_arrd_item_with_guard x i 1))) _
      (run (fun i => sheval2dfs_items cfg nterm rows mode fuel os (nd_item nt1 i) (nd_item nt2 i) (nd_item nx i)) (seq 0 d))).
    + intro s0. cbn [sheval2dfs_rec tl]. rewrite (proj1 Ht1), (proj1 Ht2), Ed.
      apply for_st_ext. intros i s1. now rewrite pot_item', grd_item'.
    + intro st. cbn [sheval2dfs_items tl]. rewrite Ed. revert st. generalize (seq 0 d) as is. induction is as [|i is IHi]; intro st; [reflexivity|].
      cbn [run]. destruct (sheval2dfs_items cfg nterm rows mode fuel os (nd_item nt1 i) (nd_item nt2 i) (nd_item nx i) st) as [[o st1]|]; [|reflexivity].
      rewrite <- IHi. reflexivity.
    + apply sim_loop; [|exact Hj]. intros i Hi.
      destruct (raw_positions_item x nx i d os Hx Px Hi) as (Hx' & Px').
      destruct (raw_numbers_item t1 nt1 i d os Ht1 P1 Hi) as (Ht1' & P1').
      destruct (raw_numbers_item t2 nt2 i d os Ht2 P2 Hi) as (Ht2' & P2').
      apply IH; try assumption; [|nia]. unfold nd_item.
      destruct (dims nt1) as [|? ?] eqn:E1, (dims nt2) as [|? ?] eqn:E2; cbn [dims length] in *; rewrite ?E1, ?E2; cbn [length] in *; lia.
Qed.
End Sim.

(** ** The order of the items *)

Lemma nth_error_flat {A} (f : nat -> list A) n : forall l k x, (forall i, In i l -> length (f i) = n) ->
  nth_error (flat_map f l) k = Some x ->
  exists q i r, nth_error l q = Some i /\ nth_error (f i) r = Some x /\ (k = q * n + r)%nat /\ (r < n)%nat.
Proof.
  induction l as [|i l IH]; intros k x Hn H; [destruct k; discriminate|].
  cbn [flat_map] in H. pose proof (Hn i ltac:(now left)) as L.
  destruct (Nat.ltb_spec k (length (f i))) as [B|B].
  - rewrite nth_error_app1 in H by exact B. exists 0%nat, i, k. split; [reflexivity|]. split; [exact H|]. lia.
  - rewrite nth_error_app2 in H by exact B.
    destruct (IH _ _ ltac:(intros; apply Hn; now right) H) as (q & i' & r & A1 & A2 & A3 & A4).
    exists (S q), i', r. split; [exact A1|]. split; [exact A2|]. split; [|exact A4]. cbn [Nat.mul]. lia.
Qed.

Lemma indices_length : forall ds, length (indices ds) = size ds.
Proof.
  induction ds as [|d ds IH]; [reflexivity|]. cbn [indices size fold_right]. fold (size ds).
  rewrite <- (seq_length d 0) at 2. induction (seq 0 d) as [|i l IHl]; [reflexivity|].
  cbn [flat_map length Nat.mul]. rewrite app_length, map_length, IH, IHl. reflexivity.
Qed.

Lemma nth_seq : forall d a q i, nth_error (seq a d) q = Some i -> i = (a + q)%nat /\ (q < d)%nat.
Proof.
  induction d as [|d IH]; intros a [|q] i H; try discriminate; cbn in H.
  - injection H as <-. lia.
  - apply IH in H. lia.
Qed.

Lemma indices_linear : forall ds k idx, nth_error (indices ds) k = Some idx ->
  index_of ds idx /\ linear ds idx = k.
Proof.
  induction ds as [|d ds IH]; intros k idx H.
  - destruct k as [|k]; [|destruct k; discriminate]. injection H as <-. split; [constructor|reflexivity].
  - cbn [indices] in H. apply (nth_error_flat _ (size ds)) in H.
    + destruct H as (q & i & r & A1 & A2 & A3 & A4). apply nth_seq in A1. destruct A1 as (-> & Hq).
      rewrite nth_error_map in A2. destruct (nth_error (indices ds) r) as [idx'|] eqn:E; [|discriminate].
      injection A2 as <-. destruct (IH r idx' E) as (B1 & B2). split; [now constructor|].
      cbn [linear]. rewrite B2, A3. lia.
    + intros i _. now rewrite map_length, indices_length.
Qed.

Lemma linear_app : forall ds idx i, index_of ds idx -> linear (ds ++ [3%nat]) (idx ++ [i]) = (3 * linear ds idx + i)%nat.
Proof.
  induction ds as [|d ds IH]; intros idx i H; inversion H as [|i' ? l ? Hi Hl]; subst; cbn [app linear].
  - cbn [size fold_right]. lia.
  - rewrite IH by assumption. rewrite size_app. lia.
Qed.

(** ** The new arrays *)

Lemma room_facts m bp bg mode odims : room m bp bg mode odims ->
  (has_potential mode = true -> free_at m bp (size odims)) /\
  (has_gradient mode = true -> free_at m bg (3 * size odims)) /\
  (has_potential mode = true -> has_gradient mode = true ->
     bp / 8 + Z.of_nat (size odims) <= bg / 8 \/ bg / 8 + 3 * Z.of_nat (size odims) <= bp / 8).
Proof.
  unfold room. destruct mode; cbn [has_potential has_gradient]; intro H; (split; [|split]); try discriminate; intros _; try discriminate;
    try exact H; try apply H.
  intros _. apply H.
Qed.

Lemma new_outputs_ok m bp bg junk mode odims : room m bp bg mode odims ->
  let '(m1, pot, grd) := new_outputs m bp bg junk mode odims in
  good2 m mode (bp / 8) (bg / 8) (size odims) m1 /\
  pot = pot_at mode (bp / 8) 0 odims /\ grd = grd_at mode (bg / 8) 0 odims.
Proof.
  intro Hr. apply room_facts in Hr. destruct Hr as (Fp & Fg & Hd).
  assert (B8 : forall b, b mod 8 = 0 -> 8 * (b / 8 + 0) = b).
  { intros b H. pose proof (Z.div_mod b 8). lia. }
  unfold new_outputs, pot_at, grd_at.
  assert (Gp : forall (m' : memory) n b, free_at m b n -> (forall k v, m k = Some v -> m' k = Some v) ->
     forall k v, m k = Some v -> (if (b / 8 <=? k) && (k <? b / 8 + Z.of_nat n) then Some (junk k) else m' k) = Some v).
  { intros m' n b (_ & Hf) Hm k v Hk. destruct (Z.leb_spec (b / 8) k); cbn [andb]; [|now apply Hm].
    destruct (Z.ltb_spec k (b / 8 + Z.of_nat n)); [|now apply Hm]. rewrite Hf in Hk by lia. discriminate. }
  assert (Al : forall (m' : memory) n b k, b / 8 <= k < b / 8 + Z.of_nat n ->
     (if (b / 8 <=? k) && (k <? b / 8 + Z.of_nat n) then Some (junk k) else m' k) = Some (junk k)).
  { intros m' n b k Hk. destruct (Z.leb_spec (b / 8) k); [|lia]. destruct (Z.ltb_spec k (b / 8 + Z.of_nat n)); [reflexivity|lia]. }
  assert (Sg : Z.of_nat (size (odims ++ [3%nat])) = 3 * Z.of_nat (size odims)) by (rewrite size_app; lia).
  assert (Id : forall k v, m k = Some v -> m k = Some v) by auto.
  destruct mode; cbn [has_potential has_gradient] in *; unfold new_array.
  - specialize (Fp eq_refl). split; [|split; [|reflexivity]].
    + split; [|split; [|discriminate]].
      * intros k v. now apply Gp.
      * intros _ k Hk. rewrite Al by assumption. eauto.
    + f_equal. apply arrd_eq; cbn [data shape stride out_array]; try reflexivity. symmetry. apply B8, Fp.
  - specialize (Fg eq_refl). split; [|split; [reflexivity|]].
    + split; [|split; [discriminate|]].
      * intros k v. apply Gp; [|exact Id]. now rewrite size_app.
      * intros _ k Hk. rewrite Al by lia. eauto.
    + f_equal. apply arrd_eq; cbn [data shape stride out_array]; try reflexivity. symmetry. rewrite Z.mul_0_r. apply B8, Fg.
  - specialize (Fp eq_refl). specialize (Fg eq_refl). specialize (Hd eq_refl eq_refl). split; [|split].
    + split; [|split].
      * intros k v. refine (Gp (fun k => if (bp / 8 <=? k) && (k <? bp / 8 + Z.of_nat (size odims)) then Some (junk k) else m k)
                             (size (odims ++ [3%nat])) bg _ _ k v); [now rewrite size_app|]. intros k' v'. now apply Gp.
      * intros _ k Hk. destruct ((bg / 8 <=? k) && _); [eauto|]. rewrite Al by assumption. eauto.
      * intros _ k Hk. destruct (Z.leb_spec (bg / 8) k); [|lia]. destruct (Z.ltb_spec k (bg / 8 + Z.of_nat (size (odims ++ [3%nat])))); [|lia]. cbn [andb]. eauto.
    + f_equal. apply arrd_eq; cbn [data shape stride out_array]; try reflexivity. symmetry. apply B8, Fp.
    + f_equal. apply arrd_eq; cbn [data shape stride out_array]; try reflexivity. symmetry. rewrite Z.mul_0_r. apply B8, Fg.
Qed.

Section Finish.
Variables (m : memory) (bp bg : Z) (mode : sheval_mode) (odims : list nat).
Hypothesis Hroom : room m bp bg mode odims.
Let P0 := bp / 8.
Let G0 := bg / 8.
Let N := size odims.
Let good := good2 m mode P0 G0 N.

Lemma fin_pot m' out : good m' -> length out = N ->
  (forall i o, nth_error out i = Some o -> holds mode P0 G0 m' i o) -> has_potential mode = true ->
  potentials m m' odims out (pot_at mode P0 0 odims).
Proof using Hroom.
  intros (A & B & _) L H Hp. specialize (B Hp). destruct (room_facts _ _ _ _ _ Hroom) as (F & _ & _). specialize (F Hp).
  destruct F as (F8 & F). fold P0 in F.
  unfold pot_at. rewrite Hp. exists (out_array (8 * (P0 + Z.of_nat 0)) odims).
  assert (M8 : (8 * (P0 + Z.of_nat 0)) mod 8 = 0) by apply mod_8.
  assert (C : forall idx, cell (8 * (P0 + Z.of_nat 0)) odims idx = P0 + Z.of_nat (linear odims idx)).
  { intro idx. unfold cell. rewrite div_8. lia. }
  split; [reflexivity|]. split; [reflexivity|]. split; [split; [|split]|].
  - split; [apply c_strides_length|]. intros idx Hi. cbn in Hi. rewrite out_element, C by assumption. apply B.
    pose proof (linear_bound _ _ Hi). subst N; lia.
  - intros idx Hi. cbn in Hi. rewrite out_element, C by assumption. apply F.
    pose proof (linear_bound _ _ Hi). lia.
  - exact A.
  - intros k idx Hk. apply indices_linear in Hk. destruct Hk as (Hi & Hk).
    rewrite out_element, C by assumption. rewrite Hk.
    assert (Hlt : (k < length out)%nat) by (rewrite L, <- Hk; now apply linear_bound).
    destruct (nth_error out k) as [o|] eqn:E; [|apply nth_error_None in E; lia].
    destruct (proj1 (H k o E) Hp) as (v & g & -> & Hv). exists v, g. auto.
Qed.

Lemma fin_grd m' out : good m' -> length out = N ->
  (forall i o, nth_error out i = Some o -> holds mode P0 G0 m' i o) -> has_gradient mode = true ->
  gradients m m' odims out (grd_at mode G0 0 odims).
Proof using Hroom.
  intros (A & _ & B) L H Hg. specialize (B Hg). destruct (room_facts _ _ _ _ _ Hroom) as (_ & F & _). specialize (F Hg).
  destruct F as (F8 & F). fold G0 in F.
  unfold grd_at. rewrite Hg. exists (out_array (8 * (G0 + 3 * Z.of_nat 0)) (odims ++ [3%nat])).
  assert (M8 : (8 * (G0 + 3 * Z.of_nat 0)) mod 8 = 0) by apply mod_8.
  assert (C : forall idx, cell (8 * (G0 + 3 * Z.of_nat 0)) (odims ++ [3%nat]) idx = G0 + Z.of_nat (linear (odims ++ [3%nat]) idx)).
  { intro idx. unfold cell. rewrite div_8. lia. }
  split; [reflexivity|]. split; [reflexivity|]. split; [split; [|split]|].
  - split; [apply c_strides_length|]. intros idx Hi. cbn in Hi. rewrite out_element, C by assumption. apply B.
    pose proof (linear_bound _ _ Hi) as Hb. rewrite size_app in Hb. subst N; lia.
  - intros idx Hi. cbn in Hi. rewrite out_element, C by assumption. apply F.
    pose proof (linear_bound _ _ Hi) as Hb. rewrite size_app in Hb. lia.
  - exact A.
  - intros k idx Hk. apply indices_linear in Hk. destruct Hk as (Hi & Hk).
    assert (Hlt : (k < length out)%nat) by (rewrite L, <- Hk; now apply linear_bound).
    destruct (nth_error out k) as [o|] eqn:E; [|apply nth_error_None in E; lia].
    destruct (proj2 (H k o E) Hg) as (v & x & y & z & -> & Hx & Hy & Hz). exists v, (x, y, z). split; [exact E|].
    assert (Q : forall i, (i < 3)%nat -> element m' (out_array (8 * (G0 + 3 * Z.of_nat 0)) (odims ++ [3%nat])) (idx ++ [i])
                  = m' (G0 + 3 * Z.of_nat k + Z.of_nat i)).
    { intros i Hi3. rewrite out_element, C, linear_app, Hk; [f_equal; lia|exact Hi|exact M8|now apply index_app]. }
    unfold vector. rewrite !Q by lia. change (Z.of_nat 0) with 0. rewrite Z.add_0_r, Hx.
    change (Z.of_nat 1) with 1. change (Z.of_nat 2) with 2. now rewrite Hy, Hz.
Qed.

Lemma finish {St} (Inv : St -> Prop) pm (pn : St -> option (list item_out * St)) m1 st :
  sim m mode P0 G0 N Inv N 0 pm pn -> good m1 -> Inv st ->
  match pn st with
  | None => pm (m1, st) = Err OutOfBounds
  | Some (out, _) => exists m' st', pm (m1, st) = Ok (m', st') /\
      outputs mode m m' odims out (pot_at mode P0 0 odims) (grd_at mode G0 0 odims)
  end.
Proof using Hroom.
  intros S G1 I1. specialize (S m1 st G1 I1). destruct (pn st) as [[out st']|]; [|exact S].
  destruct S as (L & _ & m' & E & G' & _ & V). exists m', st'. split; [exact E|].
  pose proof (fin_pot m' out G' L V) as Q1. pose proof (fin_grd m' out G' L V) as Q2.
  clear - Q1 Q2. unfold outputs, pot_at, grd_at in *. destruct mode; cbn [has_potential has_gradient] in *.
  - split; [now apply Q1|reflexivity].
  - split; [reflexivity|now apply Q2].
  - split; [now apply Q1|now apply Q2].
Qed.
End Finish.
