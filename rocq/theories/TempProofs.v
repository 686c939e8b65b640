(** The coefficients used by shevaltemp do not depend on the preceding times. *)

From Coq Require Import Bool List Reals Arith ZArith Lra Lia FunctionalExtensionality.
From Verif Require Import Ord ROrd BisectModel BisectSpec BisectProofs InterpModel InterpSpec InterpProofs
  ArrModel LegendreModel GeoModel SizeModel CoefModel SparseModel SparseSpec SparseProofs SeriesModel
  ShEvalModel ShEvalSpec ShEvalProofs TempModel TempSpec.
Import ListNotations.

(** ** Cells *)
Definition addr (off : Z) : nat * bool := (Z.to_nat (Z.abs off), (off <? 0)%Z).
Definition cell (c : coefs) (a : nat * bool) : R := if snd a then snd (c (fst a)) else fst (c (fst a)).
Definition aeqb (a b : nat * bool) : bool := Nat.eqb (fst a) (fst b) && Bool.eqb (snd a) (snd b).

Lemma aeqb_spec a b : reflect (a = b) (aeqb a b).
Proof.
  destruct a as [k x], b as [l y]. unfold aeqb. cbn [fst snd].
  destruct (Nat.eqb_spec k l) as [->|N]; cbn [andb]; [|right; congruence].
  destruct (Bool.eqb_spec x y) as [->|N]; [left; reflexivity|right; congruence].
Qed.

Lemma cells_eq (c d : coefs) : (forall a, cell c a = cell d a) -> c = d.
Proof.
  intro H. apply functional_extensionality. intro k.
  pose proof (H (k, false)) as H1. pose proof (H (k, true)) as H2. unfold cell in *. cbn [fst snd] in *.
  destruct (c k), (d k). cbn [fst snd] in *. congruence.
Qed.

Fixpoint lookup (ws : list ((nat * bool) * R)) (a : nat * bool) : option R :=
  match ws with
  | [] => None
  | (b, v) :: ws' =>
      match lookup ws' a with Some w => Some w | None => if aeqb a b then Some v else None end
  end.

Lemma lookup_none ws a : lookup ws a = None <-> ~ In a (map fst ws).
Proof.
  induction ws as [|[b v] ws IH]; cbn [lookup map fst]; [split; [intros _ []|reflexivity]|].
  destruct (lookup ws a) as [w|].
  - split; [discriminate|]. intro N. exfalso. assert (Some w = None) by (apply IH; intro I; apply N; right; exact I). discriminate.
  - destruct (aeqb_spec a b) as [->|N].
    + split; [discriminate|]. intro H. exfalso. apply H. left. reflexivity.
    + split; [|reflexivity]. intros _ [E|I]; [congruence|]. now apply (proj1 IH eq_refl).
Qed.

Lemma lookup_addr ws ws' a : map fst ws = map fst ws' -> (lookup ws a = None <-> lookup ws' a = None).
Proof. intro E. now rewrite !lookup_none, E. Qed.

Lemma write_coef_cell nterm c off v c' a : write_coef nterm c off v = Some c' ->
  cell c' a = if aeqb a (addr off) then v else cell c a.
Proof.
  unfold write_coef. destruct (Nat.ltb _ _); [|discriminate]. intro E. injection E as <-.
  unfold aeqb, addr, cell. cbn [fst snd]. destruct a as [k b]. cbn [fst snd].
  destruct (Nat.eqb_spec k (Z.to_nat (Z.abs off))) as [->|N]; cbn [andb]; [|reflexivity].
  destruct b, (off <? 0)%Z; cbn [Bool.eqb fst snd]; reflexivity.
Qed.

(** ** One set *)
Definition kind_of (cs : coefset) : interp_kind := if (cs_order cs =? 1)%Z then INTERP_C0 else INTERP_C1.

Definition set_ok (nterm : nat) (cs : coefset) : Prop :=
  (cs_order cs = 1%Z /\ (1 <= length (cs_ct cs))%nat \/ cs_order cs = 2%Z /\ (2 <= length (cs_ct cs))%nat) /\
  (forall off cv, In (off, cv) (cs_rows cs) -> length cv = length (cs_ct cs) /\ (Z.to_nat (Z.abs off) < nterm)%nat).

Lemma basis_ok nterm cs t : set_ok nterm cs -> exists b, get_interp_basis (kind_of cs) (Some t) (cs_ct cs) = Some b /\
  (0 <= b_i b)%Z /\
  forall cv, length cv = length (cs_ct cs) -> exists v, interp_eval (kind_of cs) b cv = Some (Some v).
Proof.
  intros [O _]. unfold kind_of. destruct (bisect_right_total (Some t) (cs_ct cs)) as (i & E & B).
  destruct O as [[O L]|[O L]]; rewrite O; cbn [Z.eqb Pos.eqb get_interp_basis interp_eval].
  - unfold get_interp0_basis. rewrite E. eexists. split; [reflexivity|]. cbn [b_i].
    pose proof (clip_bounds i 0 (Z.of_nat (length (cs_ct cs)) - 1) ltac:(lia)) as C. split; [lia|].
    intros cv Lc. unfold interp0_eval. cbn [b_i].
    destruct (aread_some cv (clip i 0 (Z.of_nat (length (cs_ct cs)) - 1))) as [v ->]; [lia|]. eauto.
  - unfold get_interp1_basis. rewrite E.
    pose proof (clip_bounds i 0 (Z.of_nat (length (cs_ct cs)) - 2) ltac:(lia)) as C.
    set (k := clip i 0 (Z.of_nat (length (cs_ct cs)) - 2)) in *.
    destruct (aread_some (cs_ct cs) k) as [v0 ->]; [lia|].
    destruct (aread_some (cs_ct cs) (k + 1)) as [v1 ->]; [lia|].
    eexists. split; [reflexivity|]. cbn [b_i]. split; [lia|]. intros cv Lc. unfold interp1_eval. cbn [b_i b_0 b_1].
    destruct (aread_some cv k) as [w0 ->]; [lia|]. destruct (aread_some cv (k + 1)) as [w1 ->]; [lia|].
    cbn [nmap nmap2]. eauto.
Qed.

(** the value of a coefficient, its index and the writes of the set *)
Definition row_val (cs : coefset) (t : R) (cv : list R) : R :=
  match get_interp_basis (kind_of cs) (Some t) (cs_ct cs) with
  | Some b => match interp_eval (kind_of cs) b cv with Some (Some v) => v | _ => 0%R end
  | None => 0%R
  end.
Definition set_idx (cs : coefset) (t : R) : Z :=
  match get_interp_basis (kind_of cs) (Some t) (cs_ct cs) with Some b => b_i b | None => 0%Z end.
Definition writes (cs : coefset) (t : R) : list ((nat * bool) * R) :=
  map (fun r => (addr (fst r), row_val cs t (snd r))) (cs_rows cs).

Lemma writes_addr cs t t' : map fst (writes cs t) = map fst (writes cs t').
Proof. unfold writes. rewrite !map_map. reflexivity. Qed.

Lemma writes_idx cs t t' : cs_order cs = 1%Z -> set_idx cs t = set_idx cs t' -> writes cs t = writes cs t'.
Proof.
  intros O H. unfold writes. apply map_ext. intro r. f_equal. unfold row_val, set_idx, kind_of in *. rewrite O in *.
  cbn [Z.eqb Pos.eqb get_interp_basis interp_eval] in *. unfold get_interp0_basis in *.
  destruct (bisect_right_total (Some t) (cs_ct cs)) as (i & E & _).
  destruct (bisect_right_total (Some t') (cs_ct cs)) as (j & E' & _). rewrite E, E' in *. cbn [b_i] in H.
  unfold interp0_eval. cbn [b_i]. now rewrite H.
Qed.

Lemma write_rows_ok nterm ev val rows : forall c,
  (forall off cv, In (off, cv) rows -> ev cv = Some (Some (val cv)) /\ (Z.to_nat (Z.abs off) < nterm)%nat) ->
  exists c', write_rows nterm ev rows c = Some c' /\
    forall a, cell c' a = match lookup (map (fun r => (addr (fst r), val (snd r))) rows) a with
                          | Some v => v | None => cell c a end.
Proof.
  induction rows as [|[off cv] rows IH]; intros c H; cbn [write_rows map lookup].
  - exists c. split; [reflexivity|]. reflexivity.
  - destruct (H off cv (or_introl eq_refl)) as [-> B].
    destruct (write_coef nterm c off (val cv)) as [c1|] eqn:E1.
    2: { unfold write_coef in E1. apply Nat.ltb_lt in B. rewrite B in E1. discriminate. }
    destruct (IH c1) as (c2 & -> & H2); [intros off' cv' I; apply H; right; exact I|].
    exists c2. split; [reflexivity|]. intro a. rewrite H2. cbn [fst snd].
    destruct (lookup _ a) as [v|]; [reflexivity|]. rewrite (write_coef_cell _ _ _ _ _ a E1).
    now destruct (aeqb a (addr off)).
Qed.

Lemma row_val_ok nterm cs t b : set_ok nterm cs -> get_interp_basis (kind_of cs) (Some t) (cs_ct cs) = Some b ->
  forall off cv, In (off, cv) (cs_rows cs) ->
    interp_eval (kind_of cs) b cv = Some (Some (row_val cs t cv)) /\ (Z.to_nat (Z.abs off) < nterm)%nat.
Proof.
  intros K E off cv I. destruct (basis_ok nterm cs t K) as (b' & E' & _ & V). assert (b' = b) by congruence. subst b'.
  destruct K as [_ K]. destruct (K off cv I) as [L B]. split; [|exact B].
  unfold row_val. rewrite E. destruct (V cv L) as [v ->]. reflexivity.
Qed.

Lemma set_interp_ok nterm t cs idx c : set_ok nterm cs ->
  exists c' idx', coeff_set_interp nterm t cs idx c = Some (c', idx') /\
    (cs_order cs = 1%Z -> idx' = set_idx cs t) /\
    if ((cs_order cs =? 1) && (idx =? set_idx cs t))%Z then c' = c
    else forall a, cell c' a = match lookup (writes cs t) a with Some v => v | None => cell c a end.
Proof.
  intro K. destruct (basis_ok nterm cs t K) as (b & E & _ & _).
  pose proof (row_val_ok nterm cs t b K E) as W.
  assert (X : set_idx cs t = b_i b) by (unfold set_idx; now rewrite E).
  unfold coeff_set_interp. unfold kind_of in E, W.
  destruct (cs_order cs =? 1)%Z eqn:O; cbn [get_interp_basis interp_eval andb] in *; rewrite E.
  - rewrite X. destruct (Z.eqb_spec idx (b_i b)) as [->|N].
    + exists c, (b_i b). split; [reflexivity|]. split; [reflexivity|reflexivity].
    + destruct (write_rows_ok nterm (interp0_eval b) (row_val cs t) (cs_rows cs) c W) as (c' & -> & H).
      exists c', (b_i b). split; [reflexivity|]. split; [reflexivity|exact H].
  - destruct (write_rows_ok nterm (interp1_eval b) (row_val cs t) (cs_rows cs) c W) as (c' & -> & H).
    exists c', idx. split; [reflexivity|]. split; [apply Z.eqb_neq in O; congruence|exact H].
Qed.

(** ** All sets *)
Fixpoint flook (css : list coefset) (t : R) (a : nat * bool) : option R :=
  match css with
  | [] => None
  | cs :: css' => match flook css' t a with Some v => Some v | None => lookup (writes cs t) a end
  end.

Lemma flook_addr css t t' a : flook css t a = None -> flook css t' a = None.
Proof.
  induction css as [|cs css IH]; cbn [flook]; [reflexivity|].
  destruct (flook css t a); [discriminate|]. intro H. rewrite IH by reflexivity.
  now apply (lookup_addr (writes cs t) (writes cs t') a (writes_addr cs t t')).
Qed.

Lemma flook_app p q t a : flook (p ++ q) t a = match flook q t a with Some v => Some v | None => flook p t a end.
Proof.
  induction p as [|cs p IH]; cbn [app flook]; [now destruct (flook q t a)|]. rewrite IH. now destruct (flook q t a).
Qed.

(** a piecewise constant set which may be skipped *)
Fixpoint stale_ok (t : R) (seen css : list coefset) (idxs : list Z) (c : coefs) : Prop :=
  match css, idxs with
  | cs :: css', i :: idxs' =>
      (cs_order cs = 1%Z -> i = set_idx cs t -> forall a v, lookup (writes cs t) a = Some v -> flook css' t a = None ->
         cell c a = v /\ forall p, In p seen -> lookup (writes p t) a = None) /\
      stale_ok t (cs :: seen) css' idxs' c
  | _, _ => True
  end.

Definition idxs_ok (t : R) (css : list coefset) (idxs : list Z) : Prop :=
  Forall2 (fun cs i => cs_order cs = 1%Z -> i = set_idx cs t) css idxs.

Lemma coeff_interp_ok nterm t c0 : forall css seen idxs c,
  List.Forall (set_ok nterm) css -> length idxs = length css -> stale_ok t seen css idxs c0 ->
  (forall a, (forall p, In p seen -> lookup (writes p t) a = None) -> cell c a = cell c0 a) ->
  exists c' idxs', coeff_interp nterm t css idxs c = Some (c', idxs') /\ idxs_ok t css idxs' /\
    forall a, cell c' a = match flook css t a with Some v => v | None => cell c a end.
Proof.
  induction css as [|cs css IH]; intros seen [|i idxs] c K L H U; try discriminate L; cbn [coeff_interp flook].
  - exists c, []. split; [reflexivity|]. split; [constructor|reflexivity].
  - inversion K as [|? ? K1 K2]; subst. destruct H as [H1 H2].
    destruct (set_interp_ok nterm t cs i c K1) as (c1 & i' & E1 & I1 & W1). rewrite E1.
    destruct (IH (cs :: seen) idxs c1 K2 ltac:(cbn in L; lia) H2) as (c2 & idxs' & -> & I2 & W2).
    { intros a N. rewrite <- U by (intros p Ip; apply N; right; exact Ip).
      destruct (_ && _) in W1; [now subst c1|]. rewrite W1, (N cs (or_introl eq_refl)). reflexivity. }
    exists c2, (i' :: idxs'). split; [reflexivity|]. split; [constructor; assumption|].
    intro a. rewrite W2. destruct (flook css t a) as [v|] eqn:F; [reflexivity|].
    destruct (cs_order cs =? 1)%Z eqn:O; [|apply W1]. destruct (Z.eqb_spec i (set_idx cs t)) as [Q|Q]; [|apply W1].
    cbn [andb] in W1. subst c1. destruct (lookup (writes cs t) a) as [v|] eqn:Lk; [|reflexivity].
    apply Z.eqb_eq in O. destruct (H1 O Q a v Lk F) as [<- N]. now apply U.
Qed.

(** the coefficients at a time *)
Definition defl (o : option R) : R := match o with Some v => v | None => 0%R end.
Definition full (css : list coefset) (t : R) : coefs :=
  fun k => (defl (flook css t (k, false)), defl (flook css t (k, true))).

Lemma full_cell css t a : cell (full css t) a = defl (flook css t a).
Proof. destruct a as [k []]; reflexivity. Qed.

Definition no_stale_sets (css : list coefset) : Prop :=
  forall p cs q x t a, css = p ++ cs :: q -> In x p -> cs_order cs = 1%Z -> lookup (writes cs t) a <> None ->
    lookup (writes x t) a = None.

Definition coef_inv (css : list coefset) (st : temp_state) : Prop :=
  (ts_time_last st = None /\ (forall a, cell (ts_coef st) a = 0%R) /\ ts_idx_last st = map (fun _ => (-1)%Z) css) \/
  (exists t0, ts_time_last st = Some t0 /\ ts_coef st = full css t0 /\ idxs_ok t0 css (ts_idx_last st)).

Lemma stale_ok_first nterm css t c : List.Forall (set_ok nterm) css ->
  forall seen, stale_ok t seen css (map (fun _ => (-1)%Z) css) c.
Proof.
  induction css as [|cs css IH]; intros K seen; cbn [stale_ok map]; [exact I|].
  inversion K as [|? ? K1 K2]; subst. split; [|apply IH; exact K2].
  intros O E. destruct (basis_ok nterm cs t K1) as (b & Eb & B & _). unfold set_idx in E. rewrite Eb in E. lia.
Qed.

Lemma stale_ok_next all t0 t : no_stale_sets all -> forall css seen idxs, all = rev seen ++ css -> idxs_ok t0 css idxs ->
  stale_ok t seen css idxs (full all t0).
Proof.
  intro N. induction css as [|cs css IH]; intros seen [|i idxs] E K; cbn [stale_ok]; try exact I.
  inversion K as [|? ? ? ? K1 K2]; subst. split.
  - intros O Q a v Lk F. rewrite K1 in Q by exact O.
    assert (S : forall p, In p seen -> lookup (writes p t) a = None).
    { intros p Ip. apply (N (rev seen) cs css p t a); [reflexivity|now apply in_rev in Ip|exact O|congruence]. }
    split; [|exact S]. rewrite full_cell, flook_app. cbn [flook].
    rewrite (flook_addr css t t0 a F), (writes_idx cs t0 t O Q), Lk. reflexivity.
  - apply IH; [|exact K2]. cbn [rev]. now rewrite <- app_assoc.
Qed.

Lemma update_coef_ok nterm css t st : List.Forall (set_ok nterm) css -> no_stale_sets css -> coef_inv css st ->
  exists st', update_coef nterm css t st = Some st' /\ coef_inv css st' /\ ts_coef st' = full css t /\ ts_sh st' = ts_sh st.
Proof.
  intros K N V. unfold update_coef. destruct (neq_last (ts_time_last st) t) eqn:E.
  2: { apply neq_last_false in E. exists st. split; [reflexivity|]. split; [exact V|]. split; [|reflexivity].
       destruct V as [(V & _)|(t0 & V & C & _)]; [congruence|]. now assert (t0 = t) as -> by congruence. }
  assert (H : exists c' idxs', coeff_interp nterm t css (ts_idx_last st) (ts_coef st) = Some (c', idxs') /\
    idxs_ok t css idxs' /\ c' = full css t).
  { destruct V as [(_ & Z0 & J)|(t0 & _ & C & J)].
    - destruct (coeff_interp_ok nterm t (ts_coef st) css [] (ts_idx_last st) (ts_coef st) K) as (c' & is' & A & B & D);
        [rewrite J; apply map_length|rewrite J; now apply (stale_ok_first nterm)|reflexivity|].
      exists c', is'. split; [exact A|]. split; [exact B|]. apply cells_eq. intro a. rewrite D, full_cell, Z0.
      now destruct (flook css t a).
    - assert (L : length (ts_idx_last st) = length css).
      { clear - J. induction J; cbn; congruence. }
      destruct (coeff_interp_ok nterm t (ts_coef st) css [] (ts_idx_last st) (ts_coef st) K L) as (c' & is' & A & B & D);
        [rewrite C; now apply stale_ok_next|reflexivity|].
      exists c', is'. split; [exact A|]. split; [exact B|]. apply cells_eq. intro a. rewrite D, full_cell, C, full_cell.
      destruct (flook css t a) as [v|] eqn:F; [reflexivity|]. now rewrite (flook_addr css t t0 a F). }
  destruct H as (c' & idxs' & -> & I' & ->). eexists. split; [reflexivity|]. cbn [ts_coef ts_sh].
  split; [|split; reflexivity]. right. exists t. split; [reflexivity|]. split; [reflexivity|exact I'].
Qed.

(** ** Arrays *)
Definition temp_inv (cfg : model_cfg) (css : list coefset) (st : temp_state) : Prop :=
  coef_inv css st /\ state_ok cfg (ts_sh st).

Lemma items_value cfg nterm css mode : cfg_ok cfg -> List.Forall (set_ok nterm) css -> no_stale_sets css ->
  forall tdims rest t x st, dims t = tdims -> temp_inv cfg css st ->
  exists st', shevaltemp_items cfg nterm css mode tdims (tdims ++ rest) t x st
    = Some (map (fun ix => point_value cfg mode (at_index x ix) (full css (at_index t ix))) (indices (tdims ++ rest)), st') /\
    temp_inv cfg css st'.
Proof.
  intros Hc K N. induction tdims as [|d ds IH]; intros rest t x st Ht [V S].
  - cbn [shevaltemp_items app].
    destruct (update_coef_ok nterm css (get t []) st K N V) as (st1 & -> & V1 & C1 & S1).
    destruct (sheval_items_value cfg mode rest Hc x (scalar_array (ts_coef st1)) (ts_sh st1)) as [A B]; [now rewrite S1|].
    destruct (sheval_items cfg mode rest x (scalar_array (ts_coef st1)) (ts_sh st1)) as [out sh]. cbn [fst snd] in A, B.
    exists {| ts_coef := ts_coef st1; ts_time_last := ts_time_last st1; ts_idx_last := ts_idx_last st1; ts_sh := sh |}.
    split; [|split; [|exact B]].
    + subst out. f_equal. f_equal. apply map_ext. intro ix. unfold at_index at 2 4. cbn [scalar_array dims get length firstn].
      rewrite Ht. cbn [length firstn]. now rewrite C1.
    + unfold coef_inv in *. cbn [ts_time_last ts_coef ts_idx_last]. exact V1.
  - cbn [shevaltemp_items app indices tl]. revert st V S. generalize (seq 0 d) as is.
    induction is as [|i is IHi]; intros st V S.
    + exists st. split; [reflexivity|split; assumption].
    + destruct (IH rest (nd_item t i) (nd_item x i) st) as (st1 & -> & V1 & S1);
        [unfold nd_item; now rewrite Ht|split; assumption|].
      destruct (IHi st1 V1 S1) as (st2 & -> & V2). exists st2. split; [|exact V2].
      cbn [flat_map]. rewrite map_app, map_map. f_equal. f_equal. f_equal. apply map_ext. intro ix.
      now rewrite !at_index_item.
Qed.

(** ** The parsed sets *)
Lemma nm_offset_addr n m : valid_nm n m -> addr (nm_offset (n, m)) = (Z.to_nat (fst (index_of n m)), (snd (index_of n m) =? 1)%Z).
Proof.
  intros [H1 H2]. unfold nm_offset, index_of, addr. cbn [fst snd].
  assert (Q : Z.quot (n * (n + 1)) 2 = (n * (n + 1) / 2)%Z) by (apply Z.quot_div_nonneg; nia). rewrite Q.
  assert (P : (0 <= n * (n + 1) / 2)%Z) by (apply Z.div_pos; nia).
  destruct (Z.ltb_spec m 0) as [L|L].
  - rewrite Z.abs_mul, (Z.abs_eq (_ + _)) by lia. change (Z.abs (-1)) with 1%Z.
    f_equal; [f_equal; lia|]. apply Z.ltb_lt. lia.
  - rewrite Z.mul_1_l, (Z.abs_eq (_ + _)) by lia. f_equal; [f_equal; lia|]. apply Z.ltb_ge. lia.
Qed.

Lemma parse_ok s : usable_set s -> exists cs, parse_coefset s = Some cs /\
  cs_order cs = set_order s /\ (0 <= cs_degree cs)%Z /\
  (forall n m, In (n, m) (set_nms s) -> (n <= cs_degree cs)%Z) /\
  map fst (cs_rows cs) = map nm_offset (set_nms s) /\
  (forall off cv, In (off, cv) (cs_rows cs) -> length cv = length (cs_ct cs)) /\
  (cs_order cs = 1%Z /\ (1 <= length (cs_ct cs))%nat \/ cs_order cs = 2%Z /\ (2 <= length (cs_ct cs))%nat).
Proof.
  destruct s as [[[times rows] nms] order]. intros (O & L & Rw & V). unfold parse_coefset.
  assert (O' : ((order <? 1) || (2 <? order) = false)%Z).
  { apply orb_false_iff. rewrite !Z.ltb_ge. lia. }
  rewrite O'. rewrite (proj2 (Nat.eqb_eq _ _) L). cbn [negb].
  assert (F : forallb (fun r : list R => length r =? length times)%nat rows = true).
  { apply forallb_forall. intros r Hr. apply Nat.eqb_eq. now apply Rw. }
  rewrite F. cbn [negb]. eexists. split; [reflexivity|]. cbn [cs_order cs_degree cs_rows cs_ct set_order set_nms].
  split; [reflexivity|]. destruct (fold_max_spec (@fst Z Z) nms 0%Z) as (M1 & M2 & M3).
  split; [lia|]. split; [intros n m H; exact (M3 _ H)|]. split; [|split].
  - clear - L. revert nms L. induction rows as [|r rows IH]; intros [|nm nms] L; try discriminate L; [reflexivity|].
    cbn [map combine fst]. f_equal. apply IH. cbn in L. lia.
  - intros off cv I. apply in_combine_r in I. now apply Rw.
  - tauto.
Qed.

Lemma parse_sets_ok sets : List.Forall usable_set sets -> exists css, parse_coefsets sets = Some css /\
  Forall2 (fun s cs => parse_coefset s = Some cs /\ usable_set s) sets css.
Proof.
  induction sets as [|s sets IH]; intro U; cbn [parse_coefsets]; [exists []; split; [reflexivity|constructor]|].
  inversion U as [|? ? U1 U2]; subst. destruct (parse_ok s U1) as (cs & E & _). destruct (IH U2) as (css & E2 & F).
  rewrite E, E2. exists (cs :: css). split; [reflexivity|]. constructor; auto.
Qed.

Lemma rows_of N : (0 <= N)%Z -> Z.of_nat (nterm_of (Z.to_nat N)) = coeff_size_z N.
Proof.
  intro H. unfold nterm_of, coeff_size_z. rewrite Nat2Z.inj_div, Nat2Z.inj_mul, !Nat2Z.inj_add, Z2Nat.id by exact H.
  change (Z.of_nat 1) with 1%Z. change (Z.of_nat 2) with 2%Z. now rewrite Z.mul_comm.
Qed.

Definition max_degree (css : list coefset) : Z := fold_left (fun d cs => Z.max d (cs_degree cs)) css 0%Z.

Lemma sets_ok sets css : Forall2 (fun s cs => parse_coefset s = Some cs /\ usable_set s) sets css ->
  List.Forall (set_ok (nterm_of (Z.to_nat (max_degree css)))) css.
Proof.
  intro F. destruct (fold_max_spec cs_degree css 0%Z) as (_ & M2 & M3). fold (max_degree css) in M2, M3.
  revert M2 M3. generalize (max_degree css) as N. intros N M2 M3.
  induction F as [|s cs sets css [E U] F IH]; [constructor|]. constructor; [|apply IH; intros x Hx; apply M3; right; exact Hx].
  destruct (parse_ok s U) as (cs' & E' & O & D0 & D & R & L & T). assert (cs' = cs) by congruence. subst cs'.
  split; [exact T|]. intros off cv I. split; [now apply (L off cv)|].
  assert (I' : In off (map nm_offset (set_nms s))) by (rewrite <- R; apply (in_map fst) in I; exact I).
  apply in_map_iff in I' as ((n & m) & <- & I').
  assert (V : valid_nm n m). { destruct s as [[[? ?] ?] ?]. destruct U as (_ & _ & _ & U). now apply U. }
  pose proof (f_equal fst (nm_offset_addr n m V)) as A. unfold addr in A. cbn [fst] in A. rewrite A.
  pose proof (M3 cs (or_introl eq_refl)) as Dn. pose proof (D n m I') as Dm.
  destruct (index_bounds N n m V ltac:(lia)) as [B _]. pose proof (rows_of N M2) as Rn. lia.
Qed.

Lemma writes_in s cs t a : parse_coefset s = Some cs -> usable_set s ->
  (lookup (writes cs t) a <> None <-> exists n m, In (n, m) (set_nms s) /\ a = addr (nm_offset (n, m))).
Proof.
  intros E U. destruct (parse_ok s U) as (cs' & E' & _ & _ & _ & Rw & _). assert (cs' = cs) by congruence. subst cs'.
  rewrite lookup_none. unfold writes. rewrite map_map. cbn [fst].
  assert (M : map (fun x : Z * list R => addr (fst x)) (cs_rows cs) = map (fun nm => addr (nm_offset nm)) (set_nms s)).
  { rewrite <- (map_map fst addr), Rw, map_map. reflexivity. }
  rewrite M, in_map_iff. split.
  - intro H. destruct (Classical_Prop.classic (exists x, addr (nm_offset x) = a /\ In x (set_nms s))) as [((n & m) & Q & I)|N];
      [exists n, m; auto|contradiction].
  - intros (n & m & I & ->) N. apply N. exists (n, m). auto.
Qed.

Lemma valid_of s n m : usable_set s -> In (n, m) (set_nms s) -> valid_nm n m.
Proof. destruct s as [[[? ?] ?] ?]. intros (_ & _ & _ & U). apply U. Qed.

Lemma addr_inj n m n' m' : valid_nm n m -> valid_nm n' m' -> addr (nm_offset (n, m)) = addr (nm_offset (n', m')) -> n = n' /\ m = m'.
Proof.
  intros V V' H. rewrite !nm_offset_addr in H by assumption.
  pose proof (f_equal fst H) as H1. pose proof (f_equal snd H) as H2. cbn [fst snd] in H1, H2.
  pose proof (index_bounds n n m V ltac:(lia)) as [B1 B2]. pose proof (index_bounds n' n' m' V' ltac:(lia)) as [B3 B4].
  apply (index_inj n m n' m' V V'). apply injective_projections; [lia|].
  destruct (Z.eqb_spec (snd (index_of n m)) 1), (Z.eqb_spec (snd (index_of n' m')) 1); lia || discriminate.
Qed.

Lemma no_stale_parsed sets css : Forall2 (fun s cs => parse_coefset s = Some cs /\ usable_set s) sets css ->
  no_stale sets -> no_stale_sets css.
Proof.
  intros F N p cs q x t a Q Ix O Lk.
  assert (P : forall i c, nth_error css i = Some c -> exists s, nth_error sets i = Some s /\ parse_coefset s = Some c /\ usable_set s).
  { clear - F. induction F as [|s c sets css H F IH]; intros [|i] c' E; try discriminate E; cbn in *.
    - injection E as <-. eauto.
    - now apply IH. }
  apply In_nth_error in Ix as [i Hi].
  assert (Li : (i < length p)%nat) by (apply nth_error_Some; congruence).
  destruct (P i x) as (sx & H1 & H2 & H3); [subst css; rewrite nth_error_app1 by exact Li; exact Hi|].
  destruct (P (length p) cs) as (sc & H4 & H5 & H6); [subst css; rewrite nth_error_app2, Nat.sub_diag by lia; reflexivity|].
  destruct (parse_ok sc H6) as (c' & E' & O' & _). assert (c' = cs) by congruence. subst c'.
  destruct (lookup (writes x t) a) eqn:Lx; [|reflexivity]. exfalso.
  apply (writes_in sc cs t a H5 H6) in Lk as (n & m & I1 & ->).
  assert (Lx' : lookup (writes x t) (addr (nm_offset (n, m))) <> None) by congruence.
  apply (writes_in sx x t _ H2 H3) in Lx' as (n' & m' & I2 & A).
  apply addr_inj in A as [-> ->]; [|now apply (valid_of sc)|now apply (valid_of sx)].
  apply (N i (length p) sx sc Li H1 H4); [congruence|]. exists (n', m'). auto.
Qed.

(** ** shevaltemp *)
Lemma common_match a : forall b, common_dims_match a b = true <-> leading_match a b.
Proof.
  induction a as [|x a IH]; intros [|y b]; cbn [common_dims_match].
  - split; [left; exists []; reflexivity|reflexivity].
  - split; [left; exists (y :: b); reflexivity|reflexivity].
  - split; [right; exists (x :: a); reflexivity|reflexivity].
  - destruct (Nat.eqb_spec x y) as [->|N].
    + rewrite IH. split; intros [[c E]|[c E]].
      * left. exists c. now rewrite E.
      * right. exists c. now rewrite E.
      * left. exists c. cbn in E. now injection E.
      * right. exists c. cbn in E. now injection E.
    + split; [discriminate|]. intros [[c E]|[c E]]; cbn in E; injection E as E _; congruence.
Qed.

Lemma out_dims (a b : list nat) : leading_match a b ->
  exists rest, (if (length b <=? length a)%nat then a else b) = a ++ rest.
Proof.
  intros [[c ->]|[c ->]]; rewrite app_length.
  - destruct (Nat.leb_spec (length a + length c) (length a)) as [H|H]; [|exists c; reflexivity].
    exists []. now rewrite app_nil_r.
  - destruct (Nat.leb_spec (length b) (length b + length c)) as [H|H]; [|lia]. exists []. now rewrite app_nil_r.
Qed.

Lemma shevaltemp_value t x sets ci co mode internal sp sg mem css :
  (1 <= length sets <= 16)%nat -> List.Forall usable_set sets -> no_stale sets -> leading_match (dims t) (dims x) ->
  parse_coefsets sets = Some css ->
  shevaltemp t x sets ci co mode internal sp sg mem =
  let odims := if (length (dims x) <=? length (dims t))%nat then dims t else dims x in
  Ok (odims, map (fun ix => point_value (cfg0 internal (Z.to_nat (max_degree css)) ci co sp sg) mode
                    (at_index x ix) (full css (at_index t ix))) (indices odims)).
Proof.
  intros B U N M E. destruct (parse_sets_ok sets U) as (css' & E' & F). assert (css' = css) by congruence. subst css'.
  unfold shevaltemp. destruct (Nat.ltb_spec (length sets) 1); [lia|]. destruct (Nat.ltb_spec 16 (length sets)); [lia|].
  rewrite E. rewrite (proj2 (common_match _ _) M). cbn [negb]. cbv zeta. fold (max_degree css).
  pose proof (model_init_ok internal (Z.to_nat (max_degree css)) ci co sp sg mem) as I.
  pose proof (point_value_cfg0 internal (Z.to_nat (max_degree css)) ci co sp sg mem mode) as P.
  destruct (model_init internal (Z.to_nat (max_degree css)) ci co sp sg mem) as [cfg sh]. cbn [fst] in P. destruct I as [I1 I2].
  destruct (out_dims _ _ M) as [rest Er]. rewrite Er.
  destruct (items_value cfg (nterm_of (Z.to_nat (max_degree css))) css mode I1 (sets_ok sets css F)
    (no_stale_parsed sets css F N) (dims t) rest t x
    {| ts_coef := fun _ => (0, 0)%R; ts_time_last := None; ts_idx_last := map (fun _ => (-1)%Z) css; ts_sh := sh |}
    eq_refl) as (st' & -> & _).
  { split; [|exact I2]. left. split; [reflexivity|]. split; [|reflexivity]. intros [k []]; reflexivity. }
  f_equal. f_equal. apply map_ext. intro ix. apply P.
Qed.

(** C21 *)
Lemma temp_pointwise t x sets ci co mode internal sp sg mem odims out :
  List.Forall usable_set sets -> no_stale sets ->
  shevaltemp t x sets ci co mode internal sp sg mem = Ok (odims, out) ->
  length out = length (indices odims) /\
  forall k ix, nth_error (indices odims) k = Some ix ->
    exists o, nth_error out k = Some o /\
      forall mem', shevaltemp (nd0 (at_index t ix)) (nd0 (at_index x ix)) sets ci co mode internal sp sg mem' = Ok ([], [o]).
Proof.
  intros U N E.
  assert (B : (1 <= length sets <= 16)%nat /\ leading_match (dims t) (dims x)).
  { unfold shevaltemp in E. destruct (Nat.ltb_spec (length sets) 1); [discriminate|].
    destruct (Nat.ltb_spec 16 (length sets)); [discriminate|]. split; [lia|].
    destruct (parse_coefsets sets); [|discriminate]. cbv zeta in E.
    destruct (common_dims_match (dims t) (dims x)) eqn:C; [|discriminate]. now apply common_match. }
  destruct B as [B M]. destruct (parse_sets_ok sets U) as (css & Ec & F).
  rewrite (shevaltemp_value t x sets ci co mode internal sp sg mem css B U N M Ec) in E. cbv zeta in E.
  injection E as <- <-. split; [apply map_length|]. intros k ix Hk. eexists.
  split; [apply map_nth_error; exact Hk|]. intro mem'.
  rewrite (shevaltemp_value _ _ sets ci co mode internal sp sg mem' css B U N) by (exact Ec || (left; exists []; reflexivity)).
  reflexivity.
Qed.

Lemma temp_shape t x sets ci co mode internal sp sg mem :
  (1 <= length sets <= 16)%nat -> List.Forall usable_set sets -> no_stale sets ->
  (leading_match (dims t) (dims x) ->
     exists out, shevaltemp t x sets ci co mode internal sp sg mem
       = Ok (if (length (dims x) <=? length (dims t))%nat then dims t else dims x, out)) /\
  (~ leading_match (dims t) (dims x) -> shevaltemp t x sets ci co mode internal sp sg mem = Err ValueError).
Proof.
  intros B U N. destruct (parse_sets_ok sets U) as (css & Ec & F). split; intro M.
  - eexists. rewrite (shevaltemp_value t x sets ci co mode internal sp sg mem css B U N M Ec). reflexivity.
  - unfold shevaltemp. destruct (Nat.ltb_spec (length sets) 1); [reflexivity|]. destruct (Nat.ltb_spec 16 (length sets)); [reflexivity|].
    rewrite Ec. cbv zeta. destruct (common_dims_match (dims t) (dims x)) eqn:C; [|reflexivity].
    exfalso. now apply M, common_match.
Qed.
