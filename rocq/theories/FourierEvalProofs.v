(** sheval2dfs: the coefficients do not depend on the preceding times. *)

From Coq Require Import Bool List Reals Arith ZArith Lra Lia.
From Verif Require Import ArrModel LegendreModel GeoModel CoefModel ShEvalModel ShEvalSpec ShEvalProofs ShEvalLinProofs
  SparseModel SparseSpec SparseProofs TempModel TempSpec TempProofs TempEquivProofs
  FourierModel FourierSpec FourierProofs.
Import ListNotations.
Open Scope R_scope.

Section Set_.
Variables (s : f2d_set) (rows : list (Z * coefs)) (nterm : nat).

Definition fwrites (t1 t2 : R) : list ((nat * bool) * R) :=
  map (fun r => (addr (fst r), series_value s (snd r) t1 t2)) rows.
Definition fcoef (t1 t2 : R) : coefs := fun k =>
  let look a := match lookup (fwrites t1 t2) a with Some v => v | None => 0 end in
  (look (k, false), look (k, true)).

Lemma fcoef_cell t1 t2 a : cell (fcoef t1 t2) a = match lookup (fwrites t1 t2) a with Some v => v | None => 0 end.
Proof. destruct a as [k []]; reflexivity. Qed.

Lemma fwrites_addr t1 t2 u1 u2 : map fst (fwrites t1 t2) = map fst (fwrites u1 u2).
Proof. unfold fwrites. rewrite !map_map. reflexivity. Qed.

Definition set_sizes := f2d_sizes (fs_size1 s) (fs_size2 s) (fs_min1 s) (fs_min2 s) (fs_scale1 s) (fs_scale2 s).
Definition set_fit := degrees_fit (fs_size1 s) (fs_size2 s) (fs_min1 s) (fs_min2 s).
Definition rows_fit := forall off ab, In (off, ab) rows -> (Z.to_nat (Z.abs off) < nterm)%nat.

Lemma fs_write_rows_ok f t1 t2 (rs : list (Z * coefs)) : set_sizes f ->
  f2d_at (fs_size1 s) (fs_size2 s) (fs_min1 s) (fs_min2 s) (fs_scale1 s) (fs_scale2 s) t1 t2 f ->
  (forall off ab, In (off, ab) rs -> (Z.to_nat (Z.abs off) < nterm)%nat) -> forall c,
  exists c', fs_write_rows nterm f rs c = Some c' /\
    forall a, cell c' a = match lookup (map (fun r => (addr (fst r), series_value s (snd r) t1 t2)) rs) a with
                          | Some v => v | None => cell c a end.
Proof.
  intros Hs Ha. induction rs as [|[off ab] rs IH]; intros H c; cbn [fs_write_rows map lookup].
  - exists c. split; reflexivity.
  - rewrite (eval_ok _ _ _ _ _ _ f t1 t2 ab Hs Ha). fold (series_value s ab t1 t2).
    destruct (write_coef nterm c off (series_value s ab t1 t2)) as [c1|] eqn:E1.
    2: { unfold write_coef in E1. pose proof (H off ab (or_introl eq_refl)) as B. apply Nat.ltb_lt in B. rewrite B in E1. discriminate. }
    destruct (IH (fun o a I => H o a (or_intror I)) c1) as (c2 & -> & H2).
    exists c2. split; [reflexivity|]. intro a. rewrite H2. cbn [fst snd].
    destruct (lookup _ a) as [v|]; [reflexivity|]. rewrite (write_coef_cell _ _ _ _ _ a E1).
    now destruct (aeqb a (addr off)).
Qed.

Lemma fs_write_rows_none f (rs : list (Z * coefs)) : (exists off ab, In (off, ab) rs /\ (nterm <= Z.to_nat (Z.abs off))%nat) ->
  forall c, fs_write_rows nterm f rs c = None.
Proof.
  induction rs as [|[off ab] rs IH]; intros (o & a & I & B) c; [destruct I|]. cbn [fs_write_rows].
  destruct (fourier2d_eval f ab) as [v|]; [|reflexivity].
  destruct I as [E|I].
  - assert (o = off) by congruence. subst o. unfold write_coef. destruct (Nat.ltb_spec (Z.to_nat (Z.abs off)) nterm); [lia|reflexivity].
  - destruct (write_coef nterm c off v); [|reflexivity]. apply IH. eauto.
Qed.

Definition fcoef_inv (st : fs_state) : Prop :=
  set_sizes (fst_f2d st) /\
  (forall a t1 t2, lookup (fwrites t1 t2) a = None -> cell (fst_coef st) a = 0) /\
  (forall u v, fst_last1 st = Some u -> fst_last2 st = Some v -> fst_coef st = fcoef u v).

Lemma fs_update_ok t1 t2 st : set_fit -> rows_fit -> fcoef_inv st ->
  exists st', fs_update nterm rows t1 t2 st = Some st' /\ fcoef_inv st' /\ fst_coef st' = fcoef t1 t2 /\ fst_sh st' = fst_sh st.
Proof.
  intros D B (I1 & I2 & I3). unfold fs_update.
  destruct (neq_last (fst_last1 st) t1 || neq_last (fst_last2 st) t2) eqn:E.
  - destruct (cossin_ok _ _ _ _ _ _ (fst_f2d st) t1 t2 D I1) as (f & -> & S & A).
    destruct (fs_write_rows_ok f t1 t2 rows S A B (fst_coef st)) as (c & -> & Hc).
    fold (fwrites t1 t2) in Hc.
    assert (C : c = fcoef t1 t2).
    { apply cells_eq. intro a. rewrite fcoef_cell, Hc. destruct (lookup (fwrites t1 t2) a) eqn:L; [reflexivity|]. now apply (I2 a t1 t2). }
    eexists. split; [reflexivity|]. cbn [fst_coef fst_sh]. split; [|split; [exact C|reflexivity]].
    unfold fcoef_inv. cbn [fst_f2d fst_coef fst_last1 fst_last2]. split; [exact S|]. split.
    + intros a u1 u2 L. rewrite C, fcoef_cell. rewrite (proj2 (lookup_addr _ _ a (fwrites_addr t1 t2 u1 u2)) L). reflexivity.
    + intros u v Eu Ev. assert (u = t1) by congruence. assert (v = t2) by congruence. now subst u v.
  - apply orb_false_iff in E as [E1 E2]. apply neq_last_false in E1, E2. exists st. split; [reflexivity|].
    split; [split; [exact I1|split; [exact I2|exact I3]]|]. split; [now apply I3|reflexivity].
Qed.

Lemma fs_update_none t1 t2 st : ~ (set_fit /\ rows_fit) -> set_sizes (fst_f2d st) -> fst_last1 st = None ->
  fs_update nterm rows t1 t2 st = None.
Proof.
  intros N I1 L. unfold fs_update. rewrite L. cbn [neq_last orb].
  destruct (Classical_Prop.classic set_fit) as [D|D].
  - destruct (cossin_ok _ _ _ _ _ _ (fst_f2d st) t1 t2 D I1) as (f & -> & _).
    rewrite fs_write_rows_none; [reflexivity|].
    apply Classical_Prop.NNPP. intro X. apply N. split; [exact D|]. intros off ab I.
    destruct (Nat.ltb_spec (Z.to_nat (Z.abs off)) nterm) as [H|H]; [exact H|]. exfalso. apply X. eauto.
  - now rewrite (cossin_none _ _ _ _ _ _ (fst_f2d st) t1 t2 D I1).
Qed.

Definition longer (a b : list nat) : list nat := if (length b <=? length a)%nat then a else b.

Lemma longer_cons d a b : longer (d :: a) (d :: b) = d :: longer a b.
Proof. unfold longer. cbn [length]. destruct (Nat.leb_spec (S (length b)) (S (length a))), (Nat.leb_spec (length b) (length a)); reflexivity || lia. Qed.
Lemma longer_nil_r a : longer a [] = a.
Proof. unfold longer. destruct (Nat.leb_spec (length (@nil nat)) (length a)) as [H|H]; [reflexivity|cbn in H; lia]. Qed.
Lemma longer_nil_l b : longer [] b = b.
Proof. destruct b; reflexivity. Qed.

Lemma leading_cons x a y b : leading_match (x :: a) (y :: b) -> x = y /\ leading_match a b.
Proof.
  intros [[c E]|[c E]]; cbn [app] in E; pose proof (f_equal (hd 0%nat) E) as E1; pose proof (f_equal (@tl nat) E) as E2;
    cbn [hd tl] in E1, E2; (split; [congruence|]); [left|right]; exists c; exact E2.
Qed.

Variables (cfg : model_cfg) (mode : sheval_mode).

Definition fvalue (t1 t2 : nd R) (x : nd (R * R * R)) (ix : list nat) :=
  point_value cfg mode (at_index x ix) (fcoef (at_index t1 ix) (at_index t2 ix)).

Lemma fs_items_value : cfg_ok cfg -> set_fit -> rows_fit ->
  forall fuel rest t1 t2 x st, fuel = Nat.max (length (dims t1)) (length (dims t2)) -> leading_match (dims t1) (dims t2) ->
  fcoef_inv st -> state_ok cfg (fst_sh st) ->
  exists st', sheval2dfs_items cfg nterm rows mode fuel (longer (dims t1) (dims t2) ++ rest) t1 t2 x st
    = Some (map (fvalue t1 t2 x) (indices (longer (dims t1) (dims t2) ++ rest)), st') /\
    fcoef_inv st' /\ state_ok cfg (fst_sh st').
Proof.
  intros Hc D B. induction fuel as [|fuel IH]; intros rest t1 t2 x st Hf M V S.
  - destruct (dims t1) as [|? ?] eqn:E1; [|cbn [length] in Hf; lia]. destruct (dims t2) as [|? ?] eqn:E2; [|cbn [length] in Hf; lia].
    cbn [sheval2dfs_items longer app length Nat.leb]. rewrite E1, E2.
    destruct (fs_update_ok (get t1 []) (get t2 []) st D B V) as (st1 & -> & V1 & C1 & S1).
    destruct (sheval_items_value cfg mode rest Hc x (scalar_array (fst_coef st1)) (fst_sh st1)) as [A1 A2]; [now rewrite S1|].
    destruct (sheval_items cfg mode rest x (scalar_array (fst_coef st1)) (fst_sh st1)) as [out sh]. cbn [fst snd] in A1, A2.
    eexists {| fst_coef := fst_coef st1; fst_last1 := fst_last1 st1; fst_last2 := fst_last2 st1; fst_f2d := fst_f2d st1; fst_sh := sh |}.
    split; [|split; [|exact A2]].
    + subst out. f_equal. f_equal. apply map_ext. intro ix. unfold fvalue. unfold at_index at 2 4 5. cbn [scalar_array dims get length firstn].
      rewrite E1, E2. cbn [length firstn]. now rewrite C1.
    + unfold fcoef_inv in *. cbn [fst_f2d fst_coef fst_last1 fst_last2]. exact V1.
  - assert (G : forall d, longer (dims t1) (dims t2) = d :: tl (longer (dims t1) (dims t2)) ->
      (forall i, longer (dims (nd_item t1 i)) (dims (nd_item t2 i)) = tl (longer (dims t1) (dims t2))) ->
      (forall i, fuel = Nat.max (length (dims (nd_item t1 i))) (length (dims (nd_item t2 i)))) ->
      (forall i, leading_match (dims (nd_item t1 i)) (dims (nd_item t2 i))) ->
      exists st', (fix items (is : list nat) (st : fs_state) :=
         match is with
         | [] => Some ([], st)
         | i :: is' =>
             match sheval2dfs_items cfg nterm rows mode fuel (tl (longer (dims t1) (dims t2) ++ rest))
                     (nd_item t1 i) (nd_item t2 i) (nd_item x i) st with
             | None => None
             | Some (o, st1) =>
                 match items is' st1 with
                 | None => None
                 | Some (os, st2) => Some (o ++ os, st2)
                 end
             end
         end) (seq 0 d) st = Some (map (fvalue t1 t2 x) (indices (longer (dims t1) (dims t2) ++ rest)), st') /\
        fcoef_inv st' /\ state_ok cfg (fst_sh st')).
    { intros d El Ei Ef Em. rewrite El. cbn [app indices tl]. set (ds := tl (longer (dims t1) (dims t2))) in *.
      revert st V S. generalize (seq 0 d) as is. induction is as [|i is IHi]; intros st V S.
      - exists st. split; [reflexivity|split; assumption].
      - destruct (IH rest (nd_item t1 i) (nd_item t2 i) (nd_item x i) st (Ef i) (Em i) V S) as (st1 & E1 & V1 & S1).
        rewrite (Ei i) in E1. rewrite E1.
        destruct (IHi st1 V1 S1) as (st2 & -> & V2). exists st2. split; [|exact V2]. cbn [flat_map].
        rewrite map_app, map_map. f_equal. f_equal. f_equal. apply map_ext. intro ix. unfold fvalue. now rewrite !at_index_item. }
    cbn [sheval2dfs_items].
    destruct (dims t1) as [|d1 ds1] eqn:E1, (dims t2) as [|d2 ds2] eqn:E2.
    + cbn in Hf. discriminate.
    + apply (G d2).
      * reflexivity.
      * intro i. unfold nd_item. rewrite E1, E2. cbn [dims]. rewrite E1. now rewrite !longer_nil_l.
      * intro i. unfold nd_item. rewrite E1, E2. cbn [dims]. rewrite E1. cbn [length] in *. lia.
      * intro i. unfold nd_item. rewrite E1, E2. cbn [dims]. rewrite E1. left. eexists. reflexivity.
    + apply (G d1).
      * reflexivity.
      * intro i. unfold nd_item. rewrite E1, E2. cbn [dims]. rewrite E2. now rewrite !longer_nil_r.
      * intro i. unfold nd_item. rewrite E1, E2. cbn [dims]. rewrite E2. cbn [length] in *. lia.
      * intro i. unfold nd_item. rewrite E1, E2. cbn [dims]. rewrite E2. right. eexists. reflexivity.
    + destruct (leading_cons _ _ _ _ M) as [<- M']. apply (G d1).
      * rewrite longer_cons. reflexivity.
      * intro i. unfold nd_item. rewrite E1, E2. cbn [dims]. now rewrite longer_cons.
      * intro i. unfold nd_item. rewrite E1, E2. cbn [dims length] in *. lia.
      * intro i. unfold nd_item. rewrite E1, E2. exact M'.
Qed.

Lemma indices_app_nil a : forall b, indices a = [] -> indices (a ++ b) = [].
Proof.
  induction a as [|d a IH]; intros b H; [discriminate H|]. cbn [indices app] in *.
  destruct d as [|d]; [reflexivity|]. assert (N : indices a = []).
  { cbn [seq flat_map] in H. apply app_eq_nil in H as [H _]. now apply map_eq_nil in H. }
  rewrite (IH b N). cbn [map]. clear. induction (seq 0 (S d)) as [|i is IHi]; [reflexivity|exact IHi].
Qed.

Lemma indices_cons_nil d ds : indices (S d :: ds) <> [] -> indices ds <> [].
Proof. intros H N. apply H. cbn [indices]. rewrite N. cbn [map]. induction (seq 0 (S d)) as [|i is IHi]; [reflexivity|exact IHi]. Qed.

Lemma fs_items_none : ~ (set_fit /\ rows_fit) ->
  forall fuel odims t1 t2 x st, leading_match (dims t1) (dims t2) -> indices (longer (dims t1) (dims t2)) <> [] ->
  set_sizes (fst_f2d st) -> fst_last1 st = None ->
  sheval2dfs_items cfg nterm rows mode fuel odims t1 t2 x st = None.
Proof.
  intro N. induction fuel as [|fuel IH]; intros odims t1 t2 x st M Hi Hs Hl; cbn [sheval2dfs_items];
    destruct (dims t1) as [|d1 ds1] eqn:E1, (dims t2) as [|d2 ds2] eqn:E2; try reflexivity.
  - now rewrite (fs_update_none _ _ st N Hs Hl).
  - now rewrite (fs_update_none _ _ st N Hs Hl).
  - destruct d2 as [|d2]; [exfalso; apply Hi; reflexivity|]. rewrite longer_nil_l in Hi. cbn [seq].
    rewrite IH; [reflexivity| | |exact Hs|exact Hl]; unfold nd_item; rewrite E1, E2; cbn [dims]; rewrite E1.
    + left. eexists. reflexivity.
    + rewrite longer_nil_l. now apply indices_cons_nil in Hi.
  - destruct d1 as [|d1]; [exfalso; apply Hi; reflexivity|]. rewrite longer_nil_r in Hi. cbn [seq].
    rewrite IH; [reflexivity| | |exact Hs|exact Hl]; unfold nd_item; rewrite E1, E2; cbn [dims]; rewrite E2.
    + right. eexists. reflexivity.
    + rewrite longer_nil_r. now apply indices_cons_nil in Hi.
  - destruct (leading_cons _ _ _ _ M) as [<- M']. rewrite longer_cons in Hi. destruct d1 as [|d1]; [exfalso; apply Hi; reflexivity|].
    cbn [seq]. rewrite IH; [reflexivity| | |exact Hs|exact Hl]; unfold nd_item; rewrite E1, E2; cbn [dims].
    + exact M'.
    + now apply indices_cons_nil in Hi.
Qed.
End Set_.

(** ** Dimensions *)
Lemma leading_prefix a b : leading_match a b -> (length a <= length b)%nat -> prefix a b.
Proof.
  intros [[c ->]|[c E]] L; [exists c; reflexivity|]. subst a. rewrite app_length in L.
  assert (c = []) by (destruct c; [reflexivity|cbn in L; lia]). subst c. exists []. now rewrite !app_nil_r.
Qed.
Lemma leading_sym a b : leading_match a b -> leading_match b a.
Proof. intros [H|H]; [right|left]; exact H. Qed.
Lemma prefix_refl a : prefix a a.
Proof. exists []. now rewrite app_nil_r. Qed.

Lemma out_dims_ok a b c : leading_match a b -> leading_match a c -> leading_match b c ->
  longest_of (fs_out_dims a b c) a b c /\ prefix (longer a b) (fs_out_dims a b c).
Proof.
  intros M1 M2 M3. unfold fs_out_dims, longest_of, longer. cbv zeta.
  destruct (Nat.eqb_spec (length a) (Nat.max (Nat.max (length a) (length b)) (length c))) as [E|E];
    [|destruct (Nat.eqb_spec (length b) (Nat.max (Nat.max (length a) (length b)) (length c))) as [E'|E']].
  - destruct (Nat.leb_spec (length b) (length a)) as [L|L]; [|lia].
    repeat split; try (left; reflexivity); try apply prefix_refl; apply leading_prefix; try lia; now apply leading_sym.
  - destruct (Nat.leb_spec (length b) (length a)) as [L|L]; [lia|].
    repeat split; try (right; left; reflexivity); try apply prefix_refl; apply leading_prefix; try lia; try assumption; now apply leading_sym.
  - repeat split; try (right; right; reflexivity); try apply prefix_refl; try (apply leading_prefix; try lia; assumption).
    destruct (length b <=? length a)%nat; apply leading_prefix; try lia; assumption.
Qed.

(** ** sheval2dfs *)
Definition fs_rows (s : f2d_set) : list (Z * coefs) := combine (map nm_offset (fs_nm s)) (fs_ab s).
Definition fs_degree (s : f2d_set) : nat := Z.to_nat (fold_left (fun d nm => Z.max d (fst nm)) (fs_nm s) 0%Z).

Definition dims_match (t1 t2 : nd R) (x : nd (R * R * R)) : Prop :=
  leading_match (dims t1) (dims t2) /\ leading_match (dims t1) (dims x) /\ leading_match (dims t2) (dims x).

Lemma dims_match_dec t1 t2 x : dims_match t1 t2 x \/
  (forall s ci co mode internal sp sg mem fmem, sheval2dfs t1 t2 x s ci co mode internal sp sg mem fmem = Err ValueError) /\ ~ dims_match t1 t2 x.
Proof.
  unfold sheval2dfs, dims_match. rewrite <- !common_match.
  destruct (common_dims_match (dims t1) (dims t2)); [|right; split; [reflexivity|intuition discriminate]].
  destruct (common_dims_match (dims t1) (dims x)); [|right; split; [reflexivity|intuition discriminate]].
  destruct (common_dims_match (dims t2) (dims x)); [|right; split; [reflexivity|intuition discriminate]]. left. auto.
Qed.

Lemma sheval2dfs_value t1 t2 x s ci co mode internal sp sg mem fmem :
  dims_match t1 t2 x -> length (fs_ab s) = length (fs_nm s) -> set_fit s -> rows_fit (fs_rows s) (nterm_of (fs_degree s)) ->
  sheval2dfs t1 t2 x s ci co mode internal sp sg mem fmem =
  Ok (fs_out_dims (dims t1) (dims t2) (dims x),
      map (fvalue s (fs_rows s) (cfg0 internal (fs_degree s) ci co sp sg) mode t1 t2 x) (indices (fs_out_dims (dims t1) (dims t2) (dims x)))).
Proof.
  intros (M1 & M2 & M3) L D B. unfold sheval2dfs.
  rewrite (proj2 (common_match _ _) M1), (proj2 (common_match _ _) M2), (proj2 (common_match _ _) M3). cbn [negb].
  unfold f2d_coefset_parse. rewrite (proj2 (Nat.eqb_eq _ _) L). cbn [negb fc_rows fc_degree]. cbv zeta.
  fold (fs_degree s). fold (fs_rows s).
  pose proof (model_init_ok internal (fs_degree s) ci co sp sg mem) as I.
  pose proof (point_value_cfg0 internal (fs_degree s) ci co sp sg mem mode) as P.
  destruct (model_init internal (fs_degree s) ci co sp sg mem) as [cfg sh]. cbn [fst] in P. destruct I as [I1 I2].
  destruct (out_dims_ok _ _ _ M1 M2 M3) as [_ [rest Er]]. rewrite Er.
  match goal with |- context [sheval2dfs_items _ _ _ _ _ _ _ _ _ ?st] =>
    destruct (fs_items_value s (fs_rows s) (nterm_of (fs_degree s)) cfg mode I1 D B _ rest t1 t2 x st eq_refl M1) as (st' & -> & _) end.
  - split; [apply init_sizes|]. split; [intros [k []] u v _; reflexivity|]. intros u v Eu. discriminate Eu.
  - exact I2.
  - f_equal. f_equal. apply map_ext. intro ix. unfold fvalue. apply P.
Qed.

Lemma sheval2dfs_bad t1 t2 x s ci co mode internal sp sg mem fmem r :
  dims_match t1 t2 x -> length (fs_ab s) = length (fs_nm s) -> ~ (set_fit s /\ rows_fit (fs_rows s) (nterm_of (fs_degree s))) ->
  sheval2dfs t1 t2 x s ci co mode internal sp sg mem fmem = Ok r ->
  indices (longer (dims t1) (dims t2)) = [].
Proof.
  intros (M1 & M2 & M3) L N. unfold sheval2dfs.
  rewrite (proj2 (common_match _ _) M1), (proj2 (common_match _ _) M2), (proj2 (common_match _ _) M3). cbn [negb].
  unfold f2d_coefset_parse. rewrite (proj2 (Nat.eqb_eq _ _) L). cbn [negb fc_rows fc_degree]. cbv zeta.
  fold (fs_degree s). fold (fs_rows s).
  destruct (model_init internal (fs_degree s) ci co sp sg mem) as [cfg sh].
  destruct (indices (longer (dims t1) (dims t2))) as [|i is] eqn:Ei; [reflexivity|].
  match goal with |- context [sheval2dfs_items _ _ _ _ ?fuel ?od _ _ _ ?st] =>
    rewrite (fs_items_none s (fs_rows s) (nterm_of (fs_degree s)) cfg mode N fuel od t1 t2 x st M1) end.
  - discriminate.
  - rewrite Ei. discriminate.
  - apply init_sizes.
  - reflexivity.
Qed.

Lemma sheval2dfs_parsed t1 t2 x s ci co mode internal sp sg mem fmem r :
  sheval2dfs t1 t2 x s ci co mode internal sp sg mem fmem = Ok r -> length (fs_ab s) = length (fs_nm s).
Proof.
  unfold sheval2dfs. do 3 (destruct (negb _); [discriminate|]).
  unfold f2d_coefset_parse. destruct (Nat.eqb_spec (length (fs_ab s)) (length (fs_nm s))) as [E|E]; [intros _; exact E|]. cbn [negb]. cbv zeta.
  destruct (model_init _ _ _ _ _ _ _) as [cfg sh]. destruct (sheval2dfs_items _ _ _ _ _ _ _ _ _ _) as [[out st]|]; discriminate.
Qed.


Lemma flat_cons_nil d ds : indices (d :: ds) = [] -> d = 0%nat \/ indices ds = [].
Proof.
  cbn [indices]. destruct d as [|d]; [left; reflexivity|]. cbn [seq flat_map]. intro H. right.
  apply app_eq_nil in H as [H _]. now apply map_eq_nil in H.
Qed.

Lemma fs_items_empty cfg nterm rows mode : forall fuel od t1 t2 x st out st',
  leading_match (dims t1) (dims t2) -> indices (longer (dims t1) (dims t2)) = [] ->
  sheval2dfs_items cfg nterm rows mode fuel od t1 t2 x st = Some (out, st') -> out = [].
Proof.
  induction fuel as [|fuel IH]; intros od t1 t2 x st out st' M Z.
  { cbn [sheval2dfs_items]. destruct (dims t1), (dims t2); try discriminate. }
  assert (G : forall is st out st',
      (forall i, leading_match (dims (nd_item t1 i)) (dims (nd_item t2 i))) ->
      (is = [] \/ forall i, indices (longer (dims (nd_item t1 i)) (dims (nd_item t2 i))) = []) ->
      (fix items (is : list nat) (st : fs_state) :=
         match is with
         | [] => Some ([], st)
         | i :: is' =>
             match sheval2dfs_items cfg nterm rows mode fuel (tl od) (nd_item t1 i) (nd_item t2 i) (nd_item x i) st with
             | None => None
             | Some (o, st1) =>
                 match items is' st1 with
                 | None => None
                 | Some (os, st2) => Some (o ++ os, st2)
                 end
             end
         end) is st = Some (out, st') -> out = []).
  { clear st out st'. induction is as [|i is IHi]; intros st out st' Gm Gz E; [congruence|].
    destruct Gz as [Gz|Gz]; [discriminate|].
    destruct (sheval2dfs_items _ _ _ _ _ _ _ _ _ _) as [[o st1]|] eqn:Eo; [|discriminate].
    apply (IH _ _ _ _ _ _ _ (Gm i) (Gz i)) in Eo. subst o.
    match type of E with match ?t with _ => _ end = _ => destruct t as [[os st2]|] eqn:Es; [|discriminate] end.
    apply (IHi _ _ _ Gm (or_intror Gz)) in Es. subst os. cbn [app] in E. congruence. }
  cbn [sheval2dfs_items].
  destruct (dims t1) as [|d1 ds1] eqn:E1, (dims t2) as [|d2 ds2] eqn:E2.
  - discriminate Z.
  - apply G.
    + intro i. unfold nd_item. rewrite E1, E2. cbn [dims]. rewrite E1. left. eexists. reflexivity.
    + rewrite longer_nil_l in Z. apply flat_cons_nil in Z as [->|Z]; [left; reflexivity|right]. intro i. unfold nd_item. rewrite E1, E2. cbn [dims]. rewrite E1. now rewrite longer_nil_l.
  - apply G.
    + intro i. unfold nd_item. rewrite E1, E2. cbn [dims]. rewrite E2. right. eexists. reflexivity.
    + rewrite longer_nil_r in Z. apply flat_cons_nil in Z as [->|Z]; [left; reflexivity|right]. intro i. unfold nd_item. rewrite E1, E2. cbn [dims]. rewrite E2. now rewrite longer_nil_r.
  - destruct (leading_cons _ _ _ _ M) as [<- M']. rewrite longer_cons in Z. apply G.
    + intro i. unfold nd_item. rewrite E1, E2. exact M'.
    + apply flat_cons_nil in Z as [->|Z]; [left; reflexivity|right]. intro i. unfold nd_item. rewrite E1, E2. exact Z.
Qed.

(** C23 *)
Lemma fs_pointwise t1 t2 x s ci co mode internal sp sg mem fmem odims out :
  sheval2dfs t1 t2 x s ci co mode internal sp sg mem fmem = Ok (odims, out) ->
  length out = length (indices odims) /\
  forall k ix, nth_error (indices odims) k = Some ix ->
    exists o, nth_error out k = Some o /\
      forall mem' fmem', sheval2dfs (nd0 (at_index t1 ix)) (nd0 (at_index t2 ix)) (nd0 (at_index x ix)) s
        ci co mode internal sp sg mem' fmem' = Ok ([], [o]).
Proof.
  intro E. pose proof (sheval2dfs_parsed _ _ _ _ _ _ _ _ _ _ _ _ _ E) as L.
  destruct (dims_match_dec t1 t2 x) as [M|[N _]]; [|rewrite N in E; discriminate].
  destruct (Classical_Prop.classic (set_fit s /\ rows_fit (fs_rows s) (nterm_of (fs_degree s)))) as [[D B]|N].
  - rewrite (sheval2dfs_value t1 t2 x s ci co mode internal sp sg mem fmem M L D B) in E.
    injection E as <- <-. split; [apply map_length|]. intros k ix Hk. eexists. split; [apply map_nth_error; exact Hk|].
    intros mem' fmem'. rewrite (sheval2dfs_value _ _ _ s ci co mode internal sp sg mem' fmem'); [reflexivity| |exact L|exact D|exact B].
    repeat split; left; exists []; reflexivity.
  - pose proof (sheval2dfs_bad t1 t2 x s ci co mode internal sp sg mem fmem _ M L N E) as Z.
    assert (Zo : indices odims = [] /\ out = []); [|destruct Zo as [-> ->]; split; [reflexivity|intros [|k] ix Hk; discriminate Hk]].
    destruct M as (M1 & M2 & M3). unfold sheval2dfs in E.
    rewrite (proj2 (common_match _ _) M1), (proj2 (common_match _ _) M2), (proj2 (common_match _ _) M3) in E. cbn [negb] in E.
    unfold f2d_coefset_parse in E. rewrite (proj2 (Nat.eqb_eq _ _) L) in E. cbn [negb fc_rows fc_degree] in E. cbv zeta in E.
    destruct (model_init _ _ _ _ _ _ _) as [cfg sh].
    destruct (sheval2dfs_items _ _ _ _ _ _ _ _ _ _) as [[out' st]|] eqn:Eo; [|discriminate].
    assert (odims = fs_out_dims (dims t1) (dims t2) (dims x)) by congruence. assert (out' = out) by congruence. subst odims out'.
    split.
    + destruct (out_dims_ok _ _ _ M1 M2 M3) as [_ [rest ->]]. now apply indices_app_nil.
    + exact (fs_items_empty _ _ _ _ _ _ _ _ _ _ _ _ M1 Z Eo).
Qed.

(** ** Values *)
Lemma nth_error_combine {A B} : forall (a : list A) (b : list B) k x y,
  nth_error (combine a b) k = Some (x, y) <-> nth_error a k = Some x /\ nth_error b k = Some y.
Proof.
  induction a as [|a0 a IH]; intros [|b0 b] [|k] x y; cbn [combine nth_error]; try (split; [discriminate|intros [H1 H2]; discriminate]).
  - split; [intro E; split; congruence|intros [H1 H2]; congruence].
  - apply IH.
Qed.

Lemma coef_nm_cell c n m : valid_nm n m -> coef_nm c n m = cell c (addr (nm_offset (n, m))).
Proof.
  intro V. rewrite nm_offset_addr by exact V. unfold coef_nm, index_of, cell. cbn [fst snd].
  replace (n * (n + 1) / 2 + Z.abs m)%Z with (Z.abs m + n * (n + 1) / 2)%Z by lia.
  destruct (m <? 0)%Z; reflexivity.
Qed.

Lemma degree_unique s N : largest_degree (fs_nm s) N -> (forall n m, In (n, m) (fs_nm s) -> valid_nm n m) ->
  (0 <= N)%Z /\ fs_degree s = Z.to_nat N.
Proof.
  intros [L1 L2] V. unfold fs_degree. destruct (fold_max_spec (@fst Z Z) (fs_nm s) 0%Z) as (M1 & M2 & M3).
  assert (P : (0 <= N)%Z).
  { destruct L2 as [[-> _]|[m I]]; [lia|]. destruct (V _ _ I) as [H _]. exact H. }
  split; [exact P|]. f_equal. apply Z.le_antisymm.
  - destruct M1 as [->|([n m] & I & <-)]; [exact P|]. exact (L1 _ _ I).
  - destruct L2 as [[-> _]|[m I]]; [exact M2|]. exact (M3 _ I).
Qed.

Lemma usable_rows s : usable_2dfs s -> rows_fit (fs_rows s) (nterm_of (fs_degree s)).
Proof.
  intros (L & V & _) off ab I. apply in_combine_l in I. apply in_map_iff in I as ([n m] & <- & I).
  pose proof (V _ _ I) as Vn. pose proof (nm_offset_addr n m Vn) as A. unfold addr in A.
  pose proof (f_equal fst A) as A1. cbn [fst] in A1. rewrite A1.
  destruct (fold_max_spec (@fst Z Z) (fs_nm s) 0%Z) as (_ & M2 & M3). specialize (M3 _ I). cbn [fst] in M3.
  pose proof (index_bounds (fold_left (fun d nm => Z.max d (fst nm)) (fs_nm s) 0%Z) n m Vn M3) as [B _].
  unfold fs_degree. pose proof (rows_of _ M2) as Rw. unfold coeff_size_z in *. lia.
Qed.

Lemma lookup_last ws a v : lookup ws a = Some v ->
  exists j, nth_error ws j = Some (a, v) /\ forall k w, (j < k)%nat -> nth_error ws k <> Some (a, w).
Proof.
  induction ws as [|[b w] ws IH]; cbn [lookup]; [discriminate|].
  destruct (lookup ws a) as [u|] eqn:E.
  - intros [= ->]. destruct (IH eq_refl) as (j & H1 & H2). exists (S j). split; [exact H1|].
    intros [|k] w' L; [lia|]. apply H2. lia.
  - destruct (aeqb_spec a b) as [->|]; [|discriminate]. intros [= ->]. exists 0%nat. split; [reflexivity|].
    intros [|k] w' L; [lia|]. cbn [nth_error]. intros H. apply lookup_none in E. apply E.
    apply in_map_iff. exists (b, w'). split; [reflexivity|]. exact (nth_error_In _ _ H).
Qed.

Lemma fs_last s N t1 t2 : usable_2dfs s ->
  largest_degree (fs_nm s) N -> (N < 2 ^ 24)%Z ->
  exists c : coefs,
    (forall i n m ab, nth_error (fs_nm s) i = Some (n, m) -> nth_error (fs_ab s) i = Some ab ->
       (forall j, (i < j)%nat -> nth_error (fs_nm s) j <> Some (n, m)) ->
       coef_nm c n m = series_value s ab t1 t2) /\
    (forall n m, valid_nm n m -> ~ In (n, m) (fs_nm s) -> coef_nm c n m = 0) /\
    forall x csize ci co mode internal sp sg mem fmem mem', (2 * csize = (N + 1) * (N + 2))%Z ->
      sheval2dfs (nd0 t1) (nd0 t2) x s ci co mode internal sp sg mem fmem =
      sheval x csize (nd0 c) ci co mode internal (-1) sp sg mem'.
Proof.
  intros U Hl Hn. pose proof (usable_rows s U) as B. destruct U as (L & V & D).
  destruct (degree_unique s N Hl V) as [P Ed].
  exists (fcoef s (fs_rows s) t1 t2).
  assert (nth_row : forall j a v, nth_error (fwrites s (fs_rows s) t1 t2) j = Some (a, v) -> exists n m ab,
    nth_error (fs_nm s) j = Some (n, m) /\ nth_error (fs_ab s) j = Some ab /\ a = addr (nm_offset (n, m)) /\ v = series_value s ab t1 t2).
  { intros j a v I. unfold fwrites, fs_rows in I. rewrite nth_error_map in I.
    destruct (nth_error (combine (map nm_offset (fs_nm s)) (fs_ab s)) j) as [[off ab]|] eqn:Hj; [|discriminate I].
    cbn [option_map fst snd] in I. apply nth_error_combine in Hj as [H1 H2].
    rewrite nth_error_map in H1. destruct (nth_error (fs_nm s) j) as [[n m]|] eqn:Ej; [|discriminate]. cbn [option_map] in H1.
    exists n, m, ab. repeat split; congruence. }
  assert (In_row : forall a v, In (a, v) (fwrites s (fs_rows s) t1 t2) -> exists j n m ab,
    nth_error (fs_nm s) j = Some (n, m) /\ nth_error (fs_ab s) j = Some ab /\ a = addr (nm_offset (n, m)) /\ v = series_value s ab t1 t2).
  { intros a v I. unfold fwrites, fs_rows in I. apply in_map_iff in I as ([off ab] & E & I). cbn [fst snd] in E.
    apply In_nth_error in I as [j Hj]. apply nth_error_combine in Hj as [H1 H2].
    rewrite nth_error_map in H1. destruct (nth_error (fs_nm s) j) as [[n m]|] eqn:Ej; [|discriminate]. cbn [option_map] in H1.
    exists j, n, m, ab. repeat split; congruence. }
  split; [|split].
  - intros i n m ab Hi Ha Hd. pose proof (V n m (nth_error_In _ _ Hi)) as Vn. rewrite coef_nm_cell by exact Vn. rewrite fcoef_cell.
    destruct (lookup (fwrites s (fs_rows s) t1 t2) (addr (nm_offset (n, m)))) as [v|] eqn:E.
    + apply lookup_last in E as (j & Ej & Lj). apply nth_row in Ej as (n' & m' & ab' & H1 & H2 & H3 & H4).
      destruct (addr_inj n m n' m' Vn (V _ _ (nth_error_In _ _ H1)) H3) as [<- <-].
      assert (j = i) as ->; [|congruence].
      destruct (Nat.lt_trichotomy i j) as [H|[H|H]]; [exfalso; exact (Hd j H H1)|symmetry; exact H|].
      exfalso. apply (Lj i (series_value s ab t1 t2) H). unfold fwrites, fs_rows. rewrite nth_error_map.
      rewrite (proj2 (nth_error_combine _ _ _ _ _) (conj (map_nth_error nm_offset _ _ Hi) Ha)). reflexivity.
    + exfalso. apply lookup_none in E. apply E. unfold fwrites, fs_rows. rewrite map_map. cbn [fst].
      apply in_map_iff. exists (nm_offset (n, m), ab). split; [reflexivity|].
      eapply nth_error_In. apply nth_error_combine. split; [|exact Ha]. apply (map_nth_error nm_offset _ _ Hi).
  - intros n m Vn N0. rewrite coef_nm_cell by exact Vn. rewrite fcoef_cell.
    destruct (lookup (fwrites s (fs_rows s) t1 t2) (addr (nm_offset (n, m)))) as [v|] eqn:E; [|reflexivity]. exfalso.
    apply lookup_some in E. destruct (In_row _ _ E) as (j & n' & m' & ab' & H1 & H2 & H3 & H4).
    destruct (addr_inj n m n' m' Vn (V _ _ (nth_error_In _ _ H1)) H3) as [<- <-].
    apply N0. exact (nth_error_In _ _ H1).
  - intros x csize ci co mode internal sp sg mem fmem mem' Hs.
    assert (M : dims_match (nd0 t1) (nd0 t2) x) by (repeat split; left; eexists; reflexivity).
    rewrite (sheval2dfs_value _ _ x s ci co mode internal sp sg mem fmem M L D B).
    assert (Csz : (1 <= csize < 2 ^ 50)%Z).
    { change (2 ^ 24)%Z with 16777216%Z in Hn. change (2 ^ 50)%Z with 1125899906842624%Z. nia. }
    assert (Ee : eff_degree csize (-1) = Z.to_nat N).
    { apply eff_degree_spec; [exact Csz|]. exists (Z.to_nat N). rewrite Z2Nat.id by lia. split; [nia|reflexivity]. }
    destruct (call_ok_size csize (-1) Csz) as [Co1 Co2].
    destruct (proj2 (sheval_succeeds x csize (nd0 (fcoef s (fs_rows s) t1 t2)) ci co mode internal (-1) sp sg mem')) as [[od out] Eo].
    { split; [exact Co1|]. split; [exact Co2|]. right. exists (dims x). reflexivity. }
    pose proof (sheval_value _ _ _ _ _ _ _ _ _ _ _ _ _ Eo) as [-> ->]. rewrite Eo, Ee, <- Ed. cbn [dims nd0].
    assert (Od : (if (length (dims x) <? @length nat [])%nat then [] else dims x) = dims x) by (destruct (dims x); reflexivity).
    assert (Of : fs_out_dims [] [] (dims x) = dims x) by (destruct (dims x); reflexivity). rewrite Of. reflexivity.
Qed.

Lemma fs_single s N t1 t2 : usable_2dfs s ->
  (forall i j p, nth_error (fs_nm s) i = Some p -> nth_error (fs_nm s) j = Some p -> i = j) ->
  largest_degree (fs_nm s) N -> (N < 2 ^ 24)%Z ->
  exists c : coefs,
    (forall i n m ab, nth_error (fs_nm s) i = Some (n, m) -> nth_error (fs_ab s) i = Some ab ->
       coef_nm c n m = series_value s ab t1 t2) /\
    (forall n m, valid_nm n m -> ~ In (n, m) (fs_nm s) -> coef_nm c n m = 0) /\
    forall x csize ci co mode internal sp sg mem fmem mem', (2 * csize = (N + 1) * (N + 2))%Z ->
      sheval2dfs (nd0 t1) (nd0 t2) x s ci co mode internal sp sg mem fmem =
      sheval x csize (nd0 c) ci co mode internal (-1) sp sg mem'.
Proof.
  intros U Hd Hl Hn. destruct (fs_last s N t1 t2 U Hl Hn) as (c & C1 & C2). exists c. split; [|exact C2].
  intros i n m ab Hi Ha. apply (C1 i n m ab Hi Ha). intros j L Hj. pose proof (Hd i j _ Hi Hj). lia.
Qed.

Lemma fs_shape t1 t2 x s ci co mode internal sp sg mem fmem : usable_2dfs s ->
  (dims_match t1 t2 x -> exists odims out,
     sheval2dfs t1 t2 x s ci co mode internal sp sg mem fmem = Ok (odims, out) /\ longest_of odims (dims t1) (dims t2) (dims x)) /\
  (~ dims_match t1 t2 x -> sheval2dfs t1 t2 x s ci co mode internal sp sg mem fmem = Err ValueError).
Proof.
  intro U. split; intro M.
  - pose proof (usable_rows s U) as B. destruct U as (L & V & D).
    rewrite (sheval2dfs_value t1 t2 x s ci co mode internal sp sg mem fmem M L D B). eexists. eexists. split; [reflexivity|].
    destruct M as (M1 & M2 & M3). apply (out_dims_ok _ _ _ M1 M2 M3).
  - destruct (dims_match_dec t1 t2 x) as [Y|[E _]]; [contradiction|apply E].
Qed.

Lemma fs_in_bounds t1 t2 x s ci co mode internal sp sg mem fmem : usable_2dfs s ->
  sheval2dfs t1 t2 x s ci co mode internal sp sg mem fmem <> Err OutOfBounds.
Proof.
  intros U E. destruct (fs_shape t1 t2 x s ci co mode internal sp sg mem fmem U) as [H1 H2].
  destruct (dims_match_dec t1 t2 x) as [M|[E' _]]; [|rewrite E' in E; discriminate].
  destruct (H1 M) as (od & out & E' & _). congruence.
Qed.
