(** The evaluation by shevaltemp agrees with the evaluation of the coefficients by sheval. *)

From Coq Require Import Bool List Reals Arith ZArith Lra Lia.
From Verif Require Import Ord ROrd BisectModel BisectProofs InterpModel InterpProofs
  ArrModel LegendreModel GeoModel SizeModel CoefModel SparseModel SparseSpec SparseProofs SnapshotProofs SeriesModel SeriesProofs
  ShEvalModel ShEvalSpec ShEvalProofs ShEvalLinProofs SparseModel TempModel TempSpec TempProofs.
Import ListNotations.

Record leaf_ok (l : leaf_set) : Prop := {
  lo_sparse : mk_sparse (s_entries (td_sparse (fst l))) = Some (td_sparse (fst l));
  lo_valid : forall e, In e (s_entries (td_sparse (fst l))) -> valid_nm (e_n e) (e_m e) /\ (e_n e < 2 ^ 24)%Z;
  lo_distinct : distinct_entries (s_entries (td_sparse (fst l)));
  lo_order : td_order (fst l) = 1%Z /\ (1 <= length (td_times (fst l)))%nat \/
             td_order (fst l) = 2%Z /\ (2 <= length (td_times (fst l)))%nat;
  lo_len : forall e, In e (s_entries (td_sparse (fst l))) -> length (e_c e) = length (td_times (fst l))
}.

Lemma all_some_in {A} (l : list (option A)) : forall r, all_some l = Some r -> length r = length l /\
  forall x, In x r -> In (Some x) l.
Proof.
  induction l as [|[a|] l IH]; intros r E; cbn [all_some] in E; try discriminate.
  - injection E as <-. split; [reflexivity|intros x []].
  - destruct (all_some l) as [r'|]; [|discriminate]. injection E as <-. destruct (IH r' eq_refl) as [L H].
    split; [cbn; congruence|]. intros x [->|I]; [left; reflexivity|right; auto].
Qed.

Lemma gather_length {A} (l : list A) idx r : gather l idx = Some r -> length r = length idx.
Proof.
  revert r. induction idx as [|k idx IH]; intros r E; cbn [gather] in E; [injection E as <-; reflexivity|].
  destruct (nth_error l k); [|discriminate]. destruct (gather l idx) as [r'|]; [|discriminate].
  injection E as <-. cbn [length]. f_equal. now apply IH.
Qed.

Lemma built_ok l : built_set l -> leaf_ok l.
Proof.
  intros (indices & coefficients & times & order & vstart & vend & conv & td & E & E1 & E2 & E3 & Hv & Hd & Ho).
  destruct (indices_entries indices coefficients times order vstart vend conv td
    (fun i n m H => proj1 (Hv i n m H)) Hd E) as (A1 & A2 & A3 & A4 & A5 & cs & Lc & Ee).
  assert (X : (1 <= length (td_times td))%nat /\ length (td_times td) = length times /\
              forall e, In e (s_entries (td_sparse td)) -> length (e_c e) = length (td_times td)).
  { unfold mk_time_dependent in E. destruct ((_ =? _)%nat && _) eqn:C; [|discriminate].
    destruct (gather times (argsort times)) as [times'|] eqn:G; [|discriminate].
    destruct (all_some _) as [cs'|] eqn:Ec; [|discriminate].
    destruct times' as [|first rest]; [discriminate|]. set (times' := first :: rest) in *.
    destruct (mk_sparse _) as [s|] eqn:Es; [|discriminate].
    destruct (_ || _)%bool eqn:So; [|discriminate]. assert (Et : td_times td = map conv times') by (injection E as <-; reflexivity).
    assert (Et' : td_sparse td = s) by (injection E as <-; reflexivity). rewrite Et, Et'.
    rewrite map_length. split; [cbn; lia|].
    pose proof (gather_length _ _ _ G) as G1. apply all_some_in in Ec as [_ Ec].
    assert (At : length (argsort times) = length times).
    { rewrite (Permutation.Permutation_length (argsort_perm times)). apply seq_length. }
    split; [congruence|]. destruct (mk_sparse_spec _ _ Es) as (Ese & _). rewrite Ese. intros e He.
    apply in_map_iff in He as ([nm c] & <- & He). cbn [e_c snd]. apply in_combine_r in He. apply Ec in He.
    apply in_map_iff in He as (c0 & He & _). apply gather_length in He. congruence. }
  destruct X as (X1 & X2 & X3). split; rewrite ?E1, ?E2, ?E3.
  - exact A1.
  - intros e He. rewrite Ee in He. apply in_map_iff in He as ([[n m] c] & <- & He). cbn [e_n e_m fst snd].
    apply in_combine_l in He. apply In_nth_error in He as [i Hi]. now apply (Hv i).
  - exact A3.
  - destruct A5 as [->| ->]; [left|right]; split; try exact A4; [exact X1|]. rewrite X2. now apply Ho.
  - exact X3.
Qed.

(** ** One set *)
Lemma lookup_some ws a v : lookup ws a = Some v -> In (a, v) ws.
Proof.
  induction ws as [|[b w] ws IH]; cbn [lookup]; [discriminate|].
  destruct (lookup ws a) as [u|]; [intro E; injection E as ->; right; now apply IH|].
  destruct (aeqb_spec a b) as [->|N]; [|discriminate]. intro E. injection E as ->. left. reflexivity.
Qed.

Lemma combine_map {A B C} (f : A -> B) (g : A -> C) (l : list A) : combine (map f l) (map g l) = map (fun x => (f x, g x)) l.
Proof. induction l as [|a l IH]; [reflexivity|]. cbn [map combine]. now rewrite IH. Qed.

Lemma subset_of l lo hi : leaf_ok l -> exists d sel, subset_degree (td_sparse (fst l)) lo hi = (d, sel) /\
  (forall e, In e sel <-> In e (s_entries (td_sparse (fst l))) /\ within_bounds lo hi (e_n e)) /\
  ((exists e, In e sel /\ e_n e = d) \/ sel = [] /\ d = 0%Z) /\ (forall e, In e sel -> (e_n e <= d)%Z).
Proof.
  intro K. destruct (subset_degree (td_sparse (fst l)) lo hi) as [d sel] eqn:E. exists d, sel. split; [reflexivity|].
  destruct (subset_spec _ _ lo hi d sel (lo_sparse l K) E) as (A & _ & B & D). auto.
Qed.

Lemma leaf_usable l lo hi : leaf_ok l -> usable_set (coefficient_set l lo hi).
Proof.
  intro K. destruct (subset_of l lo hi K) as (d & sel & E & A & _). unfold coefficient_set. rewrite E. cbv zeta.
  unfold usable_set. split; [pose proof (lo_order l K); tauto|]. split; [now rewrite !map_length|]. split.
  - intros r Hr. apply in_map_iff in Hr as (e & <- & He). apply A in He as [He _]. now apply (lo_len l K).
  - intros n m H. apply in_map_iff in H as (e & E' & He). injection E' as <- <-. apply A in He as [He _].
    now apply (lo_valid l K).
Qed.

Lemma leaf_parsed l lo hi d sel : leaf_ok l -> subset_degree (td_sparse (fst l)) lo hi = (d, sel) ->
  exists cs, parse_coefset (coefficient_set l lo hi) = Some cs /\ cs_ct cs = td_times (fst l) /\
    cs_order cs = td_order (fst l) /\ cs_degree cs = d /\
    cs_rows cs = map (fun e => (nm_offset (e_n e, e_m e), e_c e)) sel.
Proof.
  intros K E. pose proof (leaf_usable l lo hi K) as U. destruct (parse_ok _ U) as (cs & Ec & _). exists cs. split; [exact Ec|].
  destruct (subset_of l lo hi K) as (d' & sel' & E' & A & B & D). rewrite E in E'. injection E' as <- <-.
  unfold coefficient_set in Ec. rewrite E in Ec. cbv zeta in Ec. unfold parse_coefset in Ec.
  destruct (_ || _)%bool in Ec; [discriminate|]. destruct (negb _) in Ec; [discriminate|].
  destruct (negb _) in Ec; [discriminate|]. injection Ec as <-. cbn [cs_ct cs_order cs_degree cs_rows].
  split; [reflexivity|]. split; [reflexivity|]. split; [|now rewrite map_map, combine_map].
  destruct (fold_max_spec (@fst Z Z) (map (fun e => (e_n e, e_m e)) sel) 0%Z) as (M1 & M2 & M3).
  assert (P : forall e, In e sel -> (0 <= e_n e)%Z).
  { intros e He. apply A in He as [He _]. destruct (lo_valid l K e He) as [[Q _] _]. exact Q. }
  apply Z.le_antisymm.
  - destruct M1 as [M1|([n m] & M1 & M4)].
    + rewrite M1. destruct B as [(e & He & <-)|[_ ->]]; [now apply P|lia].
    + rewrite <- M4. apply in_map_iff in M1 as (e & Q & He). injection Q as <- <-. cbn [fst]. now apply D.
  - destruct B as [(e & He & <-)|[-> ->]]; [|cbn; lia].
    apply (M3 (e_n e, e_m e)). apply in_map_iff. eauto.
Qed.

Lemma interp_one_extrapolate l t b cv : leaf_ok l ->
  get_interp_basis (td_kind (td_order (fst l))) (Some t) (td_times (fst l)) = Some b ->
  interp_one (td_times (fst l)) cv (td_kind (td_order (fst l))) true (Some t)
    = interp_eval (td_kind (td_order (fst l))) b cv.
Proof.
  intros K E. unfold interp_one. rewrite E.
  assert (X : exists x, is_last (Some t) (td_times (fst l)) = Some x).
  { unfold is_last. destruct (aread_some (td_times (fst l)) (Z.of_nat (length (td_times (fst l))) - 1)) as [x ->];
      [pose proof (lo_order l K); lia|]. eauto. }
  destruct X as [x ->]. reflexivity.
Qed.

Lemma all_some_gen {A B} (f : A -> option B) (g : nat -> B) (l : list A) : forall s,
  (forall k r, nth_error l k = Some r -> f r = Some (g (s + k)%nat)) ->
  all_some (map f l) = Some (map g (seq s (length l))).
Proof.
  induction l as [|a l IH]; intros s H; [reflexivity|]. cbn [map all_some length seq].
  rewrite (H 0%nat a eq_refl), Nat.add_0_r, (IH (Datatypes.S s)); [reflexivity|].
  intros k r E. rewrite (H (Datatypes.S k) r E). f_equal. f_equal. lia.
Qed.

Lemma nth_map_seq {A} (g : nat -> A) n k d : (k < n)%nat -> nth k (map g (seq 0 n)) d = g k.
Proof.
  intro H. rewrite (nth_indep _ d (g 0%nat)) by (now rewrite map_length, seq_length).
  rewrite map_nth, seq_nth by exact H. reflexivity.
Qed.

Definition rows_coefs (r : list (R * R)) : coefs := fun k => nth k r (0, 0)%R.

Lemma leaf_rows_ok l time lo hi : leaf_ok l -> exists cs r,
  parse_coefset (coefficient_set l lo hi) = Some cs /\
  leaf_rows l time lo hi = Some (r, cs_degree cs) /\ Z.of_nat (length r) = coeff_size_z (cs_degree cs) /\
  (0 <= cs_degree cs < 2 ^ 24)%Z /\
  forall a, cell (rows_coefs r) a = defl (lookup (writes cs (apply_convert (snd l) time)) a).
Proof.
  intro K. destruct (subset_of l lo hi K) as (d & sel & E & A & B & D).
  destruct (leaf_parsed l lo hi d sel K E) as (cs & Ep & C1 & C2 & C3 & C4).
  set (t := apply_convert (snd l) time).
  assert (Kk : kind_of cs = td_kind (td_order (fst l))) by (unfold kind_of, td_kind; now rewrite C2).
  assert (Sk : set_ok (nterm_of (Z.to_nat (max_degree [cs]))) cs).
  { assert (F : Forall2 (fun s c => parse_coefset s = Some c /\ usable_set s) [coefficient_set l lo hi] [cs]).
    { constructor; [|constructor]. split; [exact Ep|now apply leaf_usable]. }
    pose proof (sets_ok _ _ F) as G. now inversion G. }
  destruct (basis_ok _ cs t Sk) as (b & Eb & _ & _). pose proof (row_val_ok _ cs t b Sk Eb) as Rv.
  assert (V : forall e, In e sel -> interp_one (td_times (fst l)) (e_c e) (td_kind (td_order (fst l))) true (Some t)
                          = Some (Some (row_val cs t (e_c e)))).
  { intros e He. rewrite Kk, C1 in Eb. rewrite (interp_one_extrapolate l t b (e_c e) K Eb), <- Kk.
    apply (Rv (nm_offset (e_n e, e_m e)) (e_c e)). rewrite C4. apply in_map_iff. eauto. }
  assert (Nt : (min_nt (td_kind (td_order (fst l))) <=? length (td_times (fst l)))%nat = true).
  { apply Nat.leb_le. destruct (lo_order l K) as [[-> L]|[-> L]]; exact L. }
  destruct (sparse_call_spec (Some (Some 0%R)) (s_entries (td_sparse (fst l))) (td_sparse (fst l))
    (fun c => interp_one (td_times (fst l)) c (td_kind (td_order (fst l))) true (nmap (apply_convert (snd l)) (Some time))) lo hi
    (fun e He => proj1 (lo_valid l K e He)) (lo_distinct l K) (lo_sparse l K)) as (fl & d' & Ef & Ls & Hin & Hz & Hd1 & Hd2).
  cbn [nmap] in Ef, Hin. fold t in Ef, Hin.
  assert (d' = d).
  { apply Z.le_antisymm.
    - destruct Hd1 as [(e & He & Hw & <-)|[Hn ->]]; [apply D, A; auto|].
      destruct B as [(e & He & <-)|[_ ->]]; [|lia]. apply A in He as [He _]. destruct (lo_valid l K e He) as [[Q _] _]. exact Q.
    - destruct B as [(e & He & <-)|[Hs ->]]; [apply A in He as [He Hw]; now apply Hd2|].
      destruct Hd1 as [(e & He & Hw & <-)|[Hn ->]]; [|lia]. destruct (lo_valid l K e He) as [[Q _] _]. exact Q. }
  subst d'.
  assert (D0 : (0 <= d < 2 ^ 24)%Z).
  { destruct B as [(e & He & <-)|[_ ->]]; [|lia]. apply A in He as [He _]. destruct (lo_valid l K e He) as [[Q _] Q']. lia. }
  (* the cells *)
  assert (Cell : forall k (c : bool), (k < length fl)%nat ->
    cell_value fl (Z.of_nat k) (if c then 1 else 0)%Z = Some (Some (Some (defl (lookup (writes cs t) (k, c)))))).
  { intros k c Hk. destruct (lookup (writes cs t) (k, c)) as [v|] eqn:Lk; cbn [defl].
    - apply lookup_some in Lk. unfold writes in Lk. rewrite C4, map_map in Lk. apply in_map_iff in Lk as (e & Q & He).
      cbn [fst snd] in Q. assert (Qa : addr (nm_offset (e_n e, e_m e)) = (k, c)) by congruence.
      assert (Qv : row_val cs t (e_c e) = v) by congruence. clear Q.
      pose proof (proj1 (A e) He) as [He1 Hw]. destruct (lo_valid l K e He1) as [Vn _].
      rewrite nm_offset_addr in Qa by exact Vn.
      pose proof (f_equal fst Qa) as Q1. pose proof (f_equal snd Qa) as Q2. cbn [fst snd] in Q1, Q2.
      pose proof (index_bounds (e_n e) (e_n e) (e_m e) Vn ltac:(lia)) as [B1 B2].
      pose proof (Hin e He1 Hw) as Hc. rewrite (V e He), Qv in Hc. etransitivity; [|exact Hc]. apply f_equal2; [lia|].
      destruct (Z.eqb_spec (snd (index_of (e_n e) (e_m e))) 1); subst c; lia.
    - apply Hz; [lia|destruct c; lia|]. intros e He Hw Q.
      apply lookup_none in Lk. apply Lk. unfold writes. rewrite C4, !map_map. apply in_map_iff. exists e. cbn [fst snd].
      split; [|apply A; auto]. destruct (lo_valid l K e He) as [Vn _]. rewrite nm_offset_addr by exact Vn. rewrite Q. cbn [fst snd].
      rewrite Nat2Z.id. destruct c; reflexivity. }
  exists cs, (map (fun k => (defl (lookup (writes cs t) (k, false)), defl (lookup (writes cs t) (k, true)))) (seq 0 (length fl))).
  split; [exact Ep|]. rewrite C3. split; [|split; [now rewrite map_length, seq_length|split; [exact D0|]]].
  - unfold leaf_rows, td_call. rewrite Nt. cbn [nmap]. fold t. rewrite Ef. unfold plain_cells.
    rewrite (all_some_gen _ (fun k => (defl (lookup (writes cs t) (k, false)), defl (lookup (writes cs t) (k, true)))) fl 0); [reflexivity|].
    intros k r Hr. assert (Hk : (k < length fl)%nat) by (apply nth_error_Some; congruence).
    pose proof (Cell k false Hk) as X. pose proof (Cell k true Hk) as Y. unfold cell_value in X, Y.
    destruct (Z.ltb_spec (Z.of_nat k) 0); [lia|]. rewrite Nat2Z.id, Hr in X, Y. cbn [Z.eqb Pos.eqb] in X, Y.
    destruct r as [r1 r2]. cbn [fst snd] in X, Y. injection X as ->. injection Y as ->. reflexivity.
  - intros [k c]. unfold cell, rows_coefs. cbn [fst snd].
    destruct (Nat.lt_ge_cases k (length fl)) as [Hk|Hk].
    + rewrite nth_map_seq by exact Hk. destruct c; reflexivity.
    + rewrite nth_overflow by (now rewrite map_length, seq_length).
      assert (Lk : lookup (writes cs t) (k, c) = None).
      { destruct (lookup (writes cs t) (k, c)) as [v|] eqn:Lk; [|reflexivity]. exfalso.
        apply lookup_some in Lk. unfold writes in Lk. rewrite C4, map_map in Lk. apply in_map_iff in Lk as (e & Q & He).
        cbn [fst snd] in Q. assert (Qa : addr (nm_offset (e_n e, e_m e)) = (k, c)) by congruence.
        pose proof (proj1 (A e) He) as [He1 Hw]. destruct (lo_valid l K e He1) as [Vn _].
        rewrite nm_offset_addr in Qa by exact Vn. pose proof (f_equal fst Qa) as Q1. cbn [fst] in Q1.
        pose proof (index_bounds d (e_n e) (e_m e) Vn (D e He)) as [B1 _]. lia. }
      rewrite Lk. destruct c; reflexivity.
Qed.

(** ** Sums *)
Lemma add_rows_length base : forall new, length (add_rows base new) = length base.
Proof.
  induction base as [|[a b] base IH]; intros [|[c d] new]; cbn [add_rows length]; try reflexivity. now rewrite IH.
Qed.
Lemma add_rows_nth base : forall new k, (length new <= length base)%nat ->
  nth k (add_rows base new) (0, 0)%R = (fst (nth k base (0, 0)) + fst (nth k new (0, 0)), snd (nth k base (0, 0)) + snd (nth k new (0, 0)))%R.
Proof.
  induction base as [|[a b] base IH]; intros [|[c d] new] k L; cbn [add_rows length] in *; try lia.
  - destruct k; cbn [nth fst snd]; apply f_equal2; ring.
  - destruct k; cbn [nth fst snd]; [apply f_equal2; ring|]. destruct (nth k base (0, 0)%R); cbn [fst snd]; apply f_equal2; ring.
  - destruct k; cbn [nth fst snd]; [reflexivity|]. apply IH. lia.
Qed.
Lemma add_rows_cell base new a : (length new <= length base)%nat ->
  cell (rows_coefs (add_rows base new)) a = (cell (rows_coefs base) a + cell (rows_coefs new) a)%R.
Proof.
  intro L. destruct a as [k c]. unfold cell, rows_coefs. cbn [fst snd]. rewrite add_rows_nth by exact L. destruct c; reflexivity.
Qed.

Definition sum_cells (rs : list (list (R * R))) (a : nat * bool) : R :=
  fold_right (fun r s => (cell (rows_coefs r) a + s)%R) 0%R rs.
Lemma fold_rows_cell rs a : forall base, (forall r, In r rs -> (length r <= length base)%nat) ->
  cell (rows_coefs (fold_left add_rows rs base)) a = (cell (rows_coefs base) a + sum_cells rs a)%R /\
  length (fold_left add_rows rs base) = length base.
Proof.
  induction rs as [|r rs IH]; intros base H; cbn [fold_left sum_cells fold_right]; [split; [ring|reflexivity]|].
  destruct (IH (add_rows base r)) as [A B].
  { intros r' Hr'. rewrite add_rows_length. apply H. right. exact Hr'. }
  rewrite A, B, add_rows_length, add_rows_cell by (apply H; left; reflexivity). fold (sum_cells rs a). split; [ring|reflexivity].
Qed.

(** ** Combined sets *)
Definition leaf_res (lo hi : Z) (time : R) (l : leaf_set) (p : coefset * list (R * R)) : Prop :=
  parse_coefset (coefficient_set l lo hi) = Some (fst p) /\
  leaf_rows l time lo hi = Some (snd p, cs_degree (fst p)) /\
  Z.of_nat (length (snd p)) = coeff_size_z (cs_degree (fst p)) /\ (0 <= cs_degree (fst p) < 2 ^ 24)%Z /\
  forall a, cell (rows_coefs (snd p)) a = defl (lookup (writes (fst p) (apply_convert (snd l) time)) a).

Lemma leaves_res lo hi time items : List.Forall leaf_ok items -> exists ps, Forall2 (leaf_res lo hi time) items ps.
Proof.
  induction items as [|l items IH]; intro K; [exists []; constructor|]. inversion K as [|? ? K1 K2]; subst.
  destruct (leaf_rows_ok l time lo hi K1) as (cs & r & H). destruct (IH K2) as [ps Hp]. exists ((cs, r) :: ps).
  constructor; [exact H|exact Hp].
Qed.

Lemma size_mono a b : (0 <= a <= b)%Z -> (coeff_size_z a <= coeff_size_z b)%Z.
Proof. intro H. pose proof (size2 a). pose proof (size2 b). nia. Qed.

Lemma fold_zmax l : forall d, fold_left Z.max l d = fold_left (fun d x => Z.max d x) l d.
Proof. reflexivity. Qed.

Lemma repeat_cell n a : cell (rows_coefs (repeat (0, 0)%R n)) a = 0%R.
Proof.
  destruct a as [k c]. unfold cell, rows_coefs. cbn [fst snd].
  assert (E : nth k (repeat (0, 0)%R n) (0, 0)%R = (0, 0)%R).
  { destruct (Nat.lt_ge_cases k n) as [H|H]; [now rewrite nth_repeat|]. apply nth_overflow. now rewrite repeat_length. }
  rewrite E. destruct c; reflexivity.
Qed.

Lemma sum_disjoint lo hi time t items : forall ps, Forall2 (leaf_res lo hi time) items ps ->
  (forall l, In l items -> leaf_ok l /\ apply_convert (snd l) time = t) -> disjoint_sets items ->
  forall a, sum_cells (map snd ps) a = defl (flook (map fst ps) t a).
Proof.
  induction items as [|l items IH]; intros ps F K Dj a; inversion F as [|? p ? ps' P F']; subst; [reflexivity|].
  cbn [map sum_cells fold_right flook]. fold (sum_cells (map snd ps') a).
  assert (Dj' : disjoint_sets items).
  { intros i j x y nm Hi Hj H1 H2. assert (Datatypes.S i = Datatypes.S j); [|lia].
    exact (Dj (Datatypes.S i) (Datatypes.S j) x y nm Hi Hj H1 H2). }
  rewrite (IH ps' F' (fun l' H => K l' (or_intror H)) Dj' a).
  destruct P as (P1 & _ & _ & _ & P5). destruct (K l (or_introl eq_refl)) as [Kl Kt]. rewrite P5, Kt.
  destruct (flook (map fst ps') t a) as [v|] eqn:Fl; cbn [defl]; [|ring].
  assert (N : lookup (writes (fst p) t) a = None); [|rewrite N; cbn [defl]; ring].
  destruct (lookup (writes (fst p) t) a) as [w|] eqn:Lw; [|reflexivity]. exfalso.
  (* a set of the rest writes a *)
  assert (X : exists j l' p', nth_error items j = Some l' /\ leaf_res lo hi time l' p' /\ lookup (writes (fst p') t) a <> None).
  { clear - F' Fl. revert Fl. induction F' as [|l0 p0 items ps' P0 F' IHf]; cbn [map flook]; [discriminate|].
    destruct (flook (map fst ps') t a) as [u|].
    - intro H. destruct (IHf H) as (j & l' & p' & H'). exists (Datatypes.S j), l', p'. exact H'.
    - intro H. exists 0%nat, l0, p0. split; [reflexivity|]. split; [exact P0|congruence]. }
  destruct X as (j & l' & p' & Hj & (Q1 & _) & Lq).
  assert (Kl' : leaf_ok l') by (apply (K l'); right; eapply nth_error_In; exact Hj).
  assert (Lw' : lookup (writes (fst p) t) a <> None) by congruence.
  apply (writes_in _ _ t a P1 (leaf_usable l lo hi Kl)) in Lw' as (n & m & I1 & ->).
  apply (writes_in _ _ t _ Q1 (leaf_usable l' lo hi Kl')) in Lq as (n' & m' & I2 & Ea).
  assert (Sub : forall x nm, leaf_ok x -> In nm (set_nms (coefficient_set x lo hi)) -> In nm (leaf_nms x)).
  { intros x nm Kx Hx. destruct (subset_of x lo hi Kx) as (d & sel & E & A & _). unfold coefficient_set in Hx. rewrite E in Hx.
    cbn [set_nms] in Hx. apply in_map_iff in Hx as (e & <- & He). unfold leaf_nms. apply in_map_iff. exists e. split; [reflexivity|].
    now apply A. }
  apply addr_inj in Ea as [-> ->];
    [|apply (valid_of _ n m (leaf_usable l lo hi Kl) I1)|apply (valid_of _ n' m' (leaf_usable l' lo hi Kl') I2)].
  apply Sub in I1; [|exact Kl]. apply Sub in I2; [|exact Kl'].
  pose proof (Dj 0%nat (Datatypes.S j) l l' (n', m') eq_refl Hj I1 I2). discriminate.
Qed.

Lemma no_stale_items lo hi items : List.Forall leaf_ok items -> disjoint_sets items ->
  no_stale (map (fun l => coefficient_set l lo hi) items).
Proof.
  intros K Dj i j a b Hij Hi Hj _ (nm & H1 & H2).
  assert (X : forall k s, nth_error (map (fun l => coefficient_set l lo hi) items) k = Some s -> In nm (set_nms s) ->
     exists l, nth_error items k = Some l /\ In nm (leaf_nms l)).
  { intros k s E H. destruct (nth_error items k) as [l|] eqn:El.
    - rewrite (map_nth_error _ _ _ El) in E. injection E as <-. exists l. split; [reflexivity|].
      assert (Kl : leaf_ok l) by (rewrite List.Forall_forall in K; apply K; eapply nth_error_In; exact El).
      destruct (subset_of l lo hi Kl) as (d & sel & E & A & _). unfold coefficient_set in H. rewrite E in H.
      cbn [set_nms] in H. apply in_map_iff in H as (e & <- & He). unfold leaf_nms. apply in_map_iff. exists e. split; [reflexivity|].
      now apply A.
    - apply nth_error_None in El. assert (k < length items)%nat; [|lia].
      rewrite <- (map_length (fun l => coefficient_set l lo hi)). apply nth_error_Some. congruence. }
  destruct (X i a Hi H1) as (la & La & Ia). destruct (X j b Hj H2) as (lb & Lb & Ib).
  pose proof (Dj i j la lb nm La Lb Ia Ib). lia.
Qed.

Lemma parsed_items lo hi time items ps : Forall2 (leaf_res lo hi time) items ps ->
  parse_coefsets (map (fun l => coefficient_set l lo hi) items) = Some (map fst ps).
Proof.
  induction 1 as [|l p items ps P F IH]; cbn [map parse_coefsets]; [reflexivity|]. destruct P as (-> & _). now rewrite IH.
Qed.
Lemma rows_items lo hi time items ps : Forall2 (leaf_res lo hi time) items ps ->
  all_some (map (fun l => leaf_rows l time lo hi) items) = Some (map (fun p => (snd p, cs_degree (fst p))) ps).
Proof.
  induction 1 as [|l p items ps P F IH]; cbn [map all_some]; [reflexivity|]. destruct P as (_ & -> & _). now rewrite IH.
Qed.

Lemma convert_first items time : (1 <= length items)%nat -> same_conversion items time ->
  forall l, In l items -> apply_convert (snd l) time = apply_convert (first_convert items) time.
Proof.
  intros L H l Hl.
  assert (X : (exists l', In l' items /\ first_convert items = snd l')).
  { clear H Hl. destruct items as [|x items]; [cbn in L; lia|]. clear L. revert x.
    induction items as [|y items IH]; intros [td o]; cbn [first_convert].
    - exists (td, o). split; [left; reflexivity|]. destruct o; reflexivity.
    - destruct o as [f|]; [exists (td, Some f); split; [left; reflexivity|reflexivity]|].
      destruct (IH y) as (l' & I' & E). exists l'. split; [right; exact I'|]. exact E. }
  destruct X as (l' & I' & ->). now apply H.
Qed.

Lemma single_time_value items internal lo hi time x ci co s0 s1 s2 mem ps :
  List.Forall leaf_ok items -> Forall2 (leaf_res lo hi time) items ps ->
  exists rows, eval_single_time items internal lo hi time x ci co (s0, s1, s2) mem =
    Some (Ok (dims x, map (fun ix => point_value (cfg0 internal (Z.to_nat (max_degree (map fst ps))) ci co 1%R (- s0, - s1, - s2)%R)
                                      SM_GRADIENT (at_index x ix) (rows_coefs rows)) (indices (dims x)))) /\
    forall a, cell (rows_coefs rows) a = sum_cells (map snd ps) a.
Proof.
  intros K F. set (css := map fst ps).
  pose proof (rows_items lo hi time items ps F) as Er.
  unfold eval_single_time, combined_call. rewrite Er.
  (* the degree *)
  rewrite !map_map. cbn [fst snd]. set (N := fold_left Z.max (map (fun p => cs_degree (fst p)) ps) 0%Z).
  assert (EN : N = max_degree css).
  { unfold N, max_degree, css. generalize 0%Z as d. clear. induction ps as [|p ps IH]; intro d; cbn [map fold_left]; [reflexivity|]. apply IH. }
  assert (Pos : (0 <= N < 2 ^ 24)%Z /\ forall p, In p ps -> (0 <= cs_degree (fst p) <= N)%Z).
  { destruct (fold_max_spec (fun z : Z => z) (map (fun p => cs_degree (fst p)) ps) 0%Z) as (M1 & M2 & M3).
    change (fold_left (fun d x => Z.max d x) (map (fun p => cs_degree (fst p)) ps) 0%Z) with N in *.
    assert (B : forall p, In p ps -> (0 <= cs_degree (fst p) < 2 ^ 24)%Z).
    { intros p Hp. clear - F Hp. induction F as [|l q items ps P F IH]; [destruct Hp|]. destruct Hp as [->|Hp]; [apply P|now apply IH]. }
    split.
    - split; [exact M2|]. destruct M1 as [->|(z & Hz & <-)]; [lia|]. apply in_map_iff in Hz as (p & <- & Hp). apply (B p Hp).
    - intros p Hp. split; [apply (B p Hp)|]. apply M3. apply in_map_iff. eauto. }
  destruct Pos as [PN Pp].
  set (base := repeat (0, 0)%R (Z.to_nat (coeff_size_z N))).
  pose proof (size2 N) as S2.
  assert (Lr : forall r, In r (map snd ps) -> (length r <= length base)%nat).
  { intros r Hr. apply in_map_iff in Hr as (p & <- & Hp). unfold base. rewrite repeat_length.
    assert (Lp : Z.of_nat (length (snd p)) = coeff_size_z (cs_degree (fst p))).
    { clear - F Hp. induction F as [|l q items ps P F IH]; [destruct Hp|]. destruct Hp as [->|Hp]; [apply P|now apply IH]. }
    pose proof (size_mono (cs_degree (fst p)) N (Pp p Hp)). lia. }
  assert (Hm : map (fun x : coefset * list (R * R) => snd x) ps = map snd ps) by reflexivity. rewrite Hm.
  set (rows := fold_left add_rows (map snd ps) base).
  assert (Lrows : Z.of_nat (length rows) = coeff_size_z N).
  { unfold rows. destruct (fold_rows_cell (map snd ps) (0%nat, false) base Lr) as [_ ->]. unfold base. rewrite repeat_length. nia. }
  assert (Csz : (1 <= Z.of_nat (length rows) < 2 ^ 50)%Z).
  { rewrite Lrows. change (2 ^ 24)%Z with 16777216%Z in PN. change (2 ^ 50)%Z with 1125899906842624%Z. nia. }
  assert (Ed : eff_degree (Z.of_nat (length rows)) N = Z.to_nat N).
  { apply eff_degree_spec; [exact Csz|]. exists (Z.to_nat N). rewrite Z2Nat.id by lia. split; [rewrite Lrows; lia|].
    destruct (Z.ltb_spec N 0); [lia|]. now rewrite Nat.min_id. }
  destruct (call_ok_size (Z.of_nat (length rows)) N Csz) as [Co1 Co2].
  destruct (proj2 (sheval_succeeds x (Z.of_nat (length rows)) (scalar_array (fun k => nth k rows (0, 0)%R)) ci co SM_GRADIENT internal N
    1%R (- s0, - s1, - s2)%R mem)) as [[od out] Eo].
  { split; [exact Co1|]. split; [exact Co2|]. right. exists (dims x). reflexivity. }
  exists rows. split.
  - pose proof (sheval_value _ _ _ _ _ _ _ _ _ _ _ _ _ Eo) as [-> ->]. rewrite Eo, Ed, EN. cbn [dims scalar_array].
    assert (Od : (if (length (dims x) <? @length nat [])%nat then [] else dims x) = dims x) by (destruct (dims x); reflexivity).
    rewrite Od. reflexivity.
  - intro a. unfold rows. destruct (fold_rows_cell (map snd ps) a base Lr) as [-> _]. unfold base. now rewrite repeat_cell, Rplus_0_l.
Qed.

Lemma interpolated_value items internal lo hi time x ci co s0 s1 s2 mem ps :
  (1 <= length items <= 16)%nat -> List.Forall leaf_ok items -> Forall2 (leaf_res lo hi time) items ps ->
  no_stale (map (fun l => coefficient_set l lo hi) items) ->
  eval_interpolated items internal lo hi (nd0 time) x ci co (s0, s1, s2) mem =
    Ok (dims x, map (fun ix => point_value (cfg0 internal (Z.to_nat (max_degree (map fst ps))) ci co 1%R (- s0, - s1, - s2)%R)
                                 SM_GRADIENT (at_index x ix) (full (map fst ps) (apply_convert (first_convert items) time)))
                 (indices (dims x))).
Proof.
  intros L K F N. unfold eval_interpolated.
  rewrite (shevaltemp_value _ x _ ci co SM_GRADIENT internal 1%R (- s0, - s1, - s2)%R mem (map fst ps)); cbn [dims nd0 get].
  2: now rewrite map_length.
  2: { apply List.Forall_forall. intros s Hs'. apply in_map_iff in Hs' as (l & <- & Hl). apply leaf_usable.
       rewrite List.Forall_forall in K. now apply K. }
  2: exact N.
  2: left; eexists; reflexivity.
  2: exact (parsed_items lo hi time items ps F).
  assert (Od : (if (length (dims x) <=? @length nat [])%nat then [] else dims x) = dims x) by (destruct (dims x); reflexivity).
  cbv zeta. rewrite Od. reflexivity.
Qed.

Lemma paths_agree items internal lo hi time x ci co scale mem mem' :
  (1 <= length items <= 16)%nat -> List.Forall built_set items -> disjoint_sets items -> same_conversion items time ->
  exists r, eval_interpolated items internal lo hi (nd0 time) x ci co scale mem = Ok r /\
    eval_single_time items internal lo hi time x ci co scale mem' = Some (Ok r).
Proof.
  intros L Hb Dj Hs. assert (K : List.Forall leaf_ok items) by (eapply List.Forall_impl; [|exact Hb]; apply built_ok).
  destruct (leaves_res lo hi time items K) as [ps F]. set (t := apply_convert (first_convert items) time).
  assert (Kt : forall l, In l items -> leaf_ok l /\ apply_convert (snd l) time = t).
  { intros l Hl. split; [rewrite List.Forall_forall in K; now apply K|]. apply convert_first; [lia|exact Hs|exact Hl]. }
  destruct scale as [[s0 s1] s2].
  rewrite (interpolated_value items internal lo hi time x ci co s0 s1 s2 mem ps L K F (no_stale_items lo hi items K Dj)).
  destruct (single_time_value items internal lo hi time x ci co s0 s1 s2 mem' ps K F) as (rows & -> & Hc).
  eexists. split; [reflexivity|].
  assert (Cs : rows_coefs rows = full (map fst ps) t).
  { apply cells_eq. intro a. rewrite full_cell, Hc. apply (sum_disjoint lo hi time t items ps F Kt Dj a). }
  rewrite Cs. reflexivity.
Qed.

(** arrays of times and positions *)
Lemma paths_agree_arrays items internal lo hi time x ci co scale mem odims out :
  List.Forall built_set items -> disjoint_sets items -> (forall ix, same_conversion items (at_index time ix)) ->
  eval_interpolated items internal lo hi time x ci co scale mem = Ok (odims, out) ->
  length out = length (indices odims) /\
  forall k ix, nth_error (indices odims) k = Some ix ->
    exists o, nth_error out k = Some o /\ forall mem',
      eval_single_time items internal lo hi (at_index time ix) (nd0 (at_index x ix)) ci co scale mem' = Some (Ok ([], [o])).
Proof.
  intros Hb Dj Hs E. assert (K : List.Forall leaf_ok items) by (eapply List.Forall_impl; [|exact Hb]; apply built_ok).
  assert (L : (1 <= length items <= 16)%nat).
  { unfold eval_interpolated in E. destruct scale as [[s0 s1] s2]. unfold shevaltemp in E.
    rewrite map_length in E. destruct (Nat.ltb_spec (length items) 1); [discriminate|].
    destruct (Nat.ltb_spec 16 (length items)); [discriminate|]. lia. }
  assert (U : List.Forall usable_set (map (fun l => coefficient_set l lo hi) items)).
  { apply List.Forall_forall. intros s Hs'. apply in_map_iff in Hs' as (l & <- & Hl). apply leaf_usable.
    rewrite List.Forall_forall in K. now apply K. }
  pose proof E as E0. unfold eval_interpolated in E0. destruct scale as [[s0 s1] s2].
  destruct (temp_pointwise _ _ _ _ _ _ _ _ _ _ _ _ U (no_stale_items lo hi items K Dj) E0) as [H1 H2].
  split; [exact H1|]. intros k ix Hk. destruct (H2 k ix Hk) as (o & Ho & Hs1). exists o. split; [exact Ho|]. intro mem'.
  destruct (paths_agree items internal lo hi (at_index time ix) (nd0 (at_index x ix)) ci co (s0, s1, s2) mem' mem' L Hb Dj (Hs ix))
    as (r & A & B). rewrite B. f_equal. rewrite <- A. unfold eval_interpolated. apply (Hs1 mem').
Qed.

(** ** No access outside of the buffers *)
Lemma update_total nterm css t st : List.Forall (set_ok nterm) css -> exists st', update_coef nterm css t st = Some st'.
Proof.
  intro K. unfold update_coef. destruct (neq_last (ts_time_last st) t); [|eauto].
  assert (X : forall css idxs c, List.Forall (set_ok nterm) css -> exists r, coeff_interp nterm t css idxs c = Some r).
  { clear K. induction css0 as [|cs css0 IH]; intros [|i idxs] c K; cbn [coeff_interp]; eauto.
    inversion K as [|? ? K1 K2]; subst. destruct (set_interp_ok nterm t cs i c K1) as (c' & i' & -> & _).
    destruct (IH idxs c' K2) as [[c'' is''] ->]. eauto. }
  destruct (X css (ts_idx_last st) (ts_coef st) K) as [[c is'] ->]. eauto.
Qed.

Lemma items_total cfg nterm css mode : List.Forall (set_ok nterm) css ->
  forall tdims odims t x st, exists r, shevaltemp_items cfg nterm css mode tdims odims t x st = Some r.
Proof.
  intro K. induction tdims as [|d ds IH]; intros odims t x st; cbn [shevaltemp_items].
  - destruct (update_total nterm css (get t []) st K) as [st1 ->]. destruct (sheval_items _ _ _ _ _ _). eauto.
  - revert st. generalize (seq 0 d) as is. induction is as [|i is IHi]; intro st; [eauto|].
    destruct (IH (tl odims) (nd_item t i) (nd_item x i) st) as [[o st1] ->]. destruct (IHi st1) as [[os st2] ->]. eauto.
Qed.

Lemma temp_in_bounds t x sets ci co mode internal sp sg mem : List.Forall usable_set sets ->
  shevaltemp t x sets ci co mode internal sp sg mem <> Err OutOfBounds.
Proof.
  intro U. unfold shevaltemp. destruct (_ <? 1)%nat; [discriminate|]. destruct (16 <? _)%nat; [discriminate|].
  destruct (parse_sets_ok sets U) as (css & -> & F). cbv zeta. destruct (negb _); [discriminate|].
  destruct (model_init _ _ _ _ _ _ _) as [cfg sh]. fold (max_degree css).
  match goal with |- context [shevaltemp_items ?a ?b ?c ?d ?e ?f ?g ?h ?i] =>
    destruct (items_total a b c d (sets_ok sets css F) e f g h i) as [[out st] ->] end. discriminate.
Qed.
