(** Proofs about the evaluation of time series of coefficients. *)

From Coq Require Import Bool List Arith ZArith Reals Lia Lra Permutation Sorting.Sorted.
From Verif Require Import Ord ROrd CoefModel CoefProofs BisectModel BisectSpec BisectProofs
  InterpModel InterpSpec InterpProofs SparseModel SparseSpec SparseProofs SnapshotProofs SeriesModel.
Import ListNotations.
Open Scope nat_scope.

Lemma packed_index n m row col : packed_row n m row -> packed_col m col -> index_of n m = (row, col).
Proof.
  intros Hr Hc. destruct (index_spec n m) as [H1 H2]. destruct (index_of n m) as [r c]. simpl in *.
  unfold packed_row, packed_col in *. f_equal; lia.
Qed.

Section Cells.
Context {C V : Type}.

(** The full coefficient array in terms of the packed layout *)
Lemma sparse_call_packed (vzero : V) (entries : list (@entry C)) s (val : C -> V) lo hi :
  (forall e, In e entries -> valid_nm (e_n e) (e_m e)) -> distinct_entries entries ->
  mk_sparse entries = Some s ->
  exists full degree, sparse_call vzero s val lo hi = Some (full, degree) /\
    (2 * Z.of_nat (length full) = (degree + 1) * (degree + 2))%Z /\
    (forall e row col, In e entries -> within_bounds lo hi (e_n e) ->
       packed_row (e_n e) (e_m e) row -> packed_col (e_m e) col ->
       cell_value full row col = Some (val (e_c e))) /\
    (forall row col, (0 <= row < Z.of_nat (length full))%Z -> (0 <= col <= 1)%Z ->
       (forall e, In e entries -> within_bounds lo hi (e_n e) ->
          packed_row (e_n e) (e_m e) row -> ~ packed_col (e_m e) col) ->
       cell_value full row col = Some vzero) /\
    ((exists e, In e entries /\ within_bounds lo hi (e_n e) /\ e_n e = degree) \/
     (forall e, In e entries -> ~ within_bounds lo hi (e_n e)) /\ degree = 0%Z) /\
    (forall e, In e entries -> within_bounds lo hi (e_n e) -> (e_n e <= degree)%Z).
Proof.
  intros Hv D Es.
  destruct (sparse_call_spec vzero entries s val lo hi Hv D Es) as (full & degree & E & L & A & B & G & H).
  exists full, degree. split; auto. split; [rewrite L; apply size2|]. split; [|split; [|split]]; auto.
  - intros e row col He Hw Hr Hc. specialize (A e He Hw).
    rewrite (packed_index _ _ _ _ Hr Hc) in A. exact A.
  - intros row col Hr Hc Hn. apply B; auto; [lia|]. intros e He Hw Hi.
    destruct (index_spec (e_n e) (e_m e)) as [H1 H2]. rewrite Hi in *. exact (Hn e He Hw H1 H2).
Qed.

End Cells.

Lemma increasing_of_sorted (l : list R) : StronglySorted le l -> distinct_times l -> increasing l.
Proof.
  intros S D. intros i j a b Hij Hi Hj.
  assert (L : (a <= b)%R).
  { clear D. revert i j Hij Hi Hj. induction S as [|x l S IH F]; intros i j Hij Hi Hj;
      [destruct i; discriminate|]. destruct j as [|j]; [lia|]. destruct i as [|i]; simpl in Hi, Hj.
    - injection Hi as <-. rewrite Forall_forall in F. apply le_R, F. eapply nth_error_In; eauto.
    - apply (IH i j); auto. lia. }
  destruct (D i j a b) as [H|H]; auto; [lia| |]; apply lt_R in H; lra.
Qed.

Lemma combine_in_nth {A B} : forall (a : list A) (b : list B) x y, In (x, y) (combine a b) ->
  exists k, nth_error a k = Some x /\ nth_error b k = Some y.
Proof.
  induction a as [|a0 a IH]; intros [|b0 b] x y H; simpl in H; try contradiction.
  destruct H as [H|H].
  - injection H as -> ->. exists 0. auto.
  - destruct (IH b x y H) as [k Hk]. exists (S k). auto.
Qed.

Lemma increasing_last_index (l : list R) k t : increasing l -> nth_error l k = Some t ->
  last_index (fun a => le a t) l (Z.of_nat k).
Proof.
  intros I Hk. assert (k < length l) by (apply nth_error_Some; congruence). split; [lia|].
  intros j a Hj. rewrite le_R. split; intro H1.
  - destruct (Nat.le_gt_cases j k) as [L|L]; [lia|]. pose proof (I k j t a L Hk Hj). lra.
  - destruct (Nat.eq_dec j k) as [->|N]; [rewrite Hj in Hk; injection Hk as ->; lra|].
    apply Rlt_le. apply (I j k); auto. lia.
Qed.

Lemma indices_entries {T} {OT : TOrd T} {V} indices (coefficients : list (list V)) (times : list T) order
  vstart vend (conv : T -> T) td :
  (forall i n m, nth_error indices i = Some (n, m) -> valid_nm n m) ->
  (forall i j p, nth_error indices i = Some p -> nth_error indices j = Some p -> i = j) ->
  mk_time_dependent indices coefficients times order vstart vend conv = Some td ->
  mk_sparse (s_entries (td_sparse td)) = Some (td_sparse td) /\
  (forall e, In e (s_entries (td_sparse td)) -> valid_nm (e_n e) (e_m e)) /\
  distinct_entries (s_entries (td_sparse td)) /\
  td_order td = order /\ (order = 1 \/ order = 2)%Z /\
  exists cs, length cs = length indices /\
    s_entries (td_sparse td) = map (fun x => {| e_n := fst (fst x); e_m := snd (fst x); e_c := snd x |})
                             (combine indices cs).
Proof.
  intros Hv Hd. unfold mk_time_dependent. destruct ((_ =? _) && _) eqn:C; [|discriminate].
  apply andb_true_iff in C as [C1 C2]. apply Nat.eqb_eq in C1.
  destruct (gather times (argsort times)) as [times'|]; [|discriminate].
  destruct (all_some _) as [cs|] eqn:Ec; [|discriminate].
  destruct times' as [|first rest]; [discriminate|].
  destruct (mk_sparse _) as [s|] eqn:Es; [|discriminate].
  destruct (_ || _)%bool eqn:So; [|discriminate]. intro H. injection H as <-. cbn [td_sparse td_order].
  assert (Lc : length cs = length indices).
  { rewrite C1. clear -Ec. revert cs Ec. generalize (map (fun c : list V => gather c (argsort times)) coefficients) (map_length (fun c : list V => gather c (argsort times)) coefficients).
    intro l. generalize (length coefficients). induction l as [|x l IH]; intros n Hn cs Ec; simpl in *.
    - injection Ec as <-. auto.
    - destruct x; [|discriminate]. destruct (all_some l); [|discriminate]. injection Ec as <-.
      simpl. destruct n; [discriminate|]. f_equal. apply IH; auto. }
  destruct (mk_sparse_spec _ _ Es) as (Ese & _). rewrite Ese. split; [exact Es|].
  assert (N : forall i e, nth_error (map (fun x => {| e_n := fst (fst x); e_m := snd (fst x); e_c := snd x |})
                             (combine indices cs)) i = Some e -> nth_error indices i = Some (e_n e, e_m e)).
  { intros i e H. assert (i < length (combine indices cs)).
    { rewrite <- (map_length (fun x => {| e_n := fst (fst x); e_m := snd (fst x); e_c := snd x |})).
      apply nth_error_Some. congruence. }
    destruct (nth_error (combine indices cs) i) as [[[n m] c]|] eqn:E; [|apply nth_error_None in E; lia].
    rewrite (map_nth_error _ _ _ E) in H. injection H as <-. simpl.
    clear -E. revert cs i E. induction indices as [|p l IH]; intros [|c0 cs] [|i] E; simpl in *; try discriminate.
    - congruence.
    - eapply IH; eauto. }
  split; [|split; [|split; [|split]]].
  - intros e He. apply In_nth_error in He as [i Hi]. apply (Hv i), N, Hi.
  - intros i j a b Hi Hj En Em. apply N in Hi, Hj. rewrite En, Em in Hi. eapply Hd; eauto.
  - reflexivity.
  - apply orb_true_iff in So as [So|So]; apply Z.eqb_eq in So; auto.
  - exists cs. split; [exact Lc|reflexivity].
Qed.

Lemma nmap_id t : nmap (fun x : R => x) t = t.
Proof. destruct t; reflexivity. Qed.

(** A time series evaluated at the time of a snapshot gives the snapshot *)
Lemma snapshot_value indices coefficients times order vstart vend td k tk i n m c v lo hi row col :
  (forall i n m, nth_error indices i = Some (n, m) -> valid_nm n m) ->
  (forall i j p, nth_error indices i = Some p -> nth_error indices j = Some p -> i = j) ->
  distinct_times times -> (order = 2%Z -> 2 <= length times) ->
  mk_time_dependent indices coefficients times order vstart vend (fun x => x) = Some td ->
  nth_error times k = Some tk -> nth_error indices i = Some (n, m) ->
  nth_error coefficients i = Some c -> nth_error c k = Some v ->
  within_bounds lo hi n -> packed_row n m row -> packed_col m col ->
  exists full degree, td_call td (fun x => x) (Some tk) lo hi = Some (full, degree) /\
    cell_value full row col = Some (Some (Some v)).
Proof.
  intros Hv Hd D H2 E Hk Hi Hc Hcv Hw Hr Hcol.
  destruct (indices_entries indices coefficients times order vstart vend _ td Hv Hd E)
    as (Es & Ev & Ed & Eo & Ho & _).
  destruct (snapshot_sorted indices coefficients times order vstart vend _ td E)
    as (times' & P & S & Et & _ & _ & _ & _ & G).
  rewrite map_id in Et. destruct (G i n m c Hi Hc) as (c' & He & Lc & Pc).
  assert (I : increasing times').
  { apply increasing_of_sorted; auto. eapply distinct_perm; [apply Permutation_sym|]; eauto. }
  assert (exists k', nth_error times' k' = Some tk /\ nth_error c' k' = Some v) as (k' & Hk' & Hv').
  { apply combine_in_nth. apply (Permutation_in _ (Permutation_sym Pc)).
    eapply nth_error_In. apply nth_error_combine; eauto. }
  unfold td_call. rewrite Eo, Et.
  assert (Ln : min_nt (td_kind order) <= length times').
  { rewrite (Permutation_length P). unfold td_kind. destruct Ho as [->| ->]; cbn -[length].
    - assert (k < length times) by (apply nth_error_Some; congruence). lia.
    - apply H2. reflexivity. }
  apply Nat.leb_le in Ln. rewrite Ln.
  destruct (sparse_call_packed (Some (Some 0%R)) _ (td_sparse td)
    (fun c => interp_one times' c (td_kind order) true (nmap (fun x => x) (Some tk))) lo hi Ev Ed Es)
    as (full & degree & Ef & _ & A & _).
  exists full, degree. split; auto.
  rewrite (A {| e_n := n; e_m := m; e_c := c' |} row col (nth_error_In _ _ He) Hw Hr Hcol).
  f_equal. cbn [e_c nmap]. unfold td_kind. destruct Ho as [->| ->]; cbn -[interp_one].
  - apply (const_at times' c' true tk k'); auto.
    + apply increasing_sorted. exact I.
    + apply increasing_last_index; auto.
  - apply (linear_node times' c' true k'); auto. rewrite (Permutation_length P). apply H2. reflexivity.
Qed.

(** ** Constant sets *)

Section Constant.
Context {T : Type} {OT : TOrd T} {OI : TInf T} {V : Type}.

Lemma constant_value indices (coefficients : list V) vstart vend td vzero (t : option T) i n m v lo hi row col :
  (forall i n m, nth_error indices i = Some (n, m) -> valid_nm n m) ->
  (forall i j p, nth_error indices i = Some p -> nth_error indices j = Some p -> i = j) ->
  mk_constant indices coefficients vstart vend (fun x => x) = Some td ->
  nth_error indices i = Some (n, m) -> nth_error coefficients i = Some v ->
  within_bounds lo hi n -> packed_row n m row -> packed_col m col ->
  exists full degree, constant_call vzero td t lo hi = Some (full, degree) /\
    cell_value full row col = Some (Some v).
Proof.
  intros Hv Hd E Hi Hc Hw Hr Hcol.
  destruct (indices_entries _ _ _ _ _ _ _ td Hv Hd E) as (Es & Ev & Ed & _ & _ & _).
  destruct (snapshot_sorted _ _ _ _ _ _ _ td E) as (times' & P & S & Et & _ & _ & _ & _ & G).
  apply Permutation_sym, Permutation_length_1_inv in P. subst times'. rewrite map_id in Et.
  destruct (G i n m [v] Hi) as (c' & He & Lc & Pc); [apply (map_nth_error (fun v => [v])); exact Hc|].
  destruct c' as [|v' [|? ?]]; try discriminate. simpl in Pc.
  apply Permutation_sym, Permutation_length_1_inv in Pc. injection Pc as ->.
  destruct (sparse_call_packed (Some vzero) _ (td_sparse td)
    (fun c => interp0_series (td_times td) c t) lo hi Ev Ed Es) as (full & degree & Ef & _ & A & _).
  exists full, degree. split; auto.
  rewrite (A {| e_n := n; e_m := m; e_c := [v] |} row col (nth_error_In _ _ He) Hw Hr Hcol).
  f_equal. cbn [e_c]. rewrite Et. unfold interp0_series.
  destruct (bisect_right_total t [@ninf T OT OI]) as (j & -> & B). simpl length in *.
  replace (clip j 0 (Z.of_nat 1 - 1)) with 0%Z; [reflexivity|].
  unfold clip. destruct (Z.ltb_spec j 0); auto. destruct (Z.ltb_spec (Z.of_nat 1 - 1) j); lia.
Qed.

Lemma constant_validity indices (coefficients : list V) td :
  mk_constant indices coefficients None None (fun x : T => x) = Some td ->
  td_validity td = (ninf, pinf).
Proof.
  intro E. destruct (snapshot_sorted _ _ _ _ _ _ _ td E) as (times' & _ & _ & _ & _ & _ & H1 & H2 & _).
  specialize (H1 _ eq_refl). specialize (H2 _ eq_refl). destruct (td_validity td). simpl in *. congruence.
Qed.

End Constant.

(** ** Examples *)

Definition ex_indices : list (Z * Z) := [(1, 0); (1, 1); (2, -1)]%Z.
Definition ex_series : list (list Z) := [[1; 2; 3]; [4; 5; 6]; [7; 8; 9]]%Z.

Lemma ex_indices_valid : (forall i n m, nth_error ex_indices i = Some (n, m) -> valid_nm n m) /\
  (forall i j p, nth_error ex_indices i = Some p -> nth_error ex_indices j = Some p -> i = j).
Proof.
  split.
  - intros [|[|[|i]]] n m H; simpl in H; try (destruct i; discriminate); injection H as <- <-; unfold valid_nm; lia.
  - intros [|[|[|i]]] [|[|[|j]]] p Hi Hj; simpl in *; auto; try congruence;
      try (destruct i; discriminate); try (destruct j; discriminate).
Qed.

Lemma ex_snapshots : distinct_times [zf 5; zf 1; zf 3] /\
  exists td, mk_time_dependent ex_indices ex_series [zf 5; zf 1; zf 3] 2 None None (fun x => x) = Some td /\
    td_times td = [zf 1; zf 3; zf 5] /\ td_validity td = (zf 1, zf 5) /\
    map e_c (s_entries (td_sparse td)) = [[2; 3; 1]; [5; 6; 4]; [8; 9; 7]]%Z.
Proof.
  split.
  - intros i j a b N Hi Hj. 
    destruct i as [|[|[|i]]]; destruct j as [|[|[|j]]]; simpl in Hi, Hj; try lia;
      try (destruct i; discriminate); try (destruct j; discriminate);
      injection Hi as <-; injection Hj as <-; (left; reflexivity) || (right; reflexivity).
  - eexists. split; [vm_compute; reflexivity|]. split; [reflexivity|]. split; reflexivity.
Qed.

Lemma ex_entries_valid : exists s,
  mk_sparse [{| e_n := 1; e_m := 0; e_c := 3 |}; {| e_n := 1; e_m := -1; e_c := 4 |};
             {| e_n := 2; e_m := 2; e_c := 5 |}; {| e_n := 3; e_m := 0; e_c := 6 |}]%Z = Some s /\
  sparse_call 0%Z s (fun c => c) 1 2 =
    Some ([(0, 0); (3, 0); (0, 4); (0, 0); (0, 0); (5, 0)]%Z, 2%Z).
Proof. eexists. split; [reflexivity|]. vm_compute. reflexivity. Qed.

Lemma ex_index : (valid_nm 3 (-2) /\ index_of 3 (-2) = (8, 1) /\ coeff_size_z 3 = 10)%Z.
Proof. split; [unfold valid_nm; lia|split; reflexivity]. Qed.
