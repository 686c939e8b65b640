(** Proofs about the sparse coefficients. *)

From Coq Require Import Bool List Arith ZArith Lia Permutation Sorting.Sorted.
From Verif Require Import Ord CoefModel ValidityProofs SparseModel SparseSpec.
Import ListNotations.
Open Scope Z_scope.

(** ** The packed index *)

Lemma tri2 n : 2 * (n * (n + 1) / 2) = n * (n + 1).
Proof.
  assert (H : (n * (n + 1)) mod 2 = 0).
  { destruct (Z.Even_or_Odd n) as [[k ->]|[k ->]].
    - replace (2 * k * (2 * k + 1)) with (k * (2 * k + 1) * 2) by ring. apply Z.mod_mul. lia.
    - replace ((2 * k + 1) * (2 * k + 1 + 1)) with ((2 * k + 1) * (k + 1) * 2) by ring.
      apply Z.mod_mul. lia. }
  pose proof (Z.div_mod (n * (n + 1)) 2 ltac:(lia)). lia.
Qed.

Lemma size2 n : 2 * coeff_size_z n = (n + 1) * (n + 2).
Proof.
  unfold coeff_size_z. pose proof (tri2 (n + 1)) as H.
  replace ((n + 2) * (n + 1)) with ((n + 1) * (n + 1 + 1)) by ring. rewrite H. ring.
Qed.

Lemma index_spec n m : packed_row n m (fst (index_of n m)) /\ packed_col m (snd (index_of n m)).
Proof.
  unfold index_of, packed_row, packed_col. cbn [fst snd]. pose proof (tri2 n). split; [lia|].
  destruct (Z.ltb_spec m 0); lia.
Qed.

Lemma index_bounds N n m : valid_nm n m -> n <= N ->
  0 <= fst (index_of n m) < coeff_size_z N /\ 0 <= snd (index_of n m) <= 1.
Proof.
  intros [H1 H2] H3. destruct (index_spec n m) as [R C]. unfold packed_row, packed_col in *.
  pose proof (size2 N). split; [|lia]. nia.
Qed.

Lemma row_inj n m n' m' row : valid_nm n m -> valid_nm n' m' ->
  packed_row n m row -> packed_row n' m' row -> n = n' /\ Z.abs m = Z.abs m'.
Proof.
  unfold valid_nm, packed_row. intros [A1 A2] [B1 B2] H1 H2.
  assert (n = n'); [|subst; lia].
  destruct (Z.lt_trichotomy n n') as [L|[L|L]]; auto; exfalso; nia.
Qed.

Lemma index_inj n m n' m' : valid_nm n m -> valid_nm n' m' ->
  (index_of n m = index_of n' m' <-> n = n' /\ m = m').
Proof.
  intros V V'. split; [|intros [-> ->]; reflexivity]. intro E.
  destruct (index_spec n m) as [R C]. destruct (index_spec n' m') as [R' C']. rewrite <- E in R', C'.
  destruct (row_inj n m n' m' _ V V' R R') as [-> H]. split; auto.
  unfold packed_col in *. lia.
Qed.

Lemma tri_cover row : 0 <= row -> exists n, 0 <= n /\ n * (n + 1) <= 2 * row < (n + 1) * (n + 2).
Proof.
  intro H. rewrite <- (Z2Nat.id row H). generalize (Z.to_nat row) as k. clear.
  induction k as [|k IH].
  - exists 0. lia.
  - destruct IH as (n & H0 & H1 & H2).
    destruct (Z.le_gt_cases ((n + 1) * (n + 2)) (2 * Z.of_nat (S k))) as [L|L].
    + exists (n + 1). split; [lia|]. split; nia.
    + exists n. split; [lia|]. split; lia.
Qed.

Lemma index_surj N row col : 0 <= N -> 0 <= row < coeff_size_z N -> 0 <= col <= 1 ->
  (exists n m, valid_nm n m /\ n <= N /\ index_of n m = (row, col)) <->
  ~ (col = 1 /\ exists n, 2 * row = n * (n + 1) /\ 0 <= n).
Proof.
  intros HN Hr Hc. destruct (tri_cover row ltac:(lia)) as (n & Hn0 & Hn1 & Hn2).
  pose proof (size2 N) as S. assert (HnN : n <= N) by nia.
  split.
  - intros (n' & m & V & _ & E) (-> & k & Hk & Hk0).
    destruct (index_spec n' m) as [R C]. rewrite E in R, C. cbn [fst snd] in *.
    unfold packed_row, packed_col, valid_nm in *.
    assert (m <> 0) by lia. destruct (Z.lt_trichotomy n' k) as [L|[L|L]]; nia.
  - intro H. set (a := row - n * (n + 1) / 2). pose proof (tri2 n) as T.
    assert (Ha : 0 <= a <= n) by (unfold a; lia).
    destruct (Z.eq_dec col 0) as [->|H0].
    + exists n, a. split; [unfold valid_nm; lia|]. split; auto. unfold index_of.
      destruct (Z.ltb_spec a 0); [lia|]. f_equal. unfold a in *. lia.
    + assert (col = 1) as -> by lia.
      assert (a <> 0). { intro Ha0. apply H. split; auto. exists n. split; auto. unfold a in Ha0. lia. }
      exists n, (- a). split; [unfold valid_nm; lia|]. split; auto. unfold index_of.
      destruct (Z.ltb_spec (- a) 0); [|lia]. f_equal. unfold a in *. lia.
Qed.

(** ** Cell assignment *)

Section Cells.
Context {V : Type}.

Lemma set_row_spec {A} (f : A -> A) : forall (l : list A) k, (k < length l)%nat ->
  exists r, set_row l k f = Some r /\ length r = length l /\
    forall j, nth_error r j = if (j =? k)%nat then option_map f (nth_error l j) else nth_error l j.
Proof.
  induction l as [|x l IH]; intros k Hk; [simpl in Hk; lia|]. destruct k as [|k]; simpl.
  - exists (f x :: l). split; auto. split; auto. intros [|j]; reflexivity.
  - destruct (IH k) as (r & -> & L & H); [simpl in Hk; lia|]. exists (x :: r).
    split; auto. split; [simpl; lia|]. intros [|j]; simpl; auto.
Qed.

Lemma set_cell_spec (full : list (V * V)) row col v : 0 <= row < Z.of_nat (length full) -> 0 <= col <= 1 ->
  exists full', set_cell full (row, col) v = Some full' /\ length full' = length full /\
    forall r c, 0 <= c <= 1 -> cell_value full' r c =
      if (r =? row) && (c =? col) then Some v else cell_value full r c.
Proof.
  intros Hr Hc. unfold set_cell. destruct (Z.ltb_spec row 0); [lia|].
  destruct (set_row_spec (fun r : V * V => if col =? 0 then (v, snd r) else (fst r, v)) full (Z.to_nat row))
    as (full' & E & L & H'); [lia|]. exists full'. split; auto. split; auto.
  intros r c Hcc. unfold cell_value. destruct (Z.ltb_spec r 0).
  - destruct (Z.eqb_spec r row); [lia|]. reflexivity.
  - rewrite H'. destruct (Nat.eqb_spec (Z.to_nat r) (Z.to_nat row)) as [E'|E'].
    + assert (r = row) as -> by lia. rewrite Z.eqb_refl. cbn [andb].
      destruct (nth_error full (Z.to_nat row)) as [x|] eqn:Ex.
      * cbn [option_map]. assert (c = 0 \/ c = 1) as [-> | ->] by lia;
          assert (col = 0 \/ col = 1) as [-> | ->] by lia; reflexivity.
      * apply nth_error_None in Ex. lia.
    + destruct (Z.eqb_spec r row) as [->|]; [lia|]. reflexivity.
Qed.

Definition cells_ok (n : nat) (cells : list ((Z * Z) * V)) : Prop :=
  forall rc v, In (rc, v) cells -> 0 <= fst rc < Z.of_nat n /\ 0 <= snd rc <= 1.

Lemma assign_cells_spec : forall (cells : list ((Z * Z) * V)) (full : list (V * V)),
  cells_ok (length full) cells -> NoDup (map fst cells) ->
  exists full', assign_cells full cells = Some full' /\ length full' = length full /\
    (forall rc v, In (rc, v) cells -> cell_value full' (fst rc) (snd rc) = Some v) /\
    (forall r c, 0 <= c <= 1 -> ~ In (r, c) (map fst cells) -> cell_value full' r c = cell_value full r c).
Proof.
  induction cells as [|[[row col] v] cells IH]; intros full Ok Nd; cbn [assign_cells].
  - exists full. split; auto. split; auto. split; [intros ? ? []|auto].
  - destruct (Ok (row, col) v (or_introl eq_refl)) as [B1 B2]. cbn [fst snd] in *.
    destruct (set_cell_spec full row col v B1 B2) as (f1 & -> & L1 & H1).
    inversion_clear Nd as [|? ? Ni Nd'].
    destruct (IH f1) as (f2 & E2 & L2 & H2 & H3); auto.
    { intros rc w Hw. rewrite L1. apply (Ok rc w). right; auto. }
    exists f2. split; auto. split; [lia|]. split.
    + intros rc w [Hw|Hw]; [|auto]. injection Hw as <- <-. cbn [fst snd].
      rewrite H3, H1 by (auto; lia). rewrite !Z.eqb_refl. reflexivity.
    + intros r c Hc Hn. simpl in Hn. rewrite H3, H1; auto.
      destruct (Z.eqb_spec r row); destruct (Z.eqb_spec c col); cbn [andb]; auto.
      subst. exfalso. apply Hn. left; auto.
Qed.

End Cells.

(** ** Degrees *)

Lemma fold_max_spec {A} (f : A -> Z) (l : list A) : forall d,
  (fold_left (fun d x => Z.max d (f x)) l d = d \/ exists x, In x l /\ f x = fold_left (fun d x => Z.max d (f x)) l d) /\
  d <= fold_left (fun d x => Z.max d (f x)) l d /\
  (forall x, In x l -> f x <= fold_left (fun d x => Z.max d (f x)) l d).
Proof.
  induction l as [|a l IH]; intro d; cbn [fold_left].
  - split; auto. split; [lia|intros x []].
  - destruct (IH (Z.max d (f a))) as (H1 & H2 & H3). split; [|split].
    + destruct H1 as [H1|(x & Hx & H1)].
      * destruct (Z.max_spec d (f a)) as [[_ E]|[_ E]].
        -- right. exists a. split; [left; auto|]. lia.
        -- left. lia.
      * right. exists x. split; [right; auto|auto].
    + lia.
    + intros x [<-|Hx]; [lia|auto].
Qed.

Lemma fold_min_spec {A} (f : A -> Z) (l : list A) : forall d,
  (fold_left (fun d x => Z.min d (f x)) l d = d \/ exists x, In x l /\ f x = fold_left (fun d x => Z.min d (f x)) l d) /\
  fold_left (fun d x => Z.min d (f x)) l d <= d /\
  (forall x, In x l -> fold_left (fun d x => Z.min d (f x)) l d <= f x).
Proof.
  induction l as [|a l IH]; intro d; cbn [fold_left].
  - split; auto. split; [lia|intros x []].
  - destruct (IH (Z.min d (f a))) as (H1 & H2 & H3). split; [|split].
    + destruct H1 as [H1|(x & Hx & H1)].
      * destruct (Z.min_spec d (f a)) as [[_ E]|[_ E]].
        -- left. lia.
        -- right. exists a. split; [left; auto|]. lia.
      * right. exists x. split; [right; auto|auto].
    + lia.
    + intros x [<-|Hx]; [lia|auto].
Qed.

Section Subset.
Context {C V : Type} (vzero : V).

Lemma mk_sparse_spec (entries : list (@entry C)) s : mk_sparse entries = Some s ->
  s_entries s = entries /\ entries <> [] /\
  (exists e, In e entries /\ e_n e = s_degree s) /\ (forall e, In e entries -> e_n e <= s_degree s) /\
  (exists e, In e entries /\ e_n e = s_min_degree s) /\ (forall e, In e entries -> s_min_degree s <= e_n e).
Proof.
  destruct entries as [|e rest]; [discriminate|]. intro E. injection E as <-.
  cbn [s_entries s_degree s_min_degree]. split; auto. split; [discriminate|].
  destruct (fold_max_spec e_n rest (e_n e)) as (A1 & A2 & A3).
  destruct (fold_min_spec e_n rest (e_n e)) as (B1 & B2 & B3).
  split; [|split; [|split]].
  - destruct A1 as [A1|(x & Hx & A1)]; [exists e; split; [left; auto|auto]|exists x; split; [right; auto|auto]].
  - intros x [<-|Hx]; auto.
  - destruct B1 as [B1|(x & Hx & B1)]; [exists e; split; [left; auto|auto]|exists x; split; [right; auto|auto]].
  - intros x [<-|Hx]; auto.
Qed.

Lemma subset_spec (entries : list (@entry C)) s lo hi degree sel :
  mk_sparse entries = Some s -> subset_degree s lo hi = (degree, sel) ->
  (forall e, In e sel <-> In e entries /\ within_bounds lo hi (e_n e)) /\
  (exists f, sel = filter f entries) /\
  ((exists e, In e sel /\ e_n e = degree) \/ sel = [] /\ degree = 0) /\
  (forall e, In e sel -> e_n e <= degree).
Proof.
  intros Es E. destruct (mk_sparse_spec entries s Es) as (E1 & Hne & D1 & D2 & M1 & M2).
  unfold subset_degree in E. rewrite E1 in E.
  set (hi' := if hi <? 0 then s_degree s else hi) in *.
  set (lo' := if lo <? 0 then s_min_degree s else lo) in *.
  assert (Hb : forall e, In e entries -> ((e_n e <=? hi') && (lo' <=? e_n e) = true <-> within_bounds lo hi (e_n e))).
  { intros e He. rewrite andb_true_iff, !Z.leb_le. unfold within_bounds, hi', lo'.
    pose proof (D2 e He). pose proof (M2 e He).
    destruct (Z.ltb_spec lo 0); destruct (Z.ltb_spec hi 0); lia. }
  destruct ((s_min_degree s <? lo') || (hi' <? s_degree s)) eqn:Cs.
  - set (f := fun e : @entry C => (e_n e <=? hi') && (lo' <=? e_n e)) in *.
    assert (Hin : forall e, In e (filter f entries) <-> In e entries /\ within_bounds lo hi (e_n e)).
    { intro e. rewrite filter_In. split; intros [H1 H2]; split; auto; apply (Hb e H1); auto. }
    destruct (filter f entries) as [|e0 rest] eqn:Ef.
    + injection E as <- <-. split; [exact Hin|]. split; [exists f; auto|]. split; [auto|intros ? []].
    + injection E as <- <-. split; [exact Hin|]. split; [exists f; auto|].
      destruct (fold_max_spec e_n rest (e_n e0)) as (A1 & A2 & A3). split.
      * left. destruct A1 as [A1|(x & Hx & A1)]; [exists e0; split; [left; auto|auto]|exists x; split; [right; auto|auto]].
      * intros x [<-|Hx]; auto.
  - injection E as <- <-. apply orb_false_iff in Cs as [C1 C2]. apply Z.ltb_ge in C1, C2.
    assert (Ha : forall e, In e entries -> (e_n e <=? hi') && (lo' <=? e_n e) = true).
    { intros e He. pose proof (D2 e He). pose proof (M2 e He). apply andb_true_iff. rewrite !Z.leb_le. lia. }
    split; [|split; [|split; [left; exact D1|exact D2]]].
    + intro e. split; [|tauto]. intro He. split; auto. apply (Hb e He). auto.
    + exists (fun _ => true). clear. induction entries as [|a l IH]; simpl; congruence.
Qed.

Lemma distinct_filter f (l : list (@entry C)) : distinct_entries l ->
  (forall e, In e l -> valid_nm (e_n e) (e_m e)) ->
  NoDup (map (fun e => index_of (e_n e) (e_m e)) (filter f l)).
Proof.
  intros D Hv. induction l as [|a l IH]; simpl; [constructor|].
  assert (D' : distinct_entries l).
  { intros i j x y Hi Hj H1 H2. assert (S i = S j); [|lia]. apply (D (S i) (S j) x y); auto. }
  specialize (IH D' (fun e He => Hv e (or_intror He))).
  destruct (f a); simpl; auto. constructor; auto. rewrite in_map_iff. intros (b & Hb & Hin).
  apply filter_In in Hin as [Hin _]. apply In_nth_error in Hin as [j Hj].
  apply index_inj in Hb as [Hb1 Hb2];
    [|apply Hv; right; eapply nth_error_In; eauto|apply Hv; left; reflexivity].
  assert (0%nat = S j); [|lia]. apply (D 0%nat (S j) a b); auto.
Qed.

Lemma cell_zeros n r c : 0 <= c <= 1 -> cell_value (repeat (vzero, vzero) n) r c = Some vzero \/
  cell_value (repeat (vzero, vzero) n) r c = None /\ (r < 0 \/ Z.of_nat n <= r).
Proof.
  intros Hc. unfold cell_value. destruct (Z.ltb_spec r 0); [right; auto|].
  destruct (nth_error (repeat (vzero, vzero) n) (Z.to_nat r)) as [x|] eqn:E.
  - left. pose proof E as E'. apply nth_error_In, repeat_spec in E'. subst.
    assert (c = 0 \/ c = 1) as [-> | ->] by lia; reflexivity.
  - right. split; auto. right. apply nth_error_None in E. rewrite repeat_length in E. lia.
Qed.

(** The full statement *)
Lemma sparse_call_spec (entries : list (@entry C)) s (val : C -> V) lo hi :
  (forall e, In e entries -> valid_nm (e_n e) (e_m e)) -> distinct_entries entries ->
  mk_sparse entries = Some s ->
  exists full degree, sparse_call vzero s val lo hi = Some (full, degree) /\
    Z.of_nat (length full) = coeff_size_z degree /\
    (forall e, In e entries -> within_bounds lo hi (e_n e) ->
       cell_value full (fst (index_of (e_n e) (e_m e))) (snd (index_of (e_n e) (e_m e))) = Some (val (e_c e))) /\
    (forall row col, 0 <= row < coeff_size_z degree -> 0 <= col <= 1 ->
       (forall e, In e entries -> within_bounds lo hi (e_n e) -> index_of (e_n e) (e_m e) <> (row, col)) ->
       cell_value full row col = Some vzero) /\
    ((exists e, In e entries /\ within_bounds lo hi (e_n e) /\ e_n e = degree) \/
     (forall e, In e entries -> ~ within_bounds lo hi (e_n e)) /\ degree = 0) /\
    (forall e, In e entries -> within_bounds lo hi (e_n e) -> e_n e <= degree).
Proof.
  intros Hv D Es. unfold sparse_call. destruct (subset_degree s lo hi) as [degree sel] eqn:E.
  destruct (subset_spec entries s lo hi degree sel Es E) as (S1 & (f & S2) & S3 & S4).
  assert (Hd : 0 <= degree).
  { destruct S3 as [(e & He & <-)|[_ ->]]; [|lia]. apply S1 in He as [He _]. destruct (Hv e He). auto. }
  set (n := Z.to_nat (coeff_size_z degree)). pose proof (size2 degree) as Sz.
  assert (Hn : Z.of_nat n = coeff_size_z degree) by (unfold n; nia).
  set (cells := map (fun e => (index_of (e_n e) (e_m e), val (e_c e))) sel).
  destruct (assign_cells_spec cells (repeat (vzero, vzero) n)) as (full & Ea & L & H1 & H2).
  { intros rc v Hin. unfold cells in Hin. apply in_map_iff in Hin as (e & Hq & Hin). injection Hq as <- <-.
    rewrite repeat_length, Hn. pose proof (S4 e Hin). apply S1 in Hin as [Hin _].
    apply index_bounds; auto. }
  { unfold cells. rewrite map_map. cbn [fst]. rewrite S2. apply distinct_filter; auto. }
  rewrite Ea. exists full, degree. split; auto. rewrite repeat_length in L.
  split; [lia|]. split; [|split; [|split]].
  - intros e He Hb. apply H1. unfold cells. apply in_map_iff. exists e. split; auto. apply S1. auto.
  - intros row col Hr Hc Hn'. rewrite H2; auto.
    + destruct (cell_zeros n row col Hc) as [H|[_ H]]; auto. lia.
    + unfold cells. rewrite map_map. cbn [fst]. rewrite in_map_iff. intros (e & Hq & Hin).
      apply S1 in Hin as [Hin Hb]. apply (Hn' e Hin Hb Hq).
  - destruct S3 as [(e & He & Hq)|[-> ->]].
    + left. exists e. apply S1 in He as [He Hb]. auto.
    + right. split; auto. intros e He Hb. destruct (proj2 (S1 e) (conj He Hb)).
  - intros e He Hb. apply S4, S1. auto.
Qed.

End Subset.
