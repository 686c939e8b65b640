(** Time series of coefficients between the snapshots. *)

From Coq Require Import Bool List ZArith Reals Lra Lia Arith Permutation Sorting.Sorted.
From Verif Require Import Ord ROrd BisectModel InterpModel InterpSpec InterpProofs SparseModel SparseSpec SparseProofs
  SnapshotProofs SeriesModel SeriesProofs SeriesSpec.
Import ListNotations.
Open Scope R_scope.

Lemma map_increasing (f : R -> R) l : increasing l -> (forall a b, In a l -> In b l -> a < b -> f a < f b) -> increasing (map f l).
Proof.
  intros H Hf i j a b Hij Ha Hb.
  rewrite nth_error_map in Ha, Hb. destruct (nth_error l i) as [x|] eqn:Ex; [|discriminate]. destruct (nth_error l j) as [y|] eqn:Ey; [|discriminate].
  injection Ha as <-. injection Hb as <-. apply Hf; [eapply nth_error_In; eauto..|]. exact (H i j x y Hij Ex Ey).
Qed.

Lemma series_entry indices (coefficients : list (list R)) (times : list R) order vstart vend (f : R -> R) td i n m c :
  distinct_times times -> mk_time_dependent indices coefficients times order vstart vend f = Some td ->
  nth_error indices i = Some (n, m) -> nth_error coefficients i = Some c ->
  exists times' c', td_times td = map f times' /\ increasing times' /\ Permutation times' times /\ length c' = length times' /\
    nth_error (s_entries (td_sparse td)) i = Some {| e_n := n; e_m := m; e_c := c' |} /\
    forall k t v, nth_error times k = Some t -> nth_error c k = Some v ->
      exists k', nth_error times' k' = Some t /\ nth_error c' k' = Some v.
Proof.
  intros D E Hi Hc.
  destruct (snapshot_sorted indices coefficients times order vstart vend f td E) as (times' & P & S & Et & _ & _ & _ & _ & G).
  destruct (G i n m c Hi Hc) as (c' & He & Lc & Pc). exists times', c'. split; [exact Et|]. split; [|split; [exact P|split; [exact Lc|split; [exact He|]]]].
  - apply increasing_of_sorted; auto. eapply distinct_perm; [apply Permutation_sym|]; eauto.
  - intros k t v Hk Hv. apply combine_in_nth. apply (Permutation_in _ (Permutation_sym Pc)). eapply nth_error_In. apply nth_error_combine; eauto.
Qed.

(** The whole array: any valid degree and order. *)
Lemma mk_time_dependent_ok indices (coefficients : list (list R)) (times : list R) vstart vend f :
  indices <> [] -> length indices = length coefficients -> (forall c, In c coefficients -> length c = length times) ->
  times <> [] -> exists td, mk_time_dependent indices coefficients times 2 vstart vend f = Some td.
Proof.
  intros Hi Hl Hc Ht. unfold mk_time_dependent. rewrite (proj2 (Nat.eqb_eq _ _) Hl).
  rewrite (proj2 (forallb_forall _ _)) by (intros c H; apply Nat.eqb_eq; now apply Hc). cbn [andb].
  destruct (argsort_sorted times) as (times' & Et & _). rewrite Et.
  destruct (gather_permuted times (argsort times) (argsort_perm times)) as (r & Er & Pr).
  assert (r = times') as -> by congruence.
  assert (E : exists cs', all_some (map (fun c => gather c (argsort times)) coefficients) = Some cs' /\ length cs' = length coefficients).
  { clear Hl. induction coefficients as [|c cs IH]; [exists []; split; reflexivity|]. cbn [map all_some].
    destruct IH as (cs' & -> & L); [intros; apply Hc; now right|].
    destruct (gather_permuted c (argsort times)) as (r & -> & _).
    { rewrite (Hc c (or_introl eq_refl)). apply argsort_perm. }
    exists (r :: cs'). split; [reflexivity|cbn; now f_equal]. }
  destruct E as (cs' & -> & L).
  destruct times' as [|t0 ts]; [apply Permutation_nil in Pr; contradiction|].
  destruct indices as [|p indices]; [contradiction|]. destruct cs' as [|c cs']; [cbn in *; lia|].
  cbn [combine map mk_sparse]. change ((2 =? 1) || (2 =? 2))%Z with true. cbn iota. eexists. reflexivity.
Qed.

Lemma packed_exists n m : valid_nm n m -> exists row col, packed_row n m row /\ packed_col m col.
Proof. intros _. exists (fst (index_of n m)), (snd (index_of n m)). apply index_spec. Qed.

(** the size of the array of a degree *)
Definition sized (result : list (option (option R) * option (option R)) * Z) : Prop :=
  (2 * Z.of_nat (length (fst result)) = (snd result + 1) * (snd result + 2) /\ 0 <= snd result)%Z.

(** the values of the array of a sparse set *)
Lemma sparse_array {C} (s : @sparse C) (val : C -> option (option R)) lo hi :
  mk_sparse (s_entries s) = Some s ->
  (forall e, In e (s_entries s) -> valid_nm (e_n e) (e_m e)) -> distinct_entries (s_entries s) ->
  exists result, sparse_call (Some (Some 0)) s val lo hi = Some result /\ sized result /\
    (forall e v, In e (s_entries s) -> val (e_c e) = Some (Some v) -> bounded_coefficient lo hi result (e_n e) (e_m e) v) /\
    (forall n m, valid_nm n m -> (forall e, In e (s_entries s) -> ~ (e_n e = n /\ e_m e = m)) -> coefficient result n m 0).
Proof.
  intros Es Ev Ed.
  destruct (sparse_call_packed (Some (Some 0%R)) _ s val lo hi Ev Ed Es) as (full & degree & Ef & Sz & A & Zr & Hdeg & Hmax).
  exists (full, degree). split; [exact Ef|]. split.
  { split; [exact Sz|]. cbn [snd]. destruct Hdeg as [(e & He & _ & <-)|[_ ->]]; [apply (Ev e He)|lia]. }
  assert (Zero : forall n m, valid_nm n m -> (forall e, In e (s_entries s) -> within_bounds lo hi (e_n e) -> ~ (e_n e = n /\ e_m e = m)) ->
    coefficient (full, degree) n m 0).
  { intros n m V Hn. destruct (Z.le_gt_cases n degree) as [L|L]; [left; split; [exact L|]|right; split; [exact L|reflexivity]].
    destruct (packed_exists n m V) as (row & col & Hr & Hc). exists row, col. split; [exact Hr|split; [exact Hc|]].
    apply Zr.
    - unfold packed_row in Hr. destruct V as [V1 V2]. split; [nia|]. assert (2 * row <= n * (n + 1) + 2 * n)%Z by lia. nia.
    - destruct Hc as [[_ ->]|[_ ->]]; lia.
    - intros e He Hw Hr' Hc'. apply (Hn e He Hw).
      assert (Eq : index_of (e_n e) (e_m e) = index_of n m) by (now rewrite (packed_index _ _ _ _ Hr Hc), (packed_index _ _ _ _ Hr' Hc')).
      apply (index_inj _ _ _ _ (Ev e He) V) in Eq. exact Eq. }
  split.
  - intros e v He Hv. split.
    + intro Hw. left. split; [now apply Hmax|]. destruct (packed_exists (e_n e) (e_m e) (Ev e He)) as (row & col & Hr & Hc).
      exists row, col. split; [exact Hr|split; [exact Hc|]]. rewrite (A e row col He Hw Hr Hc), Hv. reflexivity.
    + intro Hw. apply Zero; [now apply Ev|]. intros e' He' Hw' [E1 E2]. apply Hw. now rewrite <- E1.
  - intros n m V Hn. apply Zero; [exact V|]. intros e He _. now apply Hn.
Qed.

Lemma series_interp indices (coefficients : list (list R)) (times : list R) vstart vend (f : R -> R) td i n m c y k l ta ca tb cb :
  distinct_times times -> (forall a b, In a times -> In b times -> a < b -> f a < f b) ->
  mk_time_dependent indices coefficients times 2 vstart vend f = Some td ->
  nth_error indices i = Some (n, m) -> nth_error coefficients i = Some c ->
  nth_error times k = Some ta -> nth_error c k = Some ca -> nth_error times l = Some tb -> nth_error c l = Some cb ->
  neighbours times ta tb -> (f ta <= y \/ first_time times ta) -> (y <= f tb \/ last_time times tb) ->
  exists e, In e (s_entries (td_sparse td)) /\ e_n e = n /\ e_m e = m /\
    interp_one (td_times td) (e_c e) INTERP_C1 true (Some y) = Some (Some (line (f ta) ca (f tb) cb y)).
Proof.
  intros D Hf E Hi Hc Ka Kca Kb Kcb (Hab & Hbetween) Hlow Hhigh.
  destruct (series_entry _ _ _ _ _ _ _ _ _ _ _ _ D E Hi Hc) as (times' & c' & Et & I & P & Lc & He & G).
  exists {| e_n := n; e_m := m; e_c := c' |}. split; [eapply nth_error_In; eauto|]. cbn [e_n e_m e_c].
  split; [reflexivity|split; [reflexivity|]]. rewrite Et.
  destruct (G _ _ _ Ka Kca) as (k' & Ka' & Kca'). destruct (G _ _ _ Kb Kcb) as (l' & Kb' & Kcb').
  assert (Il : In ta times' /\ In tb times') by (split; eapply nth_error_In; eauto).
  assert (Kl : (k' < l')%nat).
  { destruct (Nat.lt_trichotomy k' l') as [L|[L|L]]; [exact L| |].
    - subst l'. rewrite Ka' in Kb'. injection Kb' as ->. lra.
    - pose proof (I l' k' tb ta L Kb' Ka'). lra. }
  assert (l' = S k') as ->.
  { destruct (Nat.eq_dec l' (S k')) as [|N]; [assumption|]. exfalso.
    destruct (nth_error times' (S k')) as [x|] eqn:Ex.
    - apply (Hbetween x).
      + apply (Permutation_in _ P). eapply nth_error_In; eauto.
      + split; [apply (I k' (S k')); auto; lia|apply (I (S k') l'); auto; lia].
    - apply nth_error_None in Ex. assert (l' < length times')%nat by (apply nth_error_Some; congruence). lia. }
  assert (Len : (S k' < length times')%nat) by (apply nth_error_Some; congruence).
  assert (I' : increasing (map f times')).
  { apply map_increasing; [exact I|]. intros a b Ha Hb. apply Hf; now apply (Permutation_in _ P). }
  assert (Sg : segment (map f times') c' k' (f ta) ca (f tb) cb).
  { split; [now apply map_nth_error|]. split; [exact Kca'|]. split; [now apply map_nth_error|exact Kcb']. }
  assert (Lc' : length c' = length (map f times')) by (rewrite map_length; exact Lc).
  destruct (Rle_dec (f ta) y) as [L1|L1]; [destruct (Rle_dec y (f tb)) as [L2|L2]|].
  - apply (linear_between (map f times') c' true y k'); auto.
  - destruct Hhigh as [|Hl]; [contradiction|].
    apply (linear_after (map f times') c' true y k'); auto; [|lra].
    rewrite map_length. destruct (Nat.eq_dec (S (S k')) (length times')) as [|N]; [assumption|]. exfalso.
    destruct (nth_error times' (S (S k'))) as [x|] eqn:Ex; [|apply nth_error_None in Ex; lia].
    assert (tb < x) by (apply (I (S k') (S (S k'))); auto).
    assert (x <= tb) by (apply Hl; apply (Permutation_in _ P); eapply nth_error_In; eauto). lra.
  - destruct Hlow as [|Hl]; [contradiction|].
    assert (k' = O) as ->.
    { destruct k' as [|k']; [reflexivity|]. exfalso. destruct (nth_error times' k') as [x|] eqn:Ex; [|apply nth_error_None in Ex; lia].
      assert (x < ta) by (apply (I k' (S k')); auto).
      assert (ta <= x) by (apply Hl; apply (Permutation_in _ P); eapply nth_error_In; eauto). lra. }
    apply (linear_before (map f times') c' true y); auto. lra.
Qed.

Lemma series_array indices (coefficients : list (list R)) (times : list R) vstart vend (f g : R -> R) td t lo hi :
  (forall i n m, nth_error indices i = Some (n, m) -> valid_nm n m) ->
  (forall i j p, nth_error indices i = Some p -> nth_error indices j = Some p -> i = j) ->
  distinct_times times -> (forall a b, In a times -> In b times -> a < b -> f a < f b) -> (2 <= length times)%nat ->
  mk_time_dependent indices coefficients times 2 vstart vend f = Some td ->
  exists result, td_call td g (Some t) lo hi = Some result /\ sized result /\
    (forall i n m c k l ta ca tb cb, nth_error indices i = Some (n, m) -> nth_error coefficients i = Some c ->
       nth_error times k = Some ta -> nth_error c k = Some ca -> nth_error times l = Some tb -> nth_error c l = Some cb ->
       neighbours times ta tb -> (f ta <= g t \/ first_time times ta) -> (g t <= f tb \/ last_time times tb) ->
       bounded_coefficient lo hi result n m (line (f ta) ca (f tb) cb (g t))) /\
    (forall n m, valid_nm n m -> ~ In (n, m) indices -> coefficient result n m 0).
Proof.
  intros Hv Hd D Hf Hlen E.
  destruct (indices_entries indices coefficients times 2 vstart vend f td Hv Hd E) as (Es & Ev & Ed & Eo & _ & cs & Lcs & Een).
  destruct (snapshot_sorted indices coefficients times 2 vstart vend f td E) as (times' & P & _ & Et & _).
  unfold td_call. rewrite Eo. change (td_kind 2) with INTERP_C1. cbn [min_nt nmap].
  rewrite (proj2 (Nat.leb_le 2 (length (td_times td)))) by (rewrite Et, map_length, (Permutation_length P); lia).
  destruct (sparse_array (td_sparse td) (fun c => interp_one (td_times td) c INTERP_C1 true (Some (g t))) lo hi Es Ev Ed) as (result & Er & Sz & A & Z0).
  exists result. split; [exact Er|split; [exact Sz|split]].
  - intros i n m c k l ta ca tb cb Hi Hc Ka Kca Kb Kcb Hn Hlow Hhigh.
    destruct (series_interp _ _ _ _ _ _ _ _ _ _ _ (g t) _ _ _ _ _ _ D Hf E Hi Hc Ka Kca Kb Kcb Hn Hlow Hhigh) as (e & He & <- & <- & V).
    apply A; assumption.
  - intros n m V Hn. apply Z0; [exact V|]. intros e He [<- <-]. apply Hn.
    rewrite Een in He. apply in_map_iff in He as ([[n' m'] c'] & <- & Hin). cbn [e_n e_m fst snd]. exact (in_combine_l _ _ _ _ Hin).
Qed.

Lemma increasing_neighbours l k ta tb : increasing l -> nth_error l k = Some ta -> nth_error l (S k) = Some tb -> neighbours l ta tb.
Proof.
  intros I Ha Hb. split; [apply (I k (S k)); auto|]. intros x Hx [H1 H2]. apply In_nth_error in Hx as [j Hj].
  destruct (Nat.lt_trichotomy j k) as [L|[L|L]].
  - pose proof (I j k x ta L Hj Ha). lra.
  - subst j. rewrite Ha in Hj. injection Hj as ->. lra.
  - destruct (Nat.eq_dec j (S k)) as [->|N]; [rewrite Hb in Hj; injection Hj as ->; lra|].
    assert (S k < j)%nat as L' by lia. pose proof (I (S k) j tb x L' Hb Hj). lra.
Qed.
Lemma increasing_first l t : increasing l -> nth_error l 0 = Some t -> first_time l t.
Proof.
  intros I Ht x Hx. apply In_nth_error in Hx as [j Hj]. destruct j as [|j]; [rewrite Ht in Hj; injection Hj as ->; lra|].
  apply Rlt_le. apply (I 0%nat (S j)); auto. lia.
Qed.
Lemma increasing_last l t : increasing l -> nth_error l (length l - 1) = Some t -> last_time l t.
Proof.
  intros I Ht x Hx. apply In_nth_error in Hx as [j Hj]. assert (j < length l)%nat by (apply nth_error_Some; congruence).
  destruct (Nat.eq_dec j (length l - 1)) as [->|N]; [rewrite Ht in Hj; injection Hj as ->; lra|].
  apply Rlt_le. apply (I j (length l - 1)%nat); auto. lia.
Qed.
Lemma increasing_distinct l : increasing l -> distinct_times l.
Proof.
  intros I i j a b N Ha Hb. rewrite !lt_R. destruct (Nat.lt_ge_cases i j) as [L|L]; [left|right]; [apply (I i j)|apply (I j i)]; auto. lia.
Qed.
Lemma increasing_snoc l t : increasing l -> (forall x, In x l -> x < t) -> increasing (l ++ [t]).
Proof.
  intros I H i j a b Hij Ha Hb. destruct (Nat.lt_ge_cases j (length l)) as [L|L].
  - rewrite nth_error_app1 in Ha, Hb by lia. exact (I i j a b Hij Ha Hb).
  - rewrite nth_error_app2 in Hb by lia. destruct (j - length l)%nat as [|q] eqn:Ej; [|destruct q; discriminate]. injection Hb as <-.
    rewrite nth_error_app1 in Ha by lia. apply H. eapply nth_error_In; eauto.
Qed.

Lemma series_validity indices (coefficients : list (list R)) (times : list R) order f td t1 t2 : distinct_times times ->
  mk_time_dependent indices coefficients times order None None f = Some td ->
  In t1 times -> first_time times t1 -> In t2 times -> last_time times t2 -> td_validity td = (f t1, f t2).
Proof.
  intros D E H1 F1 H2 L2. destruct (snapshot_sorted _ _ _ _ _ _ _ _ E) as (times' & P & S & _ & V1 & V2 & _).
  destruct (V1 eq_refl) as (a & T1 & Ea). destruct (V2 eq_refl) as (b & T2 & Eb).
  assert (I : increasing times') by (apply increasing_of_sorted; auto; eapply distinct_perm; [apply Permutation_sym|]; eauto).
  assert (a = t1) as ->.
  { apply Rle_antisym; [|apply F1; apply (Permutation_in _ P); eapply nth_error_In; eauto].
    apply (increasing_first _ _ I T1). now apply (Permutation_in _ (Permutation_sym P)). }
  assert (b = t2) as ->.
  { apply Rle_antisym; [apply L2; apply (Permutation_in _ P); eapply nth_error_In; eauto|].
    apply (increasing_last _ _ I T2). now apply (Permutation_in _ (Permutation_sym P)). }
  rewrite <- Ea, <- Eb. apply surjective_pairing.
Qed.
