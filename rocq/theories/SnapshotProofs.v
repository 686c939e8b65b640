(** Proofs about time series of coefficients: independence of the order of the snapshots. *)

From Coq Require Import Bool List Arith ZArith Lia Permutation Sorting.Sorted.
From Verif Require Import Ord CoefModel CoefProofs SparseModel SparseSpec SparseProofs.
Import ListNotations.
Open Scope nat_scope.

Lemma gather_forall2 {A} (l : list A) : forall order l',
  gather l order = Some l' <-> Forall2 (fun k x => nth_error l k = Some x) order l'.
Proof.
  induction order as [|k order IH]; intro l'; simpl; split; intro H.
  - injection H as <-. constructor.
  - inversion H. reflexivity.
  - destruct (nth_error l k) eqn:E; [|discriminate]. destruct (gather l order) eqn:G; [|discriminate].
    injection H as <-. constructor; auto. apply IH. reflexivity.
  - inversion H as [|? ? ? r E F]; subst. rewrite E. apply IH in F. rewrite F. reflexivity.
Qed.

Lemma gather_length {A} (l : list A) order l' : gather l order = Some l' -> length l' = length order.
Proof. intro H. apply gather_forall2 in H. induction H; simpl; auto. Qed.

Lemma gather_ex {A} (l : list A) order : (forall k, In k order -> k < length l) ->
  exists l', gather l order = Some l'.
Proof.
  induction order as [|k order IH]; intro H; simpl; eauto.
  destruct (nth_error l k) eqn:E.
  - destruct IH as [l' ->]; [intros; apply H; simpl; auto|eauto].
  - apply nth_error_None in E. pose proof (H k (or_introl eq_refl)). lia.
Qed.

Lemma gather_perm {A} (l : list A) order order' l' : Permutation order order' ->
  gather l order = Some l' -> exists l'', gather l order' = Some l'' /\ Permutation l' l''.
Proof.
  intro P. revert l'. induction P as [|k o o' P IH|k j o|o1 o2 o3 P1 IH1 P2 IH2]; intros l' H.
  - exists l'. split; auto.
  - simpl in H. destruct (nth_error l k) eqn:E; [|discriminate].
    destruct (gather l o) eqn:G; [|discriminate]. injection H as <-.
    destruct (IH _ eq_refl) as (r & Hr & Pr). exists (a :: r). simpl. rewrite E, Hr. auto.
  - simpl in *. destruct (nth_error l k); destruct (nth_error l j); try discriminate;
      destruct (gather l o); try discriminate. injection H as <-. eexists. split; eauto. apply perm_swap.
  - destruct (IH1 _ H) as (r & Hr & Pr). destruct (IH2 _ Hr) as (r2 & Hr2 & Pr2).
    exists r2. split; auto. eapply perm_trans; eauto.
Qed.

Lemma gather_seq_gen {A} (l : list A) : forall pre, gather (pre ++ l) (seq (length pre) (length l)) = Some l.
Proof.
  induction l as [|x l IH]; intro pre; simpl; auto.
  rewrite nth_error_app2, Nat.sub_diag by lia. simpl.
  specialize (IH (pre ++ [x])). rewrite <- app_assoc, app_length in IH. simpl in IH.
  replace (length pre + 1) with (S (length pre)) in IH by lia. rewrite IH. reflexivity.
Qed.

Lemma gather_seq {A} (l : list A) : gather l (seq 0 (length l)) = Some l.
Proof. apply (gather_seq_gen l []). Qed.

Lemma gather_permuted {A} (l : list A) order : Permutation order (seq 0 (length l)) ->
  exists l', gather l order = Some l' /\ Permutation l' l.
Proof.
  intro P. destruct (gather_ex l order) as [l' H].
  - intros k Hk. apply (Permutation_in k P), in_seq in Hk. lia.
  - exists l'. split; auto. destruct (gather_perm l order _ l' P H) as (r & Hr & Pr).
    rewrite gather_seq in Hr. injection Hr as <-. exact Pr.
Qed.

Lemma nth_error_combine {A B} : forall (a : list A) (b : list B) k x y,
  nth_error a k = Some x -> nth_error b k = Some y -> nth_error (combine a b) k = Some (x, y).
Proof.
  induction a as [|a0 a IH]; intros [|b0 b] [|k] x y H1 H2; simpl in *; try discriminate.
  - congruence.
  - apply IH; auto.
Qed.

Lemma gather_combine {A B} (a : list A) (b : list B) : forall order a' b',
  gather a order = Some a' -> gather b order = Some b' ->
  gather (combine a b) order = Some (combine a' b').
Proof.
  induction order as [|k order IH]; intros a' b' Ha Hb; simpl in *.
  - injection Ha as <-. injection Hb as <-. reflexivity.
  - destruct (nth_error a k) eqn:Ea; [|discriminate]. destruct (gather a order) eqn:Ga; [|discriminate].
    destruct (nth_error b k) eqn:Eb; [|discriminate]. destruct (gather b order) eqn:Gb; [|discriminate].
    injection Ha as <-. injection Hb as <-. rewrite (nth_error_combine _ _ _ _ _ Ea Eb).
    rewrite (IH _ _ eq_refl eq_refl). reflexivity.
Qed.

Lemma map_fst_combine {A B} : forall (a : list A) (b : list B), length a = length b ->
  map fst (combine a b) = a /\ map snd (combine a b) = b.
Proof.
  induction a as [|x a IH]; intros [|y b] H; simpl in *; try discriminate; auto.
  destruct (IH b) as [-> ->]; auto.
Qed.

Section Snapshots.
Context {T : Type} {OT : TOrd T} {V : Type}.

Lemma argsort_perm (times : list T) : Permutation (argsort times) (seq 0 (length times)).
Proof.
  unfold argsort. eapply perm_trans.
  - apply Permutation_map, Permutation_sym, sort_by_perm.
  - destruct (map_fst_combine times (seq 0 (length times))) as [_ ->]; [rewrite seq_length; auto|].
    apply Permutation_refl.
Qed.

Lemma combine_seq_nth {A} (l : list A) : forall s x k,
  In (x, k) (combine l (seq s (length l))) -> s <= k /\ nth_error l (k - s) = Some x.
Proof.
  induction l as [|a l IH]; intros s x k H; simpl in H; [destruct H|].
  destruct H as [H|H].
  - injection H as <- <-. rewrite Nat.sub_diag. auto.
  - apply IH in H as [H1 H2]. split; [lia|]. replace (k - s) with (S (k - S s)) by lia. exact H2.
Qed.

Lemma argsort_sorted (times : list T) : exists times', gather times (argsort times) = Some times' /\
  StronglySorted le times'.
Proof.
  unfold argsort. set (P := sort_by _ _).
  assert (HP : forall x k, In (x, k) P -> nth_error times k = Some x).
  { intros x k H. apply sort_by_in, combine_seq_nth in H as [_ H]. rewrite Nat.sub_0_r in H. exact H. }
  assert (SP : StronglySorted (fun a b : T * nat => leb (fst a) (fst b) = true) P).
  { apply sort_by_sorted.
    - intros a b. apply leb_total.
    - intros a b c. apply leb_trans. }
  exists (map fst P). split.
  - apply gather_forall2. clear SP. induction P as [|[x k] P IH]; simpl; constructor.
    + apply HP. simpl; auto.
    + apply IH. intros y j H. apply HP. simpl; auto.
  - clear HP. induction SP as [|a l S IH F]; simpl; constructor; auto.
    apply Forall_forall. intros y Hy. apply in_map_iff in Hy as (z & <- & Hz).
    rewrite Forall_forall in F. apply leb_le, (F z Hz).
Qed.

Lemma sorted_pairs_unique {B} : forall (p q : list (T * B)),
  StronglySorted (fun a b => lt (fst a) (fst b)) p -> StronglySorted (fun a b => lt (fst a) (fst b)) q ->
  Permutation p q -> p = q.
Proof.
  induction p as [|x p IH]; intros q Sp Sq Pq.
  - symmetry. apply Permutation_nil. exact Pq.
  - destruct q as [|y q]; [apply Permutation_sym, Permutation_nil in Pq; discriminate|].
    inversion_clear Sp as [|? ? Sp' Fp]. inversion_clear Sq as [|? ? Sq' Fq].
    rewrite Forall_forall in Fp, Fq.
    assert (x = y).
    { assert (In y (x :: p)) as [H|H] by (apply (Permutation_in y (Permutation_sym Pq)); simpl; auto); auto.
      assert (In x (y :: q)) as [H'|H'] by (apply (Permutation_in x Pq); simpl; auto); auto.
      exfalso. pose proof (Fp y H). pose proof (Fq x H'). ord. }
    subst y. f_equal. apply IH; auto. eapply Permutation_cons_inv; eauto.
Qed.

Lemma distinct_lt_sorted {B} (p : list (T * B)) : StronglySorted le (map fst p) ->
  distinct_times (map fst p) -> StronglySorted (fun a b => lt (fst a) (fst b)) p.
Proof.
  induction p as [|x p IH]; intros S D; constructor.
  - inversion_clear S as [|? ? S' F]. apply IH; auto.
    intros i j a b Hij Hi Hj. apply (D (Datatypes.S i) (Datatypes.S j)); auto.
  - inversion_clear S as [|? ? S' F]. rewrite Forall_forall in *. intros y Hy.
    pose proof (F (fst y) (in_map fst p y Hy)) as L.
    apply In_nth_error in Hy as [k Hk].
    destruct (D 0 (Datatypes.S k) (fst x) (fst y)) as [H|H]; auto.
    + simpl. apply map_nth_error. exact Hk.
    + ord.
Qed.

Lemma distinct_perm (l l' : list T) : Permutation l l' -> distinct_times l -> distinct_times l'.
Proof.
  intro P. induction P as [|x l l' P IH|x y l|l1 l2 l3 P1 IH1 P2 IH2]; auto.
  - intros D. assert (D' : distinct_times l).
    { intros i j a b Hij Hi Hj. apply (D (S i) (S j)); auto. }
    specialize (IH D'). intros [|i] [|j] a b Hij Hi Hj; try lia.
    + simpl in Hi, Hj. injection Hi as <-. apply nth_error_In in Hj.
      apply (Permutation_in b (Permutation_sym P)), In_nth_error in Hj as [k Hk].
      apply (D 0 (S k)); auto.
    + simpl in Hi, Hj. injection Hj as <-. apply nth_error_In in Hi.
      apply (Permutation_in a (Permutation_sym P)), In_nth_error in Hi as [k Hk].
      apply (D (S k) 0); auto.
    + simpl in Hi, Hj. apply (IH i j); auto.
  - intros D i j a b Hij Hi Hj.
    set (sw := fun k => match k with 0 => 1 | 1 => 0 | _ => k end).
    assert (Q : forall k, nth_error (x :: y :: l) k = nth_error (y :: x :: l) (sw k))
      by (intros [|[|k]]; reflexivity).
    rewrite Q in Hi, Hj. apply (D (sw i) (sw j)); auto.
    destruct i as [|[|i]]; destruct j as [|[|j]]; simpl; lia.
Qed.

(** The sorted series of one coefficient only depends on the set of the snapshots. *)
Lemma sorted_series {B} (times times2 : list T) (c c2 : list B) :
  length c = length times -> length c2 = length times2 -> distinct_times times ->
  Permutation (combine times2 c2) (combine times c) ->
  gather times2 (argsort times2) = gather times (argsort times) /\
  gather c2 (argsort times2) = gather c (argsort times).
Proof.
  intros L L2 D P.
  assert (Pt : Permutation times2 times).
  { apply (Permutation_map fst) in P. destruct (map_fst_combine times2 c2 (eq_sym L2)) as [E2 _].
    destruct (map_fst_combine times c (eq_sym L)) as [E1 _]. rewrite E1, E2 in P. exact P. }
  assert (D2 : distinct_times times2) by (eapply distinct_perm; [apply Permutation_sym|]; eauto).
  assert (G : forall (ts : list T) (cs : list B), length cs = length ts -> distinct_times ts ->
    exists ts' cs', gather ts (argsort ts) = Some ts' /\ gather cs (argsort ts) = Some cs' /\
      length ts' = length cs' /\
      Permutation (combine ts' cs') (combine ts cs) /\
      StronglySorted (fun a b => lt (fst a) (fst b)) (combine ts' cs')).
  { intros ts cs Lc Dt. destruct (argsort_sorted ts) as (ts' & Ht & St).
    destruct (gather_permuted cs (argsort ts)) as (cs' & Hc & Pc); [rewrite Lc; apply argsort_perm|].
    assert (L' : length ts' = length cs') by (rewrite (gather_length _ _ _ Ht), (gather_length _ _ _ Hc); auto).
    exists ts', cs'. split; auto. split; auto. split; auto. split.
    - assert (La : length (combine ts cs) = length ts) by (rewrite combine_length; lia).
      destruct (gather_permuted (combine ts cs) (argsort ts)) as (r & Hr & Pr);
        [rewrite La; apply argsort_perm|].
      rewrite (gather_combine ts cs _ _ _ Ht Hc) in Hr. injection Hr as <-. exact Pr.
    - apply distinct_lt_sorted; destruct (map_fst_combine ts' cs' L') as [-> _]; auto.
      destruct (gather_permuted ts (argsort ts) (argsort_perm ts)) as (r & Hr & Pr).
      assert (r = ts') as -> by congruence. eapply distinct_perm; [apply Permutation_sym|]; eauto. }
  destruct (G times c L D) as (t1 & c1 & A1 & A2 & A3 & A4 & A5).
  destruct (G times2 c2 L2 D2) as (t2 & c2' & B1 & B2 & B3 & B4 & B5).
  assert (E : combine t2 c2' = combine t1 c1).
  { apply sorted_pairs_unique; auto. eapply perm_trans; [exact B4|].
    eapply perm_trans; [exact P|]. apply Permutation_sym. exact A4. }
  destruct (map_fst_combine t1 c1 A3) as [E1 E2]. destruct (map_fst_combine t2 c2' B3) as [E3 E4].
  rewrite A1, A2, B1, B2. split; f_equal; congruence.
Qed.

(** ** The constructor *)

Lemma forallb_ext' {A} (f g : A -> bool) (l l' : list A) (R : A -> A -> Prop) :
  Forall2 R l l' -> (forall x y, R x y -> f x = g y) -> forallb f l = forallb g l'.
Proof. induction 1; intro H1; simpl; auto. rewrite (H1 _ _ H), IHForall2; auto. Qed.

Lemma snapshot_order indices (coefficients : list (list V)) times order vstart vend (to_mjd2000 : T -> T)
  pi coefficients' times' :
  distinct_times times -> Permutation pi (seq 0 (length times)) ->
  gather times pi = Some times' ->
  Forall2 (fun c c' => length c = length times /\ gather c pi = Some c') coefficients coefficients' ->
  mk_time_dependent indices coefficients' times' order vstart vend to_mjd2000 =
  mk_time_dependent indices coefficients times order vstart vend to_mjd2000.
Proof.
  intros D P Ht Hc. unfold mk_time_dependent.
  assert (Lp : length pi = length times) by (apply Permutation_length in P; rewrite seq_length in P; auto).
  assert (Lt : length times' = length times) by (rewrite (gather_length _ _ _ Ht); auto).
  assert (Hlen : length coefficients' = length coefficients) by (clear -Hc; induction Hc; simpl; auto).
  rewrite Hlen.
  assert (F : forallb (fun c : list V => length c =? length times') coefficients' =
    forallb (fun c : list V => length c =? length times) coefficients).
  { symmetry. apply (forallb_ext' _ _ _ _ _ Hc). intros x y [L Hxy].
    rewrite (gather_length _ _ _ Hxy), L, Lp, Lt. reflexivity. }
  rewrite F. destruct (_ && _) eqn:C; [|reflexivity].
  assert (Pc : forall c c' : list V, length c = length times -> gather c pi = Some c' ->
     length c' = length times' /\ Permutation (combine times' c') (combine times c)).
  { intros c c' L H. split; [rewrite (gather_length _ _ _ H); lia|].
    assert (La : length (combine times c) = length times) by (rewrite combine_length; lia).
    destruct (gather_permuted (combine times c) pi) as (r & Hr & Pr); [rewrite La; auto|].
    rewrite (gather_combine times c pi _ _ Ht H) in Hr. injection Hr as <-. exact Pr. }
  assert (Et : gather times' (argsort times') = gather times (argsort times)).
  { apply (sorted_series times times' times times'); auto.
    assert (La : length (combine times times) = length times) by (rewrite combine_length; lia).
    destruct (gather_permuted (combine times times) pi) as (r & Hr & Pr); [rewrite La; auto|].
    rewrite (gather_combine times times pi _ _ Ht Ht) in Hr. injection Hr as <-. exact Pr. }
  rewrite Et.
  assert (Ec : map (fun c => gather c (argsort times')) coefficients' =
               map (fun c => gather c (argsort times)) coefficients).
  { clear -Hc Pc D. induction Hc as [|c c' l l' [L H] Hc IH]; simpl; auto. rewrite IH. f_equal.
    destruct (Pc c c' L H) as [L' P']. apply (sorted_series times times' c c' L L' D P'). }
  rewrite Ec. reflexivity.
Qed.

(** What the constructor makes of the snapshots: the sorted times with the columns *)
Lemma snapshot_sorted indices (coefficients : list (list V)) times order vstart vend (to_mjd2000 : T -> T) td :
  mk_time_dependent indices coefficients times order vstart vend to_mjd2000 = Some td ->
  exists times', Permutation times' times /\ StronglySorted le times' /\
    td_times td = map to_mjd2000 times' /\
    (vstart = None -> exists t, nth_error times' 0 = Some t /\ fst (td_validity td) = to_mjd2000 t) /\
    (vend = None -> exists t, nth_error times' (length times' - 1) = Some t /\
                              snd (td_validity td) = to_mjd2000 t) /\
    (forall t, vstart = Some t -> fst (td_validity td) = to_mjd2000 t) /\
    (forall t, vend = Some t -> snd (td_validity td) = to_mjd2000 t) /\
    (forall i n m c, nth_error indices i = Some (n, m) -> nth_error coefficients i = Some c ->
       exists c', nth_error (s_entries (td_sparse td)) i = Some {| e_n := n; e_m := m; e_c := c' |} /\
         length c' = length times' /\ Permutation (combine times' c') (combine times c)).
Proof.
  unfold mk_time_dependent. destruct ((_ =? _) && _) eqn:C; [|discriminate].
  apply andb_true_iff in C as [C1 C2]. apply Nat.eqb_eq in C1. rewrite forallb_forall in C2.
  destruct (argsort_sorted times) as (times' & Ht & St). rewrite Ht.
  destruct (gather_permuted times (argsort times) (argsort_perm times)) as (r & Hr & Pr).
  assert (r = times') as -> by congruence. clear Hr.
  assert (Hc : forall cs, (forall c, In c cs -> length c = length times) ->
    exists cs', all_some (map (fun c => gather c (argsort times)) cs) = Some cs' /\
      Forall2 (fun (c c' : list V) => gather c (argsort times) = Some c') cs cs').
  { induction cs as [|c cs IH]; intro H; simpl.
    - exists []. split; [reflexivity|constructor].
    - destruct (gather_permuted c (argsort times)) as (c' & G & _).
      { rewrite (H c (or_introl eq_refl)). apply argsort_perm. }
      destruct IH as (cs' & E & F); [intros; apply H; simpl; auto|]. rewrite G, E.
      exists (c' :: cs'). split; auto. }
  destruct (Hc coefficients) as (coefs' & E & F).
  { intros c Hin. apply Nat.eqb_eq, C2, Hin. }
  rewrite E. destruct times' as [|first rest] eqn:Etm; [discriminate|]. rewrite <- Etm in *.
  destruct (mk_sparse _) as [s|] eqn:Es; [|discriminate].
  destruct (_ || _)%bool eqn:So; [|discriminate]. intro H. injection H as <-. cbn [td_times td_validity td_sparse fst snd].
  apply mk_sparse_spec in Es as (Ese & _).
  exists times'. split; [exact Pr|]. split; [rewrite Etm in *; exact St|]. split; [auto|].
  split; [intros ->; exists first; rewrite Etm; auto|].
  split.
  { intros ->. exists (last times' first). split; auto.
    rewrite Etm. clear. revert first. induction rest as [|x rest IH]; intro first; [reflexivity|].
    specialize (IH x). simpl length in *. rewrite Nat.sub_succ, Nat.sub_0_r in *. simpl in *.
    rewrite IH. clear. revert x. induction rest as [|y rest IH]; intro x; auto.
    simpl in *. destruct rest; auto. }
  split; [intros t ->; reflexivity|]. split; [intros t ->; reflexivity|].
  intros i n m c Hi Hci. rewrite Ese.
  assert (exists c', nth_error coefs' i = Some c' /\ gather c (argsort times) = Some c') as (c' & Hc' & G).
  { clear -F Hci. revert i Hci. induction F as [|x y l l' Hxy F IH]; intros [|i] Hci; simpl in *; try discriminate.
    - injection Hci as <-. eauto.
    - apply IH; auto. }
  exists c'. split.
  - rewrite (map_nth_error _ _ _ (nth_error_combine indices coefs' i (n, m) c' Hi Hc')). reflexivity.
  - assert (Lc : length c = length times) by (apply Nat.eqb_eq, C2; eapply nth_error_In; eauto).
    split; [rewrite (gather_length _ _ _ G), <- (gather_length _ _ _ Ht); auto|].
    assert (La : length (combine times c) = length times) by (rewrite combine_length; lia).
    destruct (gather_permuted (combine times c) (argsort times)) as (r & Hr & Pr').
    { rewrite La. apply argsort_perm. }
    rewrite (gather_combine times c _ _ _ Ht G) in Hr. injection Hr as <-. exact Pr'.
Qed.

End Snapshots.
