(** Proofs about the loops over the items of arrays in memory. *)

From Coq Require Import Bool List Reals ZArith Lia Arith.
From Verif Require Import CoefModel GeoModel LegendreModel ShEvalModel CoordModel TimeModel
  StridedModel StridedSpec.
Import ListNotations.
Open Scope Z_scope.

(** ** Loops *)

Lemma for_items_ok (n : nat) body (I : nat -> memory -> Prop) m :
  I 0%nat m ->
  (forall i m, (i < n)%nat -> I i m -> exists m', body i m = Ok m' /\ I (S i) m') ->
  exists m', for_items n body m = Ok m' /\ I n m'.
Proof.
  intros H0 Hs. unfold for_items.
  assert (G : forall k i m, I i m -> (i + k = n)%nat ->
    exists m', fold_left (fun r i => match r with Ok m => body i m | Err e => Err e end)
                 (seq i k) (Ok m) = Ok m' /\ I n m').
  { induction k as [|k IH]; intros i m1 Hi Hn; cbn [seq fold_left].
    - exists m1. split; [reflexivity|]. now replace n with i by lia.
    - destruct (Hs i m1 ltac:(lia) Hi) as (m2 & E & H2). rewrite E. apply IH; [exact H2|lia]. }
  apply G; [exact H0|lia].
Qed.

(** the part of an array at the leading indices *)
Fixpoint part (a : arrd) (idx : list nat) : arrd :=
  match idx with [] => a | i :: idx' => part (get_arrd_item a i) idx' end.

Lemma recurse_ok item (Good : memory -> Prop) :
  forall dims ins out (W : list nat -> Z -> Prop) (Q : list nat -> memory -> Prop),
  (forall idx m, index_of dims idx -> Good m ->
     exists m', item (map (fun a => part a idx) ins) (part out idx) m = Ok m' /\ Good m' /\
       (forall k, ~ W idx k -> m' k = m k) /\ Q idx m') ->
  (forall idx m m', index_of dims idx -> (forall k, W idx k -> m' k = m k) -> Q idx m -> Q idx m') ->
  (forall idx idx' k, index_of dims idx -> index_of dims idx' -> W idx k -> W idx' k -> idx = idx') ->
  forall m, Good m ->
  exists m', recurse item dims ins out m = Ok m' /\ Good m' /\
    (forall k, (forall idx, index_of dims idx -> ~ W idx k) -> m' k = m k) /\
    forall idx, index_of dims idx -> Q idx m'.
Proof.
  induction dims as [|d ds IH]; intros ins out W Q Hitem HQ Hinj m Hm; cbn [recurse].
  - destruct (Hitem [] m) as (m' & E & G & F & q); [constructor|exact Hm|].
    cbn [part] in E. rewrite map_id in E. exists m'. split; [exact E|]. split; [exact G|]. split.
    + intros k Hk. apply F, Hk. constructor.
    + intros idx Hi. inversion Hi. exact q.
  - pose (I := fun (i : nat) (m1 : memory) => Good m1 /\
      (forall k, (forall j idx, (j < i)%nat -> index_of ds idx -> ~ W (j :: idx) k) -> m1 k = m k) /\
      forall j idx, (j < i)%nat -> index_of ds idx -> Q (j :: idx) m1).
    destruct (for_items_ok d (fun i m => recurse item ds (map (fun a => get_arrd_item a i) ins)
                 (get_arrd_item out i) m) I m) as (m' & E & G & F & q).
    + split; [exact Hm|]. split; [reflexivity|]. intros; lia.
    + intros i m1 Hi (G1 & F1 & Q1).
      destruct (IH (map (fun a => get_arrd_item a i) ins) (get_arrd_item out i)
                  (fun idx => W (i :: idx)) (fun idx => Q (i :: idx))) with (m := m1)
        as (m2 & E2 & G2 & F2 & Q2).
      * intros idx m3 Hidx G3. destruct (Hitem (i :: idx) m3) as (m4 & E4 & G4).
        -- constructor; [exact Hi|exact Hidx].
        -- exact G3.
        -- exists m4. rewrite map_map. split; [exact E4|exact G4].
      * intros idx m3 m4 Hidx. apply HQ. constructor; assumption.
      * intros idx idx' k Ha Hb Wa Wb.
        assert (A : i :: idx = i :: idx').
        { apply (Hinj _ _ k); try assumption; constructor; assumption. }
        congruence.
      * exact G1.
      * exists m2. split; [exact E2|]. split; [exact G2|]. split.
        -- intros k Hk. rewrite F2.
           ++ apply F1. intros j idx Hj. apply Hk. lia.
           ++ intros idx Hidx. apply Hk; [lia|exact Hidx].
        -- intros j idx Hj Hidx. destruct (Nat.eq_dec j i) as [->|Hne].
           ++ now apply Q2.
           ++ apply (HQ (j :: idx) m1 m2).
              ** constructor; [unfold Nat.lt; lia|exact Hidx].
              ** intros k Wk. apply F2. intros idx' Hidx' Wk'.
                 assert (A : j :: idx = i :: idx').
                 { apply (Hinj _ _ k); try assumption; constructor; try assumption; unfold Nat.lt; lia. }
                 congruence.
              ** apply Q1; [lia|exact Hidx].
    + exists m'. split; [exact E|]. split; [exact G|]. split.
      * intros k Hk. apply F. intros j idx Hj Hidx. apply Hk. now constructor.
      * intros idx Hidx. inversion Hidx as [|j d' idx' ds' Hj Hidx']; subst. now apply q.
Qed.

(** ** Addresses *)

Definition dot (idx : list nat) (st : list Z) : Z :=
  fold_right Z.add 0 (map (fun '(i, s) => Z.of_nat i * s) (combine idx st)).

Lemma address_dot a idx : address a idx = data a + dot idx (stride a).
Proof. reflexivity. Qed.
Lemma dot_cons i idx s st : dot (i :: idx) (s :: st) = Z.of_nat i * s + dot idx st.
Proof. reflexivity. Qed.
Lemma dot_nil st : dot [] st = 0.
Proof. reflexivity. Qed.

Lemma item_nonempty a i d ds : shape a = d :: ds -> get_arrd_item a i = get_arrd_item_nocheck a i.
Proof. intro H. unfold get_arrd_item, get_arrd_item_with_guard. now rewrite H. Qed.

(** the address in a part of an array *)
Lemma part_address : forall ds rest a idx tail,
  shape a = ds ++ rest -> length (stride a) = length (shape a) -> index_of ds idx ->
  shape (part a idx) = rest /\ length (stride (part a idx)) = length rest /\
  address (part a idx) tail = address a (idx ++ tail).
Proof.
  induction ds as [|d ds IH]; intros rest a idx tail Hs Hl Hi.
  - inversion Hi; subst. cbn [part app] in *. rewrite Hl, Hs. auto.
  - inversion Hi as [|i d' idx' ds' Hj Hidx']; subst. cbn [part app].
    rewrite (item_nonempty a i d (ds ++ rest) Hs).
    destruct (stride a) as [|s st] eqn:Es.
    { rewrite Hs in Hl. discriminate. }
    destruct (IH rest (get_arrd_item_nocheck a i) idx' tail) as (A & B & C).
    + cbn. now rewrite Hs.
    + cbn. rewrite Hs, Es. cbn. rewrite Hs in Hl. cbn in Hl. lia.
    + exact Hidx'.
    + split; [exact A|]. split; [exact B|]. rewrite C, !address_dot. cbn [get_arrd_item_nocheck data stride].
      rewrite Es. cbn [hd tl]. rewrite dot_cons. lia.
Qed.

Lemma part_scalar a idx : shape a = [] -> part a idx = a.
Proof.
  intro H. induction idx as [|i idx IH]; cbn [part]; [reflexivity|].
  unfold get_arrd_item, get_arrd_item_with_guard. now rewrite H.
Qed.

(** ** The elements of a C-contiguous array *)

Fixpoint linear (dims idx : list nat) : nat :=
  match dims, idx with
  | _ :: ds, i :: idx' => (i * size ds + linear ds idx')%nat
  | _, _ => 0%nat
  end.

Lemma linear_bound : forall dims idx, index_of dims idx -> (linear dims idx < size dims)%nat.
Proof.
  induction dims as [|d ds IH]; intros idx H; inversion H as [|i d' idx' ds' Hi Hidx]; subst; cbn [linear size fold_right].
  - lia.
  - specialize (IH _ Hidx). fold (size ds). unfold Nat.lt in Hi.
    assert (i * size ds + size ds <= d * size ds)%nat by nia. lia.
Qed.

Lemma linear_inj : forall dims idx idx', index_of dims idx -> index_of dims idx' ->
  linear dims idx = linear dims idx' -> idx = idx'.
Proof.
  induction dims as [|d ds IH]; intros idx idx' H H'; inversion H as [|i ? l ? Hi Hl]; subst;
    inversion H' as [|i' ? l' ? Hi' Hl']; subst; cbn [linear].
  - reflexivity.
  - intro E. pose proof (linear_bound _ _ Hl) as B. pose proof (linear_bound _ _ Hl') as B'.
    assert (i = i') by nia. subst i'. f_equal. apply IH; [assumption..|lia].
Qed.

Lemma dot_c_strides : forall dims idx, index_of dims idx ->
  dot idx (c_strides dims) = 8 * Z.of_nat (linear dims idx).
Proof.
  induction dims as [|d ds IH]; intros idx H; inversion H as [|i ? l ? Hi Hl]; subst; cbn [c_strides linear].
  - reflexivity.
  - rewrite dot_cons, IH by assumption. rewrite Nat2Z.inj_add, Nat2Z.inj_mul. ring.
Qed.

Lemma c_strides_length dims : length (c_strides dims) = length dims.
Proof. induction dims; cbn; congruence. Qed.

Definition cell (base : Z) (dims idx : list nat) : Z := base / 8 + Z.of_nat (linear dims idx).

Lemma cell_inj base dims idx idx' : index_of dims idx -> index_of dims idx' ->
  cell base dims idx = cell base dims idx' -> idx = idx'.
Proof. unfold cell. intros A B C. apply (linear_inj dims); [assumption..|lia]. Qed.

Definition out_array (base : Z) (dims : list nat) : arrd :=
  {| data := base; shape := dims; stride := c_strides dims |}.

Lemma out_address base dims idx : base mod 8 = 0 -> index_of dims idx ->
  address (out_array base dims) idx = 8 * cell base dims idx.
Proof.
  intros Hb Hi. rewrite address_dot. cbn [out_array data stride]. rewrite dot_c_strides by assumption.
  unfold cell. pose proof (Z.div_mod base 8). lia.
Qed.

Lemma mod_8 k : (8 * k) mod 8 = 0.
Proof. rewrite Z.mul_comm. apply Z.mod_mul. lia. Qed.
Lemma div_8 k : 8 * k / 8 = k.
Proof. rewrite Z.mul_comm. apply Z.div_mul. lia. Qed.

Lemma out_element m base dims idx : base mod 8 = 0 -> index_of dims idx ->
  element m (out_array base dims) idx = m (cell base dims idx).
Proof.
  intros Hb Hi. unfold element. rewrite (out_address base dims idx Hb Hi), mod_8, div_8. reflexivity.
Qed.

(** ** Loads and stores *)

Lemma load_element m a idx v : element m a idx = Some v -> load m (address a idx) = Ok v.
Proof.
  unfold element, load. destruct (address a idx mod 8 =? 0); [|discriminate]. now intros ->.
Qed.

Definition set (m : memory) (k : Z) (v : R) : memory := fun j => if j =? k then Some v else m j.

Lemma store_ok m k v w : m k = Some w -> store m (8 * k) v = Ok (set m k v).
Proof. intro H. unfold store, set. rewrite mod_8, div_8, H. reflexivity. Qed.
Lemma set_same m k v : set m k v k = Some v.
Proof. unfold set. now rewrite Z.eqb_refl. Qed.
Lemma set_other m k v j : j <> k -> set m k v j = m j.
Proof. intro H. unfold set. destruct (Z.eqb_spec j k); [contradiction|reflexivity]. Qed.

(** the memory while the output array is being written *)
Definition good (m : memory) (base : Z) (n : nat) (m1 : memory) : Prop :=
  (forall k v, m k = Some v -> m1 k = Some v) /\
  forall k, base / 8 <= k < base / 8 + Z.of_nat n -> exists v, m1 k = Some v.

Lemma cell_range base dims idx : index_of dims idx ->
  base / 8 <= cell base dims idx < base / 8 + Z.of_nat (size dims).
Proof. intro H. pose proof (linear_bound _ _ H). unfold cell. lia. Qed.

Lemma good_new m base junk dims : free_at m base (size dims) ->
  good m base (size dims) (fst (new_array m base junk dims)).
Proof.
  intros (_ & Hf). split.
  - intros k v Hk. cbn. destruct (Z.leb_spec (base / 8) k); cbn; [|exact Hk].
    destruct (Z.ltb_spec k (base / 8 + Z.of_nat (size dims))); [|exact Hk].
    rewrite Hf in Hk by lia. discriminate.
  - intros k Hk. cbn. destruct (Z.leb_spec (base / 8) k); [|lia].
    destruct (Z.ltb_spec k (base / 8 + Z.of_nat (size dims))); [|lia]. cbn. eauto.
Qed.

Lemma good_set m base dims idx m1 v : free_at m base (size dims) -> index_of dims idx ->
  good m base (size dims) m1 -> good m base (size dims) (set m1 (cell base dims idx) v).
Proof.
  intros (_ & Hf) Hi (A & B). pose proof (cell_range base dims idx Hi) as C. split.
  - intros k w Hk. rewrite set_other; [now apply A|].
    intros ->. rewrite Hf in Hk by assumption. discriminate.
  - intros k Hk. unfold set. destruct (Z.eqb_spec k (cell base dims idx)); [eauto|now apply B].
Qed.

Lemma good_store m base dims idx m1 v : free_at m base (size dims) -> index_of dims idx ->
  good m base (size dims) m1 ->
  store m1 (address (out_array base dims) idx) v = Ok (set m1 (cell base dims idx) v).
Proof.
  intros (Hb & Hf) Hi (A & B). rewrite out_address by assumption.
  destruct (B _ (cell_range base dims idx Hi)) as (w & Hw). apply (store_ok _ _ _ w Hw).
Qed.

Lemma good_element m base n m1 a idx v : good m base n m1 -> element m a idx = Some v ->
  element m1 a idx = Some v.
Proof.
  intros (A & _). unfold element. destruct (address a idx mod 8 =? 0); [|discriminate]. apply A.
Qed.

(** the result is a new array *)
Lemma good_new_in m base dims m1 : free_at m base (size dims) -> good m base (size dims) m1 ->
  new_in m m1 (out_array base dims).
Proof.
  intros (Hb & Hf) (A & B). split; [|split].
  - split; [apply c_strides_length|]. intros idx Hi. cbn in Hi. rewrite out_element by assumption.
    apply B. now apply cell_range.
  - intros idx Hi. cbn in Hi. rewrite out_element by assumption. apply Hf. now apply cell_range.
  - exact A.
Qed.

(** ** Times *)

Lemma time_array_ok f m base junk a :
  (length (shape a) <= 15)%nat -> array_in m a -> free_at m base (size (shape a)) ->
  exists m' out, time_array f m base junk a = Ok (m', out) /\
    shape out = shape a /\ new_in m m' out /\
    forall idx, index_of (shape a) idx ->
      exists t, element m a idx = Some t /\ element m' out idx = Some (f t).
Proof.
  intros Hn (Hl & Ha) Hf. unfold time_array.
  destruct (Nat.ltb_spec (MAX_OUT_ARRAY_NDIM - 1) (length (shape a))) as [L|L]; [cbn in L; lia|].
  assert (E : new_array m base junk (shape a) = (fst (new_array m base junk (shape a)), out_array base (shape a))) by reflexivity.
  rewrite E.
  destruct (recurse_ok (time_item f) (good m base (size (shape a))) (shape a) [a] (out_array base (shape a))
    (fun idx k => k = cell base (shape a) idx)
    (fun idx m1 => exists t, element m a idx = Some t /\ m1 (cell base (shape a) idx) = Some (f t)))
    with (m := fst (new_array m base junk (shape a))) as (m' & Er & G & _ & q).
  - intros idx m1 Hi G1. destruct (Ha idx Hi) as (t & Ht).
    destruct (part_address (shape a) [] a idx [] ltac:(now rewrite app_nil_r) Hl Hi) as (_ & _ & A1).
    destruct (part_address (shape a) [] (out_array base (shape a)) idx [] ltac:(now rewrite app_nil_r)
                (c_strides_length _) Hi) as (_ & _ & A2).
    rewrite app_nil_r in A1, A2. rewrite address_dot, dot_nil, Z.add_0_r in A1, A2.
    exists (set m1 (cell base (shape a) idx) (f t)).
    cbn [map time_item]. rewrite A1, A2, (load_element m1 a idx t) by (exact (good_element m base _ m1 a idx t G1 Ht)).
    split; [now apply (good_store m)|]. split; [now apply good_set|]. split.
    + intros k Hk. now apply set_other.
    + exists t. split; [exact Ht|apply set_same].
  - intros idx m1 m2 Hi Hk (t & A & B). exists t. split; [exact A|]. now rewrite Hk.
  - intros idx idx' k Hi Hi' -> E'. now apply cell_inj in E'.
  - now apply good_new.
  - rewrite Er. exists m', (out_array base (shape a)). split; [reflexivity|]. split; [reflexivity|].
    split; [now apply good_new_in|]. intros idx Hi. destruct (q idx Hi) as (t & A & B). exists t.
    split; [exact A|]. rewrite out_element; [exact B|apply Hf|exact Hi].
Qed.

Lemma time_array_error f m base junk a : (15 < length (shape a))%nat ->
  time_array f m base junk a = Err ValueError.
Proof.
  intro H. unfold time_array.
  destruct (Nat.ltb_spec (MAX_OUT_ARRAY_NDIM - 1) (length (shape a))) as [L|L]; [reflexivity|cbn in L; lia].
Qed.

(** ** Vectors *)

Lemma index_app ds idx i d : index_of ds idx -> (i < d)%nat -> index_of (ds ++ [d]) (idx ++ [i]).
Proof. intros H Hi. apply Forall2_app; [exact H|]. constructor; [exact Hi|constructor]. Qed.

Lemma address_last : forall idx ds a i, shape a = ds ++ [3%nat] -> length (stride a) = length (shape a) ->
  index_of ds idx -> P (part a idx) (Z.of_nat i) = Ok (address a (idx ++ [i])).
Proof.
  intros idx ds a i Hs Hl Hi. destruct (part_address ds [3%nat] a idx [i] Hs Hl Hi) as (_ & B & C).
  unfold P. destruct (stride (part a idx)) as [|s [|s' st]] eqn:Es; try discriminate.
  rewrite <- C, address_dot, Es, dot_cons, dot_nil. f_equal. lia.
Qed.

Section Vectors.
Variables (m : memory) (base : Z) (ds : list nat).
Let dims := ds ++ [3%nat].
Hypothesis (Hf : free_at m base (size dims)).
Let out := out_array base dims.
Let c (idx : list nat) (i : nat) := cell base dims (idx ++ [i]).

Lemma V_part a idx i v m1 : shape a = dims -> length (stride a) = length (shape a) ->
  index_of ds idx -> good m base (size dims) m1 -> element m a (idx ++ [i]) = Some v ->
  V m1 (part a idx) (Z.of_nat i) = Ok v.
Proof.
  intros Hs Hl Hi G E. unfold V. rewrite (address_last idx ds a i Hs Hl Hi).
  apply load_element. exact (good_element _ _ _ _ _ _ _ G E).
Qed.

Lemma set_V_part idx i v m1 : index_of ds idx -> (i < 3)%nat -> good m base (size dims) m1 ->
  set_V m1 (part out idx) (Z.of_nat i) v = Ok (set m1 (c idx i) v).
Proof.
  intros Hi H3 G. unfold set_V. rewrite (address_last idx ds out i eq_refl (c_strides_length _) Hi).
  apply (good_store m); [exact Hf|now apply index_app|exact G].
Qed.

Lemma good_c idx i v m1 : index_of ds idx -> (i < 3)%nat -> good m base (size dims) m1 ->
  good m base (size dims) (set m1 (c idx i) v).
Proof. intros. apply good_set; [exact Hf|now apply index_app|assumption]. Qed.

Lemma c_inj idx i idx' i' : index_of ds idx -> index_of ds idx' -> (i < 3)%nat -> (i' < 3)%nat ->
  c idx i = c idx' i' -> idx = idx' /\ i = i'.
Proof.
  intros A B C D E. apply cell_inj in E; [|now apply index_app..].
  apply app_inj_tail in E. exact E.
Qed.

Definition writes (idx : list nat) (k : Z) : Prop := exists i, (i < 3)%nat /\ k = c idx i.
Definition vector_at (m1 : memory) (idx : list nat) (v : R * R * R) : Prop :=
  m1 (c idx 0) = Some (fst (fst v)) /\ m1 (c idx 1) = Some (snd (fst v)) /\ m1 (c idx 2) = Some (snd v).

(** three assignments in any order *)
Lemma three_sets m1 idx i j k x y z v :
  index_of ds idx -> good m base (size dims) m1 ->
  (i < 3)%nat -> (j < 3)%nat -> (k < 3)%nat -> i <> j -> j <> k -> i <> k ->
  (forall n w, (n, w) = (i, x) \/ (n, w) = (j, y) \/ (n, w) = (k, z) ->
     w = match n with O => fst (fst v) | S O => snd (fst v) | _ => snd v end) ->
  let m2 := set (set (set m1 (c idx i) x) (c idx j) y) (c idx k) z in
  good m base (size dims) m2 /\ (forall q, ~ writes idx q -> m2 q = m1 q) /\ vector_at m2 idx v.
Proof.
  intros Hi G Li Lj Lk Dij Djk Dik Hv m2. split; [|split].
  - unfold m2. apply good_c; [exact Hi|exact Lk|]. apply good_c; [exact Hi|exact Lj|].
    apply good_c; [exact Hi|exact Li|exact G].
  - intros q Hq. unfold m2. rewrite !set_other; [reflexivity|..]; intros ->; apply Hq; eexists; eauto.
  - assert (A : forall n, (n < 3)%nat ->
      m2 (c idx n) = Some (match n with O => fst (fst v) | S O => snd (fst v) | _ => snd v end)).
    { intros n Hn. assert (D : forall a b, (a < 3)%nat -> (b < 3)%nat -> a <> b -> c idx a <> c idx b).
      { intros a b La Lb N E. now apply c_inj in E. }
      unfold m2. destruct (Nat.eq_dec n k) as [->|Nk].
      { rewrite set_same. f_equal. apply Hv. auto. }
      rewrite set_other by (apply D; assumption). destruct (Nat.eq_dec n j) as [->|Nj].
      { rewrite set_same. f_equal. apply Hv. auto. }
      rewrite set_other by (apply D; assumption). destruct (Nat.eq_dec n i) as [->|Ni].
      { rewrite set_same. f_equal. apply Hv. auto. }
      lia. }
    split; [|split]; [apply (A 0%nat)|apply (A 1%nat)|apply (A 2%nat)]; lia.
Qed.

Lemma vector_out m1 idx v : index_of ds idx -> vector_at m1 idx v -> vector m1 out idx = Some v.
Proof.
  intros Hi (A & B & C). unfold vector, out.
  rewrite !out_element by (first [apply Hf|apply index_app; [exact Hi|lia]]).
  fold (c idx 0) (c idx 1) (c idx 2). rewrite A, B, C. now destruct v as ((x & y) & z).
Qed.

(** the loops over the vectors: [Q] describes the vector calculated for the item *)
Lemma vectors_ok item ins junk (Q : list nat -> R * R * R -> Prop) :
  (forall idx m1, index_of ds idx -> good m base (size dims) m1 ->
     exists m2 v, item (map (fun a => part a idx) ins) (part out idx) m1 = Ok m2 /\ Q idx v /\
       good m base (size dims) m2 /\ (forall k, ~ writes idx k -> m2 k = m1 k) /\ vector_at m2 idx v) ->
  exists m2, recurse item ds ins out (fst (new_array m base junk dims)) = Ok m2 /\
    new_in m m2 out /\
    forall idx, index_of ds idx -> exists v, Q idx v /\ vector m2 out idx = Some v.
Proof.
  intro H.
  destruct (recurse_ok item (good m base (size dims)) ds ins out writes
    (fun idx m1 => exists v, Q idx v /\ vector_at m1 idx v)) with (m := fst (new_array m base junk dims))
    as (m' & E & G & _ & q).
  - intros idx m1 Hi G1. destruct (H idx m1 Hi G1) as (m2 & v & E & q & G2 & F & A).
    exists m2. eauto 8.
  - intros idx m1 m2 Hi Hk (v & q & A & B & C). exists v. split; [exact q|].
    unfold vector_at. rewrite !Hk by (eexists; split; [|reflexivity]; lia). auto.
  - intros idx idx' k Hi Hi' (i & Li & ->) (j & Lj & E). now apply c_inj in E.
  - now apply good_new.
  - exists m'. split; [exact E|]. split; [now apply good_new_in|].
    intros idx Hi. destruct (q idx Hi) as (v & A & B). exists v. split; [exact A|]. now apply vector_out.
Qed.
End Vectors.

(** the components of a vector of an array *)
Lemma vector_in m a ds idx : shape a = ds ++ [3%nat] -> array_in m a -> index_of ds idx ->
  exists x y z, element m a (idx ++ [0%nat]) = Some x /\ element m a (idx ++ [1%nat]) = Some y /\
    element m a (idx ++ [2%nat]) = Some z /\ vector m a idx = Some (x, y, z).
Proof.
  intros Hs (_ & Ha) Hi. rewrite Hs in Ha.
  destruct (Ha (idx ++ [0%nat])) as (x & X); [apply index_app; [exact Hi|lia]|].
  destruct (Ha (idx ++ [1%nat])) as (y & Y); [apply index_app; [exact Hi|lia]|].
  destruct (Ha (idx ++ [2%nat])) as (z & Z); [apply index_app; [exact Hi|lia]|].
  exists x, y, z. unfold vector. rewrite X, Y, Z. auto.
Qed.

(** the angle for an item *)
Lemma angle_in m a ds idx : shape a = [] \/ shape a = ds -> array_in m a -> index_of ds idx ->
  exists t, angle m a idx = Some t /\
    forall base n m1, good m base n m1 -> load m1 (data (part a idx)) = Ok t.
Proof.
  intros Hs (Hl & Ha) Hi. unfold angle. destruct (shape a) as [|d ds'] eqn:Es.
  - destruct (Ha []) as (t & Ht); [constructor|]. exists t. split; [exact Ht|].
    intros base n m1 G. rewrite part_scalar by exact Es.
    replace (data a) with (address a []) by (rewrite address_dot, dot_nil; lia).
    apply load_element. exact (good_element _ _ _ _ _ _ _ G Ht).
  - destruct Hs as [|<-]; [discriminate|].
    destruct (Ha idx Hi) as (t & Ht). exists t. split; [exact Ht|]. intros base n m1 G.
    destruct (part_address (d :: ds') [] a idx [] ltac:(now rewrite app_nil_r)
                ltac:(now rewrite Es) Hi) as (_ & _ & A).
    rewrite app_nil_r, address_dot, dot_nil, Z.add_0_r in A. rewrite A.
    apply load_element. exact (good_element _ _ _ _ _ _ _ G Ht).
Qed.

Ltac components :=
  let W := fresh in intros ? ? [W|[W|W]]; injection W as -> ->; reflexivity.

Section Items.
Variables (m : memory) (base : Z) (ds : list nat) (a : arrd).
Let dims := ds ++ [3%nat].
Hypothesis (Hf : free_at m base (size dims)) (Hs : shape a = dims) (Ha : array_in m a).
Let out := out_array base dims.

Lemma convert_item_ok f idx m1 : index_of ds idx -> good m base (size dims) m1 ->
  exists m2 v, convert_item f (map (fun a => part a idx) [a]) (part out idx) m1 = Ok m2 /\
    (exists x, vector m a idx = Some x /\ v = f x) /\
    good m base (size dims) m2 /\ (forall k, ~ writes base ds idx k -> m2 k = m1 k) /\
    vector_at base ds m2 idx v.
Proof.
  intros Hi G. destruct (vector_in m a ds idx Hs Ha Hi) as (x & y & z & X & Y & Z & E).
  destruct (f (x, y, z)) as ((o0 & o1) & o2) eqn:Ef.
  destruct (three_sets m base ds Hf m1 idx 0 1 2 o0 o1 o2 (o0, o1, o2)) as (A & B & C);
    [assumption..|lia|lia|lia|lia|lia|lia|components|].
  eexists _, (o0, o1, o2). split; [|split; [exists (x, y, z); now rewrite Ef|split; [exact A|split; [exact B|exact C]]]].
  cbn [map convert_item].
  change (V m1 (part a idx) 0) with (V m1 (part a idx) (Z.of_nat 0)).
  change (V m1 (part a idx) 1) with (V m1 (part a idx) (Z.of_nat 1)).
  change (V m1 (part a idx) 2) with (V m1 (part a idx) (Z.of_nat 2)).
  pose proof (proj1 Ha) as Hl.
  rewrite (V_part m base ds a idx 0 x) by assumption. cbn [bind].
  rewrite (V_part m base ds a idx 1 y) by assumption. cbn [bind].
  rewrite (V_part m base ds a idx 2 z) by assumption. cbn [bind].
  rewrite Ef.
  change 0 with (Z.of_nat 0) at 1. unfold out.
  rewrite (set_V_part m base ds Hf) by (first [assumption|lia]). cbn [bind].
  change 1 with (Z.of_nat 1) at 1.
  rewrite (set_V_part m base ds Hf) by (first [assumption|lia|now apply good_c; try lia]). cbn [bind].
  change 2 with (Z.of_nat 2) at 1.
  rewrite (set_V_part m base ds Hf); [reflexivity|assumption|lia|].
  apply good_c; [assumption|assumption|lia|]. apply good_c; [assumption|assumption|lia|]. exact G.
Qed.

(** the steps of the items *)
Ltac steps Hf Ha := repeat (cbn [bind];
  match goal with
  | |- context [V ?m1 (part ?a ?idx) ?i] =>
      let n := eval cbv in (Z.to_nat i) in
      change (V m1 (part a idx) i) with (V m1 (part a idx) (Z.of_nat n));
      erewrite (V_part _ _ _ a idx n);
        [|eassumption|exact (proj1 Ha)|eassumption|repeat (apply (good_c _ _ _ Hf); [eassumption|lia|]); eassumption|eassumption]
  | |- context [set_V ?m1 (part ?a ?idx) ?i ?v] =>
      let n := eval cbv in (Z.to_nat i) in
      change (set_V m1 (part a idx) i v) with (set_V m1 (part a idx) (Z.of_nat n) v);
      erewrite (set_V_part _ _ _ Hf idx n);
        [|eassumption|lia|repeat (apply (good_c _ _ _ Hf); [eassumption|lia|]); eassumption]
  end); cbn [bind]; try reflexivity.

Lemma sph2geod_item_ok ad idx m1 : shape ad = [] \/ shape ad = ds -> array_in m ad ->
  index_of ds idx -> good m base (size dims) m1 ->
  exists m2 v, sph2geod_item (map (fun a => part a idx) [a; ad]) (part out idx) m1 = Ok m2 /\
    (exists x t, vector m a idx = Some x /\ angle m ad idx = Some t /\ v = vrot_sph2geod x t) /\
    good m base (size dims) m2 /\ (forall k, ~ writes base ds idx k -> m2 k = m1 k) /\
    vector_at base ds m2 idx v.
Proof.
  intros Sd Hd Hi G. destruct (vector_in m a ds idx Hs Ha Hi) as (x & y & z & X & Y & Z & E).
  destruct (angle_in m ad ds idx Sd Hd Hi) as (t & T & L).
  destruct (rot2d z x (sin (- DG2RAD * t)) (cos (- DG2RAD * t))) as (o2 & o0) eqn:Er.
  destruct (three_sets m base ds Hf m1 idx 2 0 1 o2 o0 y (o0, y, o2)) as (A & B & C);
    [assumption..|lia|lia|lia|lia|lia|lia|components|].
  eexists _, (o0, y, o2). split; [|split; [|split; [exact A|split; [exact B|exact C]]]].
  - cbn [map sph2geod_item]. rewrite (L _ _ _ G). cbn [bind]. unfold out. steps Hf Ha.
    rewrite Er. steps Hf Ha.
  - exists (x, y, z), t. split; [exact E|]. split; [exact T|]. cbn [vrot_sph2geod]. now rewrite Er.
Qed.

Lemma sph2cart_item_ok alat alon idx m1 :
  shape alat = [] \/ shape alat = ds -> array_in m alat ->
  shape alon = [] \/ shape alon = ds -> array_in m alon ->
  index_of ds idx -> good m base (size dims) m1 ->
  exists m2 v, sph2cart_item (map (fun a => part a idx) [a; alat; alon]) (part out idx) m1 = Ok m2 /\
    (exists x la lo, vector m a idx = Some x /\ angle m alat idx = Some la /\
       angle m alon idx = Some lo /\ v = vrot_sph2cart x la lo) /\
    good m base (size dims) m2 /\ (forall k, ~ writes base ds idx k -> m2 k = m1 k) /\
    vector_at base ds m2 idx v.
Proof.
  intros S1 H1 S2 H2 Hi G. destruct (vector_in m a ds idx Hs Ha Hi) as (x & y & z & X & Y & Z & E).
  destruct (angle_in m alat ds idx S1 H1 Hi) as (la & T1 & L1).
  destruct (angle_in m alon ds idx S2 H2 Hi) as (lo & T2 & L2).
  destruct (rot2d z x (sin (DG2RAD * la)) (cos (DG2RAD * la))) as (tmp & o2) eqn:Er.
  destruct (rot2d tmp y (sin (DG2RAD * lo)) (cos (DG2RAD * lo))) as (o0 & o1) eqn:Er2.
  destruct (three_sets m base ds Hf m1 idx 2 0 1 o2 o0 o1 (o0, o1, o2)) as (A & B & C);
    [assumption..|lia|lia|lia|lia|lia|lia|components|].
  eexists _, (o0, o1, o2). split; [|split; [|split; [exact A|split; [exact B|exact C]]]].
  - cbn [map sph2cart_item]. rewrite (L1 _ _ _ G). cbn [bind]. rewrite (L2 _ _ _ G). cbn [bind].
    unfold out. steps Hf Ha. rewrite Er. steps Hf Ha. rewrite Er2. steps Hf Ha.
  - exists (x, y, z), la, lo. split; [exact E|]. split; [exact T1|]. split; [exact T2|].
    cbn [vrot_sph2cart]. rewrite Er, Er2. reflexivity.
Qed.

Lemma cart2sph_item_ok alat alon idx m1 :
  shape alat = [] \/ shape alat = ds -> array_in m alat ->
  shape alon = [] \/ shape alon = ds -> array_in m alon ->
  index_of ds idx -> good m base (size dims) m1 ->
  exists m2 v, cart2sph_item (map (fun a => part a idx) [a; alat; alon]) (part out idx) m1 = Ok m2 /\
    (exists x la lo, vector m a idx = Some x /\ angle m alat idx = Some la /\
       angle m alon idx = Some lo /\ v = vrot_cart2sph x la lo) /\
    good m base (size dims) m2 /\ (forall k, ~ writes base ds idx k -> m2 k = m1 k) /\
    vector_at base ds m2 idx v.
Proof.
  intros S1 H1 S2 H2 Hi G. destruct (vector_in m a ds idx Hs Ha Hi) as (x & y & z & X & Y & Z & E).
  destruct (angle_in m alat ds idx S1 H1 Hi) as (la & T1 & L1).
  destruct (angle_in m alon ds idx S2 H2 Hi) as (lo & T2 & L2).
  destruct (rot2d x y (sin (- DG2RAD * lo)) (cos (- DG2RAD * lo))) as (tmp & o1) eqn:Er.
  destruct (rot2d tmp z (sin (- DG2RAD * la)) (cos (- DG2RAD * la))) as (o2 & o0) eqn:Er2.
  destruct (three_sets m base ds Hf m1 idx 1 2 0 o1 o2 o0 (o0, o1, o2)) as (A & B & C);
    [assumption..|lia|lia|lia|lia|lia|lia|components|].
  eexists _, (o0, o1, o2). split; [|split; [|split; [exact A|split; [exact B|exact C]]]].
  - cbn [map cart2sph_item]. rewrite (L1 _ _ _ G). cbn [bind]. rewrite (L2 _ _ _ G). cbn [bind].
    unfold out. steps Hf Ha. rewrite Er. steps Hf Ha. rewrite Er2. steps Hf Ha.
  - exists (x, y, z), la, lo. split; [exact E|]. split; [exact T1|]. split; [exact T2|].
    cbn [vrot_cart2sph]. rewrite Er, Er2. reflexivity.
Qed.
End Items.

(** ** The functions *)

Lemma check_vectors_ok a ds : shape a = ds ++ [3%nat] -> (length ds <= 15)%nat ->
  check_vectors a = Ok tt.
Proof.
  intros Hs Hl. unfold check_vectors. rewrite Hs, app_length. cbn [length].
  destruct (Nat.ltb_spec MAX_OUT_ARRAY_NDIM (length ds + 1)) as [L|L]; [unfold MAX_OUT_ARRAY_NDIM in L; lia|].
  rewrite last_last. cbn. now destruct (ds ++ [3%nat]) eqn:E; [destruct ds|].
Qed.

Lemma new_double m base junk ds : (length ds <= 15)%nat ->
  get_new_double_array m base junk (ds ++ [3%nat]) 3 =
  Ok (fst (new_array m base junk (ds ++ [3%nat])), out_array base (ds ++ [3%nat])).
Proof.
  intro Hl. unfold get_new_double_array. rewrite app_length. cbn [length].
  destruct (Nat.ltb_spec MAX_OUT_ARRAY_NDIM (length ds + 1)) as [L|L]; [unfold MAX_OUT_ARRAY_NDIM in L; lia|].
  rewrite removelast_last. now destruct (ds ++ [3%nat]) eqn:E; [destruct ds|].
Qed.

Lemma check_coord_ok ct : check_coord_type (ct_number ct) = Ok ct.
Proof. now destruct ct. Qed.

Lemma convert_array_ok m base junk a ds ct_in ct_out :
  shape a = ds ++ [3%nat] -> (length ds <= 15)%nat -> array_in m a ->
  free_at m base (size (shape a)) -> ct_in <> ct_out ->
  exists m' out, convert_array m base junk a (ct_number ct_in) (ct_number ct_out) = Ok (m', out) /\
    shape out = shape a /\ new_in m m' out /\
    forall idx, index_of ds idx ->
      exists v, vector m a idx = Some v /\ vector m' out idx = Some (convert v ct_in ct_out).
Proof.
  intros Hs Hl Ha Hf Hne. unfold convert_array. rewrite !check_coord_ok. cbn [bind].
  rewrite (check_vectors_ok a ds Hs Hl). cbn [bind].
  assert (Ee : ct_eqb ct_in ct_out = false) by (destruct ct_in, ct_out; try reflexivity; contradiction).
  rewrite Ee. rewrite Hs in *. rewrite (new_double m base junk ds Hl). cbn [bind].
  rewrite removelast_last.
  destruct (vectors_ok m base ds Hf (convert_item (get_fconv ct_in ct_out)) [a] junk
    (fun idx v => exists x, vector m a idx = Some x /\ v = get_fconv ct_in ct_out x)) as (m2 & E & N & q).
  - intros idx m1 Hi G. now apply convert_item_ok.
  - rewrite E. cbn [bind]. exists m2, (out_array base (ds ++ [3%nat])).
    split; [reflexivity|]. split; [reflexivity|]. split; [exact N|].
    intros idx Hi. destruct (q idx Hi) as (v & (x & A & ->) & B). exists x. split; [exact A|].
    unfold convert. rewrite Ee. exact B.
Qed.

Lemma convert_array_same m base junk a ds ct :
  shape a = ds ++ [3%nat] -> (length ds <= 15)%nat ->
  convert_array m base junk a (ct_number ct) (ct_number ct) = Ok (m, a).
Proof.
  intros Hs Hl. unfold convert_array. rewrite !check_coord_ok. cbn [bind].
  rewrite (check_vectors_ok a ds Hs Hl). cbn [bind]. now destruct ct.
Qed.

Lemma vrot_check_ok a b ds : shape a = ds ++ [3%nat] ->
  (vrot_arr_check a b = Ok tt <-> shape b = [] \/ shape b = ds) /\
  (vrot_arr_check a b = Ok tt \/ vrot_arr_check a b = Err ValueError).
Proof.
  intro Hs. unfold vrot_arr_check. rewrite Hs, removelast_last, app_length. cbn [length].
  destruct (shape b) as [|d l] eqn:Eb.
  - cbn. split; [split; auto|auto].
  - destruct (Nat.ltb_spec 0 (length (d :: l))) as [L|L]; [|cbn in L; lia].
    destruct (Nat.eqb_spec (length ds + 1) (length (d :: l) + 1)) as [El|El]; cbn [negb].
    + assert (D : forall p q, length p = length q -> vrot_dims_differ p q = false <-> q = p).
      { induction p as [|u p IH]; intros [|w q] Hq; try discriminate; cbn; [tauto|].
        destruct (Nat.eqb_spec u w) as [->|N].
        - rewrite IH by (cbn in Hq; lia). split; [now intros ->|congruence].
        - split; [discriminate|congruence]. }
      specialize (D ds (d :: l) ltac:(lia)).
      destruct (vrot_dims_differ ds (d :: l)).
      * split; [|auto]. split; [discriminate|]. intros [H|H]; [discriminate|]. now apply D in H.
      * split; [|auto]. split; [intros _; right; now apply D|auto].
    + split; [|auto]. split; [discriminate|]. intros [H|H]; [discriminate|].
      exfalso. apply El. now rewrite H.
Qed.

Lemma sph2geod_array_ok m base junk a ds ad :
  shape a = ds ++ [3%nat] -> (length ds <= 15)%nat -> array_in m a ->
  free_at m base (size (shape a)) -> array_in m ad -> shape ad = [] \/ shape ad = ds ->
  exists m' out, vrot_sph2geod_array m base junk a ad = Ok (m', out) /\
    shape out = shape a /\ new_in m m' out /\
    forall idx, index_of ds idx ->
      exists v t, vector m a idx = Some v /\ angle m ad idx = Some t /\
        vector m' out idx = Some (vrot_sph2geod v t).
Proof.
  intros Hs Hl Ha Hf Hd Sd. unfold vrot_sph2geod_array.
  rewrite (check_vectors_ok a ds Hs Hl). cbn [bind].
  rewrite (proj2 (proj1 (vrot_check_ok a ad ds Hs)) Sd). cbn [bind].
  rewrite Hs in *. rewrite (new_double m base junk ds Hl). cbn [bind]. rewrite removelast_last.
  destruct (vectors_ok m base ds Hf sph2geod_item [a; ad] junk
    (fun idx v => exists x t, vector m a idx = Some x /\ angle m ad idx = Some t /\
       v = vrot_sph2geod x t)) as (m2 & E & N & q).
  - intros idx m1 Hi G. now apply sph2geod_item_ok.
  - rewrite E. cbn [bind]. exists m2, (out_array base (ds ++ [3%nat])).
    split; [reflexivity|]. split; [reflexivity|]. split; [exact N|].
    intros idx Hi. destruct (q idx Hi) as (v & (x & t & A & T & ->) & B). eauto.
Qed.

Lemma sph2cart_array_ok m base junk a ds alat alon :
  shape a = ds ++ [3%nat] -> (length ds <= 15)%nat -> array_in m a ->
  free_at m base (size (shape a)) ->
  array_in m alat -> shape alat = [] \/ shape alat = ds ->
  array_in m alon -> shape alon = [] \/ shape alon = ds ->
  exists m' out, vrot_sph2cart_array m base junk a alat alon = Ok (m', out) /\
    shape out = shape a /\ new_in m m' out /\
    forall idx, index_of ds idx ->
      exists v la lo, vector m a idx = Some v /\ angle m alat idx = Some la /\
        angle m alon idx = Some lo /\ vector m' out idx = Some (vrot_sph2cart v la lo).
Proof.
  intros Hs Hl Ha Hf H1 S1 H2 S2. unfold vrot_sph2cart_array.
  rewrite (check_vectors_ok a ds Hs Hl). cbn [bind].
  rewrite (proj2 (proj1 (vrot_check_ok a alat ds Hs)) S1). cbn [bind].
  rewrite (proj2 (proj1 (vrot_check_ok a alon ds Hs)) S2). cbn [bind].
  rewrite Hs in *. rewrite (new_double m base junk ds Hl). cbn [bind]. rewrite removelast_last.
  destruct (vectors_ok m base ds Hf sph2cart_item [a; alat; alon] junk
    (fun idx v => exists x la lo, vector m a idx = Some x /\ angle m alat idx = Some la /\
       angle m alon idx = Some lo /\ v = vrot_sph2cart x la lo)) as (m2 & E & N & q).
  - intros idx m1 Hi G. now apply sph2cart_item_ok.
  - rewrite E. cbn [bind]. exists m2, (out_array base (ds ++ [3%nat])).
    split; [reflexivity|]. split; [reflexivity|]. split; [exact N|].
    intros idx Hi. destruct (q idx Hi) as (v & (x & la & lo & A & T1 & T2 & ->) & B). eauto 8.
Qed.

Lemma cart2sph_array_ok m base junk a ds alat alon :
  shape a = ds ++ [3%nat] -> (length ds <= 15)%nat -> array_in m a ->
  free_at m base (size (shape a)) ->
  array_in m alat -> shape alat = [] \/ shape alat = ds ->
  array_in m alon -> shape alon = [] \/ shape alon = ds ->
  exists m' out, vrot_cart2sph_array m base junk a alat alon = Ok (m', out) /\
    shape out = shape a /\ new_in m m' out /\
    forall idx, index_of ds idx ->
      exists v la lo, vector m a idx = Some v /\ angle m alat idx = Some la /\
        angle m alon idx = Some lo /\ vector m' out idx = Some (vrot_cart2sph v la lo).
Proof.
  intros Hs Hl Ha Hf H1 S1 H2 S2. unfold vrot_cart2sph_array.
  rewrite (check_vectors_ok a ds Hs Hl). cbn [bind].
  rewrite (proj2 (proj1 (vrot_check_ok a alat ds Hs)) S1). cbn [bind].
  rewrite (proj2 (proj1 (vrot_check_ok a alon ds Hs)) S2). cbn [bind].
  rewrite Hs in *. rewrite (new_double m base junk ds Hl). cbn [bind]. rewrite removelast_last.
  destruct (vectors_ok m base ds Hf cart2sph_item [a; alat; alon] junk
    (fun idx v => exists x la lo, vector m a idx = Some x /\ angle m alat idx = Some la /\
       angle m alon idx = Some lo /\ v = vrot_cart2sph x la lo)) as (m2 & E & N & q).
  - intros idx m1 Hi G. now apply cart2sph_item_ok.
  - rewrite E. cbn [bind]. exists m2, (out_array base (ds ++ [3%nat])).
    split; [reflexivity|]. split; [reflexivity|]. split; [exact N|].
    intros idx Hi. destruct (q idx Hi) as (v & (x & la & lo & A & T1 & T2 & ->) & B). eauto 8.
Qed.

(** ** Errors *)

Lemma check_vectors_error a : ~ vectors_shape (shape a) -> check_vectors a = Err ValueError.
Proof.
  intro H. unfold check_vectors. destruct (shape a) as [|d l] eqn:E; [reflexivity|].
  destruct (Nat.ltb_spec MAX_OUT_ARRAY_NDIM (length (d :: l))) as [L|L]; [reflexivity|].
  destruct (Nat.eqb_spec (last (d :: l) 0%nat) 3) as [E3|N]; [|reflexivity].
  exfalso. apply H. exists (removelast (d :: l)). split.
  - rewrite <- E3. apply app_removelast_last. discriminate.
  - pose proof (@app_removelast_last _ (d :: l) 0%nat ltac:(discriminate)) as A.
    apply (f_equal (@length nat)) in A. rewrite app_length in A. unfold MAX_OUT_ARRAY_NDIM in L.
    cbn [length] in *. lia.
Qed.

Lemma check_coord_cases ct : (exists c, ct = ct_number c) \/ check_coord_type ct = Err ValueError.
Proof.
  unfold check_coord_type. destruct (Z.eqb_spec ct 0) as [->|N0]; [left; now exists CT_GEODETIC_ABOVE_WGS84|].
  destruct (Z.eqb_spec ct 1) as [->|N1]; [left; now exists CT_GEOCENTRIC_SPHERICAL|].
  destruct (Z.eqb_spec ct 2) as [->|N2]; [left; now exists CT_GEOCENTRIC_CARTESIAN|]. now right.
Qed.

Lemma convert_array_error m base junk a ct_in ct_out :
  ~ ((0 <= ct_in <= 2) /\ (0 <= ct_out <= 2) /\ vectors_shape (shape a)) ->
  convert_array m base junk a ct_in ct_out = Err ValueError.
Proof.
  intro H. unfold convert_array.
  destruct (check_coord_cases ct_in) as [(c1 & ->)| ->]; [|reflexivity]. rewrite check_coord_ok. cbn [bind].
  destruct (check_coord_cases ct_out) as [(c2 & ->)| ->]; [|reflexivity]. rewrite check_coord_ok. cbn [bind].
  rewrite check_vectors_error; [reflexivity|]. intro V. apply H. split; [destruct c1; cbn; lia|].
  split; [destruct c2; cbn; lia|exact V].
Qed.

Lemma vrot_check_error a b : vectors_shape (shape a) ->
  vrot_arr_check a b = Ok tt /\ angles_shape (shape b) (shape a) \/
  vrot_arr_check a b = Err ValueError /\ ~ angles_shape (shape b) (shape a).
Proof.
  intros (ds & Hs & _). destruct (vrot_check_ok a b ds Hs) as (A & [B|B]).
  - left. split; [exact B|]. apply A in B. unfold angles_shape. rewrite Hs.
    destruct B as [-> | ->]; auto.
  - right. split; [exact B|]. unfold angles_shape. rewrite Hs. intros [E|E].
    + rewrite (proj2 A (or_introl E)) in B. discriminate.
    + apply app_inj_tail in E. rewrite (proj2 A (or_intror (proj1 E))) in B. discriminate.
Qed.

Lemma vectors_shape_dec dims : vectors_shape dims \/ ~ vectors_shape dims.
Proof.
  destruct (Nat.leb_spec (length dims) 16) as [L|L].
  - destruct (Nat.eq_dec (last dims 0%nat) 3) as [E|N].
    + left. exists (removelast dims). assert (dims <> []) as Hn by (intros ->; discriminate).
      pose proof (@app_removelast_last _ dims 0%nat Hn) as A. rewrite E in A. split; [exact A|].
      apply (f_equal (@length nat)) in A. rewrite app_length in A. cbn in A. lia.
    + right. intros (ds & -> & _). now rewrite last_last in N.
  - right. intros (ds & -> & H). rewrite app_length in L. cbn in L. lia.
Qed.

Lemma sph2geod_array_error m base junk a ad :
  ~ (vectors_shape (shape a) /\ angles_shape (shape ad) (shape a)) ->
  vrot_sph2geod_array m base junk a ad = Err ValueError.
Proof.
  intro H. unfold vrot_sph2geod_array.
  destruct (vectors_shape_dec (shape a)) as [V|N]; [|now rewrite check_vectors_error].
  destruct (V) as (ds & Hs & Hl). rewrite (check_vectors_ok a ds Hs Hl). cbn [bind].
  destruct (vrot_check_error a ad V) as [(_ & B)|(-> & _)]; [tauto|reflexivity].
Qed.

Lemma sph2cart_array_error m base junk a alat alon :
  ~ (vectors_shape (shape a) /\ angles_shape (shape alat) (shape a) /\ angles_shape (shape alon) (shape a)) ->
  vrot_sph2cart_array m base junk a alat alon = Err ValueError.
Proof.
  intro H. unfold vrot_sph2cart_array.
  destruct (vectors_shape_dec (shape a)) as [V|N]; [|now rewrite check_vectors_error].
  destruct (V) as (ds & Hs & Hl). rewrite (check_vectors_ok a ds Hs Hl). cbn [bind].
  destruct (vrot_check_error a alat V) as [(-> & B)|(-> & _)]; [|reflexivity]. cbn [bind].
  destruct (vrot_check_error a alon V) as [(-> & B')|(-> & _)]; [tauto|reflexivity].
Qed.

Lemma cart2sph_array_error m base junk a alat alon :
  ~ (vectors_shape (shape a) /\ angles_shape (shape alat) (shape a) /\ angles_shape (shape alon) (shape a)) ->
  vrot_cart2sph_array m base junk a alat alon = Err ValueError.
Proof.
  intro H. unfold vrot_cart2sph_array.
  destruct (vectors_shape_dec (shape a)) as [V|N]; [|now rewrite check_vectors_error].
  destruct (V) as (ds & Hs & Hl). rewrite (check_vectors_ok a ds Hs Hl). cbn [bind].
  destruct (vrot_check_error a alat V) as [(-> & B)|(-> & _)]; [|reflexivity]. cbn [bind].
  destruct (vrot_check_error a alon V) as [(-> & B')|(-> & _)]; [tauto|reflexivity].
Qed.
