(** Proofs about the recursive loops over arrays in a memory of doubles and integers. *)

From Coq Require Import Bool List Reals ZArith Lia Arith.
From Verif Require Import ArrModel LegendreModel SizeModel CoefModel ShEvalModel ShEvalSpec StridedModel StridedSpec
  StridedEvalModel StridedEvalSpec StridedProofs NdModel NdSpec.
Import ListNotations.
Open Scope Z_scope.

(** ** Loops *)

Lemma for_st_ok {S} (n : nat) (body : nat -> S -> result S) (I : nat -> S -> Prop) s :
  I 0%nat s ->
  (forall i s, (i < n)%nat -> I i s -> exists s', body i s = Ok s' /\ I (Datatypes.S i) s') ->
  exists s', for_st n body s = Ok s' /\ I n s'.
Proof.
  intros H0 Hs. unfold for_st.
  assert (G : forall k i s, I i s -> (i + k = n)%nat ->
    exists s', fold_left (fun r i => match r with Ok s => body i s | Err e => Err e end)
                 (seq i k) (Ok s) = Ok s' /\ I n s').
  { induction k as [|k IH]; intros i s1 Hi Hn; cbn [seq fold_left].
    - exists s1. split; [reflexivity|]. now replace n with i by lia.
    - destruct (Hs i s1 ltac:(lia) Hi) as (s2 & E & H2). rewrite E. apply IH; [exact H2|lia]. }
  apply G; [exact H0|lia].
Qed.

(** the item of an array at a multi-index *)
Fixpoint sub (g : nat) (a : arrd) (idx : list nat) : arrd :=
  match idx with [] => a | i :: idx' => sub g (get_arrd_item_with_guard a i g) idx' end.
Fixpoint subo (a : arrd) (idx : list nat) : arrd :=
  match idx with [] => a | i :: idx' => subo (get_arrd_item_nocheck a i) idx' end.

Lemma walk_ok {S} (hp : S -> heap) item (Good : S -> Prop) :
  forall dims ins outs (W : list nat -> Z -> Prop) (Q : list nat -> heap -> Prop),
  (forall idx s, index_of dims idx -> Good s ->
     exists s', item (map (fun '(g, a) => sub g a idx) ins) (map (fun a => subo a idx) outs) s = Ok s' /\ Good s' /\
       (forall k, ~ W idx k -> hp s' k = hp s k) /\ Q idx (hp s')) ->
  (forall idx m m', index_of dims idx -> (forall k, W idx k -> m' k = m k) -> Q idx m -> Q idx m') ->
  (forall idx idx' k, index_of dims idx -> index_of dims idx' -> W idx k -> W idx' k -> idx = idx') ->
  forall s, Good s ->
  exists s', walk item dims ins outs s = Ok s' /\ Good s' /\
    (forall k, (forall idx, index_of dims idx -> ~ W idx k) -> hp s' k = hp s k) /\
    forall idx, index_of dims idx -> Q idx (hp s').
Proof.
  induction dims as [|d ds IH]; intros ins outs W Q Hitem Hst Hdj s Hs.
  - cbn [walk]. destruct (Hitem [] s ltac:(constructor) Hs) as (s' & E & G & F & q).
    replace (map (fun '(g, a) => sub g a []) ins) with (map snd ins) in E
      by (apply map_ext; now intros [g a]).
    replace (map (fun a => subo a []) outs) with outs in E by (symmetry; apply map_id).
    exists s'. split; [exact E|]. split; [exact G|]. split.
    + intros k Hk. apply F, Hk. constructor.
    + intros idx Hi. inversion Hi; subst. exact q.
  - cbn [walk].
    set (I := fun n s' => Good s' /\
      (forall k, (forall i idx, (i < n)%nat -> index_of ds idx -> ~ W (i :: idx) k) -> hp s' k = hp s k) /\
      forall i idx, (i < n)%nat -> index_of ds idx -> Q (i :: idx) (hp s')).
    destruct (for_st_ok d (fun i s =>
        walk item ds (map (fun '(g, a) => (g, get_arrd_item_with_guard a i g)) ins)
          (map (fun a => get_arrd_item_nocheck a i) outs) s) I s) as (s' & E & G & F & q).
    + split; [exact Hs|]. split; [reflexivity|]. intros; lia.
    + intros i s1 Hi (G & F & q).
      destruct (IH (map (fun '(g, a) => (g, get_arrd_item_with_guard a i g)) ins)
                  (map (fun a => get_arrd_item_nocheck a i) outs)
                  (fun idx => W (i :: idx)) (fun idx => Q (i :: idx))) with (s := s1) as (s2 & E2 & G2 & F2 & q2).
      * intros idx s3 Hidx Hs3. destruct (Hitem (i :: idx) s3 ltac:(now constructor) Hs3) as (s4 & E4 & R4).
        exists s4. split; [|exact R4]. rewrite !map_map. rewrite <- E4. f_equal.
        apply map_ext. now intros [g a].
      * intros idx m m' Hidx. apply Hst. now constructor.
      * intros idx idx' k H1 H2 H3 H4.
        assert (i :: idx = i :: idx') by (apply (Hdj _ _ k); [now constructor|now constructor|assumption..]). congruence.
      * exact G.
      * exists s2. split; [exact E2|]. split; [exact G2|]. split.
        -- intros k Hk. rewrite F2; [|intros idx Hidx; apply Hk; [lia|assumption]]. apply F. intros i' idx Hi' Hidx. apply Hk; [lia|assumption].
        -- intros i' idx Hi' Hidx. destruct (Nat.eq_dec i' i) as [->|N]; [now apply q2|].
           apply (Hst (i' :: idx) (hp s1)); [constructor; [unfold Nat.lt; lia|assumption]| |apply q; [lia|assumption]].
           intros k Hk. apply F2. intros idx' Hidx' Hw.
           assert (Eq : i' :: idx = i :: idx')
             by (apply (Hdj _ _ k); [constructor; [unfold Nat.lt; lia|assumption]|constructor; assumption|assumption|assumption]).
           congruence.
    + exists s'. split; [exact E|]. split; [exact G|]. split.
      * intros k Hk. apply F. intros i idx Hi Hidx. apply Hk. now constructor.
      * intros idx Hidx. inversion Hidx as [|i ? l ? Hi Hl]; subst. now apply q.
Qed.

(** ** The items *)

Lemma sub_cat : forall pdims tail a g idx rest,
  shape a = pdims ++ tail -> length (stride a) = length (shape a) -> (g <= length tail)%nat ->
  index_of pdims idx -> rest = [] \/ (length tail <= g)%nat ->
  data (sub g a (idx ++ rest)) = address a idx /\ shape (sub g a (idx ++ rest)) = tail.
Proof.
  induction pdims as [|p ps IH]; intros tail a g idx rest Hs Hl Hg Hi Hr; inversion Hi as [|i ? idx' ? Hj Hidx]; subst; cbn [app].
  - assert (E : sub g a rest = a).
    { destruct Hr as [->|Hr]; [reflexivity|]. clear Hi. induction rest as [|i idx IHi]; [reflexivity|]. cbn [sub]. unfold get_arrd_item_with_guard.
      rewrite Hs. cbn [app]. destruct (Nat.leb_spec (length tail) g); [exact IHi|lia]. }
    rewrite E. rewrite address_dot, dot_nil. split; [lia|exact Hs].
  - cbn [sub].
    assert (E : get_arrd_item_with_guard a i g = get_arrd_item_nocheck a i).
    { unfold get_arrd_item_with_guard. rewrite Hs. cbn [app length]. rewrite app_length.
      destruct (Nat.leb_spec (S (length ps + length tail)) g); [lia|reflexivity]. }
    rewrite E. destruct (stride a) as [|s st] eqn:Es; [rewrite Hs in Hl; discriminate|].
    destruct (IH tail (get_arrd_item_nocheck a i) g idx' rest) as (A & B).
    + cbn. now rewrite Hs.
    + cbn. rewrite Hs, Es. cbn. rewrite Hs in Hl. cbn in Hl. lia.
    + exact Hg.
    + exact Hidx.
    + exact Hr.
    + split; [|exact B]. rewrite A, !address_dot. cbn [get_arrd_item_nocheck data stride]. rewrite Es. cbn [hd tl].
      rewrite dot_cons. lia.
Qed.

Lemma size_app a b : size (a ++ b) = (size a * size b)%nat.
Proof.
  induction a as [|d a IH]; [cbn [app]; change (size []) with 1%nat; lia|].
  cbn [app]. change (size (d :: a ++ b)) with (d * size (a ++ b))%nat. change (size (d :: a)) with (d * size a)%nat. rewrite IH. lia.
Qed.

Lemma linear_cat : forall a b idx tdx, index_of a idx -> linear (a ++ b) (idx ++ tdx) = (linear a idx * size b + linear b tdx)%nat.
Proof.
  induction a as [|d a IH]; intros b idx tdx H; inversion H as [|i ? l ? Hi Hl]; subst; cbn [app linear]; [reflexivity|].
  rewrite IH, size_app by assumption. lia.
Qed.

Lemma subo_item : forall odims tdims j idx, index_of odims idx ->
  subo (out_array (8 * j) (odims ++ tdims)) idx = out_array (8 * (j + Z.of_nat (linear odims idx * size tdims))) tdims.
Proof.
  induction odims as [|d ds IH]; intros tdims j idx H; inversion H as [|i ? l ? Hi Hl]; subst; cbn [subo linear app].
  - f_equal. lia.
  - replace (get_arrd_item_nocheck (out_array (8 * j) (d :: ds ++ tdims)) i)
      with (out_array (8 * (j + Z.of_nat (i * size (ds ++ tdims)))) (ds ++ tdims)).
    + rewrite IH by assumption. f_equal. rewrite size_app. lia.
    + unfold out_array, get_arrd_item_nocheck. cbn [data shape stride c_strides hd tl]. f_equal. lia.
Qed.

Lemma index_split : forall a b idx, index_of (a ++ b) idx -> exists i t, idx = i ++ t /\ index_of a i /\ index_of b t.
Proof.
  induction a as [|d a IH]; intros b idx H.
  - exists [], idx. repeat split; [constructor|exact H].
  - inversion H as [|i ? l ? Hi Hl]; subst. destruct (IH b l Hl) as (i' & t & -> & A & B).
    exists (i :: i'), t. repeat split; [now constructor|exact B].
Qed.
Lemma index_cat a b i t : index_of a i -> index_of b t -> index_of (a ++ b) (i ++ t).
Proof. apply Forall2_app. Qed.
Lemma index_len a i : index_of a i -> length i = length a.
Proof. induction 1; cbn; congruence. Qed.

(** ** Writing *)

(** the memory in which the elements of new arrays, the cells [blk], are being written *)
Definition good (m0 : heap) (blk : Z -> Prop) (m : heap) : Prop :=
  forall k, (blk k -> exists c, m k = Some c) /\ (~ blk k -> m k = m0 k).

(** the list [vals] has been written from the cell [j] on *)
Definition blit (m : heap) (j : Z) (vals : list cell) (m' : heap) : Prop :=
  (forall i c, nth_error vals i = Some c -> m' (j + Z.of_nat i) = Some c) /\
  forall k, ~ (j <= k < j + Z.of_nat (length vals)) -> m' k = m k.

Lemma put_ok m j c w : m j = Some w -> put m (8 * j) c = Ok (fun k => if k =? j then Some c else m k).
Proof. intro H. unfold put. rewrite mod_8, div_8, H. reflexivity. Qed.

Lemma good_put m0 blk m j c : good m0 blk m -> blk j -> good m0 blk (fun k => if k =? j then Some c else m k).
Proof.
  intros G B k. destruct (Z.eqb_spec k j) as [->|N]; [|apply G]. split; [eauto|contradiction].
Qed.

Lemma put_list_ok m0 blk : forall l m j, good m0 blk m ->
  (forall i, (i < length l)%nat -> blk (j + Z.of_nat i)) ->
  exists m', put_list m (8 * j) 8 l = Ok m' /\ good m0 blk m' /\ blit m j l m'.
Proof.
  induction l as [|c l IH]; intros m j G B.
  - exists m. split; [reflexivity|]. split; [exact G|]. split; [intros [|i]; discriminate|reflexivity].
  - assert (Bj : blk j) by (rewrite <- (Z.add_0_r j); apply (B 0%nat); cbn; lia).
    destruct (proj1 (G j) Bj) as (w & Hw). cbn [put_list]. rewrite (put_ok _ _ _ _ Hw). cbn [bind].
    replace (8 * j + 8) with (8 * (j + 1)) by lia.
    destruct (IH _ (j + 1) (good_put _ _ _ _ c G Bj)) as (m' & E & G' & W & F).
    { intros i Hi. replace (j + 1 + Z.of_nat i) with (j + Z.of_nat (S i)) by lia. apply B. cbn. lia. }
    exists m'. split; [exact E|]. split; [exact G'|]. split.
    + intros [|i] c' H.
      * cbn in H. injection H as <-. rewrite F by lia. replace (j + Z.of_nat 0) with j by lia. now rewrite Z.eqb_refl.
      * cbn in H. rewrite <- (W i c' H). f_equal. lia.
    + intros k Hk. cbn [length] in Hk. rewrite F by lia. destruct (Z.eqb_spec k j); [lia|reflexivity].
Qed.

(** ** Reading *)

Definition readable (m0 : heap) (addr : Z) (c : cell) : Prop := addr mod 8 = 0 /\ m0 (addr / 8) = Some c.

Lemma cell_readable m a idx c : cell_at m a idx = Some c -> readable m (address a idx) c.
Proof. unfold cell_at. destruct (Z.eqb_spec (address a idx mod 8) 0); [|discriminate]. now split. Qed.

Section Reading.
Variables (m0 : heap) (blk : Z -> Prop) (m : heap).
Hypothesis G : good m0 blk m.
Hypothesis Fr : forall k, blk k -> m0 k = None.

Lemma good_extends k c : m0 k = Some c -> m k = Some c.
Proof. intro H. rewrite (proj2 (G k)); [exact H|]. intro B. rewrite (Fr k B) in H. discriminate. Qed.

Lemma fetch_ok addr x : readable m0 addr (Dbl x) -> fetch m addr = Ok x.
Proof. intros (A & B). unfold fetch. rewrite A, (good_extends _ _ B). reflexivity. Qed.

Lemma fetch_real_ok addr x : readable m0 addr (num x) -> fetch_real m addr = Ok x.
Proof. intro H. unfold fetch_real. rewrite (fetch_ok _ _ H). reflexivity. Qed.

Lemma fetch_list_ok : forall l addr, (forall k x, nth_error l k = Some x -> readable m0 (addr + 8 * Z.of_nat k) (num x)) ->
  fetch_list m addr (length l) = Ok l.
Proof.
  induction l as [|x l IH]; intros addr H; [reflexivity|]. cbn [length fetch_list].
  rewrite (fetch_real_ok addr x); [|rewrite <- (Z.add_0_r addr); exact (H 0%nat x eq_refl)]. cbn [bind].
  rewrite IH; [reflexivity|]. intros k y Hk. replace (addr + 8 + 8 * Z.of_nat k) with (addr + 8 * Z.of_nat (S k)) by lia. now apply H.
Qed.

Lemma nth_map_seq {A} (f : nat -> A) n k d : (k < n)%nat -> nth k (map f (seq 0 n)) d = f k.
Proof. intro H. rewrite (nth_indep _ d (f 0%nat)) by (now rewrite map_length, seq_length). rewrite map_nth, seq_nth by exact H. reflexivity. Qed.

Lemma nth_error_map_seq {A} (f : nat -> A) n k x : nth_error (map f (seq 0 n)) k = Some x -> (k < n)%nat /\ x = f k.
Proof.
  intro H. assert (L : (k < n)%nat). { apply nth_error_Some_lt in H || (assert (nth_error (map f (seq 0 n)) k <> None) as N by congruence; apply nth_error_Some in N; rewrite map_length, seq_length in N; exact N). }
  split; [exact L|]. rewrite nth_error_map in H. rewrite (nth_error_nth' (seq 0 n) 0%nat) in H by (now rewrite seq_length).
  rewrite seq_nth in H by exact L. cbn in H. congruence.
Qed.

Lemma fetch_arr_ok addr n (f : arr) : (forall k, (k < n)%nat -> readable m0 (addr + 8 * Z.of_nat k) (num (f k))) ->
  exists g, fetch_arr m addr n = Ok g /\ forall k, (k < n)%nat -> g k = f k.
Proof.
  intro H. unfold fetch_arr. pose proof (fetch_list_ok (map f (seq 0 n)) addr) as L. rewrite map_length, seq_length in L.
  rewrite L; [|intros k x Hk; apply nth_error_map_seq in Hk; destruct Hk as (Hk & ->); now apply H].
  cbn [bind]. eexists. split; [reflexivity|]. intros k Hk. now apply nth_map_seq.
Qed.

Lemma fetch_pairs_ok addr n (f : coefs) :
  (forall k, (k < n)%nat -> readable m0 (addr + 8 * Z.of_nat (2 * k)) (num (fst (f k))) /\
                            readable m0 (addr + 8 * Z.of_nat (2 * k + 1)) (num (snd (f k)))) ->
  exists g, fetch_pairs m addr n = Ok g /\ forall k, (k < n)%nat -> g k = f k.
Proof.
  intro H. unfold fetch_pairs.
  set (h := fun j : nat => if Nat.even j then fst (f (Nat.div2 j)) else snd (f (Nat.div2 j))).
  pose proof (fetch_list_ok (map h (seq 0 (2 * n))) addr) as L. rewrite map_length, seq_length in L.
  rewrite L.
  - cbn [bind]. eexists. split; [reflexivity|]. intros k Hk. cbv beta.
    rewrite (nth_map_seq h (2 * n) (2 * k)), (nth_map_seq h (2 * n) (2 * k + 1)) by lia. unfold h.
    rewrite Nat.even_add, Nat.even_mul. cbn [Nat.even orb negb Bool.eqb xorb].
    rewrite Nat.div2_double. replace (2 * k + 1)%nat with (S (2 * k)) by lia. rewrite Nat.div2_succ_double. now destruct (f k).
  - intros j x Hj. apply nth_error_map_seq in Hj. destruct Hj as (Hj & ->). unfold h.
    destruct (Nat.Even_or_Odd j) as [(k & ->)|(k & ->)].
    + rewrite Nat.even_mul, Nat.div2_double. cbn [Nat.even orb]. apply H. lia.
    + rewrite Nat.even_add, Nat.even_mul. cbn [Nat.even orb negb Bool.eqb xorb].
      replace (2 * k + 1)%nat with (S (2 * k)) at 2 by lia. rewrite Nat.div2_succ_double. apply H. lia.
Qed.
End Reading.

(** ** Rows of C-contiguous arrays *)

Lemma address_zeros : forall tail a idx, address a (idx ++ repeat 0%nat tail) = address a idx.
Proof.
  intros tail a idx. rewrite !address_dot. f_equal. generalize (stride a) as st.
  induction idx as [|i idx IH]; intro st.
  - cbn [app]. rewrite dot_nil. revert st. induction tail as [|n IHn]; intro st; [reflexivity|].
    destruct st as [|s st]; [reflexivity|]. cbn [repeat]. rewrite dot_cons, IHn. lia.
  - destruct st as [|s st]; [reflexivity|]. cbn [app]. rewrite !dot_cons, IH. reflexivity.
Qed.

Lemma offset_linear : forall d i, offset d i = linear d i.
Proof. reflexivity. Qed.

(** the elements of an item are next to each other *)
Lemma row_address a pdims tdims idx tdx : c_contiguous a -> shape a = pdims ++ tdims ->
  index_of pdims idx -> index_of tdims tdx ->
  address a (idx ++ tdx) = address a idx + 8 * Z.of_nat (linear tdims tdx).
Proof.
  intros C Hs Hi Ht.
  assert (Z0 : index_of tdims (repeat 0%nat (length tdims))).
  { clear -Ht. induction Ht as [|x y l l' H]; cbn [length repeat]; [constructor|]. constructor; [unfold Nat.lt in *; lia|exact IHHt]. }
  pose proof (C (idx ++ tdx)) as A1. pose proof (C (idx ++ repeat 0%nat (length tdims))) as A2.
  rewrite Hs in A1, A2. rewrite A1 by now apply index_cat.
  rewrite <- (address_zeros (length tdims) a idx). rewrite A2 by now apply index_cat.
  rewrite !offset_linear, !linear_cat by assumption.
  assert (E : linear tdims (repeat 0%nat (length tdims)) = 0%nat).
  { clear. induction tdims; cbn; [reflexivity|]. exact IHtdims. }
  rewrite E. lia.
Qed.

Lemma firstn_index pdims odims idx : prefix pdims odims -> index_of odims idx -> index_of pdims (firstn (length pdims) idx).
Proof.
  intros (c & ->) H. destruct (index_split _ _ _ H) as (i & t & -> & A & _).
  pose proof (index_len _ _ A) as L. rewrite <- L, firstn_app, Nat.sub_diag, firstn_all. cbn [firstn]. now rewrite app_nil_r.
Qed.

Lemma sub_item pdims odims tail a idx :
  shape a = pdims ++ tail -> length (stride a) = length (shape a) -> prefix pdims odims -> index_of odims idx ->
  data (sub (length tail) a idx) = address a (firstn (length pdims) idx) /\
  shape (sub (length tail) a idx) = tail.
Proof.
  intros Hs Hl Hp Hi. rewrite <- (firstn_skipn (length pdims) idx) at 1 3.
  apply (sub_cat pdims); [assumption..|lia| |right; lia]. now apply (firstn_index _ odims).
Qed.

(** ** One output array *)

Definition blk1 (j : Z) (n : nat) (k : Z) : Prop := j <= k < j + Z.of_nat n.

Lemma alloc_good m base junk dims : free_cells m base (size dims) ->
  good m (blk1 (base / 8) (size dims)) (fst (alloc m base junk dims)).
Proof.
  intros _ k. unfold blk1. cbn. destruct (Z.leb_spec (base / 8) k); cbn; [|split; [lia|reflexivity]].
  destruct (Z.ltb_spec k (base / 8 + Z.of_nat (size dims))); [|split; [lia|reflexivity]]. split; [eauto|lia].
Qed.

Lemma blit_good m0 blk m j vals m' : good m0 blk m -> (forall i, (i < length vals)%nat -> blk (j + Z.of_nat i)) ->
  blit m j vals m' -> good m0 blk m'.
Proof.
  intros G B (W & F) k. destruct (Z_le_dec j k) as [A|A]; [destruct (Z_lt_dec k (j + Z.of_nat (length vals))) as [A'|A']|].
  - set (i := Z.to_nat (k - j)). assert (Hi : (i < length vals)%nat) by (unfold i; lia).
    assert (Ek : k = j + Z.of_nat i) by (unfold i; lia).
    destruct (nth_error vals i) as [c|] eqn:E; [|apply nth_error_None in E; lia].
    rewrite Ek. rewrite (W i c E). split; [eauto|]. intro N. exfalso. apply N, B, Hi.
  - rewrite F by lia. apply G.
  - rewrite F by lia. apply G.
Qed.

Section One.
Context {S : Type}.
Variables (hp : S -> heap) (Inv : S -> Prop).
Variables (m : heap) (blk : Z -> Prop) (j : Z) (odims tdims : list nat).
Let N := size (odims ++ tdims).
Let K := size tdims.
Let pos (idx : list nat) : Z := j + Z.of_nat (linear odims idx * K).
Hypothesis Hblk : forall k, blk1 j N k -> blk k.

Lemma pos_in idx i : index_of odims idx -> (i < K)%nat -> blk1 j N (pos idx + Z.of_nat i).
Proof.
  intros H Hi. unfold blk1, pos, N. rewrite size_app. fold K. pose proof (linear_bound _ _ H). nia.
Qed.

Lemma one_ok item ins (R : list nat -> list cell -> Prop) :
  (forall idx s, index_of odims idx -> good m blk (hp s) -> Inv s ->
     exists s' vals, item (map (fun '(g, a) => sub g a idx) ins) [out_array (8 * pos idx) tdims] s = Ok s' /\
       blit (hp s) (pos idx) vals (hp s') /\ length vals = K /\ R idx vals /\ Inv s') ->
  forall s, good m blk (hp s) -> Inv s ->
  exists s', walk item odims ins [out_array (8 * j) (odims ++ tdims)] s = Ok s' /\ good m blk (hp s') /\ Inv s' /\
    (forall k, ~ blk1 j N k -> hp s' k = hp s k) /\
    forall idx, index_of odims idx -> exists vals, R idx vals /\ length vals = K /\
      forall i c, nth_error vals i = Some c -> hp s' (pos idx + Z.of_nat i) = Some c.
Proof.
  intros Hitem s Hs Is.
  destruct (walk_ok hp item (fun s => good m blk (hp s) /\ Inv s) odims ins [out_array (8 * j) (odims ++ tdims)]
    (fun idx k => blk1 (pos idx) K k)
    (fun idx m' => exists vals, R idx vals /\ length vals = K /\ forall i c, nth_error vals i = Some c -> m' (pos idx + Z.of_nat i) = Some c))
    with (s := s) as (s' & E & (G & I') & F & q).
  - intros idx s1 Hi (G1 & I1). destruct (Hitem idx s1 Hi G1 I1) as (s2 & vals & E & B & L & HR & I2).
    exists s2. cbn [map]. rewrite subo_item by exact Hi. split; [exact E|]. split; [split; [|exact I2]|].
    + apply (blit_good _ _ (hp s1) (pos idx) vals); [exact G1| |exact B]. intros i H. apply Hblk, pos_in; [exact Hi|lia].
    + split.
      * intros k Hk. apply (proj2 B). unfold blk1 in Hk. rewrite L. exact Hk.
      * exists vals. split; [exact HR|]. split; [exact L|]. apply B.
  - intros idx m1 m2 Hi E (vals & A & L & B). exists vals. split; [exact A|]. split; [exact L|].
    intros i c Hc. rewrite E; [now apply B|]. unfold blk1.
    assert (i < length vals)%nat by (apply nth_error_Some; congruence). lia.
  - intros idx idx' k Hi Hi' H1 H2. unfold blk1, pos in *. apply (linear_inj odims); [assumption..|]. nia.
  - split; assumption.
  - exists s'. split; [exact E|]. split; [exact G|]. split; [exact I'|]. split; [|exact q].
    intros k Hk. apply F. intros idx Hi HW. apply Hk.
    replace k with (pos idx + Z.of_nat (Z.to_nat (k - pos idx))) by (unfold blk1 in HW; lia).
    apply pos_in; [exact Hi|unfold blk1 in HW; lia].
Qed.
End One.

(** the loops over the items of one output item *)
Lemma nested_ok {S} (hp : S -> heap) (Inv : S -> Prop) m (blk : Z -> Prop) jj dims item ins (Q : list nat -> cell -> Prop) s :
  (forall i, (i < size dims)%nat -> blk (jj + Z.of_nat i)) -> good m blk (hp s) -> Inv s ->
  (forall idx s k, index_of dims idx -> good m blk (hp s) -> Inv s -> blk k ->
     exists s' c, item (map (fun '(g, a) => sub g a idx) ins) [out_array (8 * k) []] s = Ok s' /\
       blit (hp s) k [c] (hp s') /\ Q idx c /\ Inv s') ->
  exists s' vals, walk item dims ins [out_array (8 * jj) dims] s = Ok s' /\ blit (hp s) jj vals (hp s') /\
    length vals = size dims /\ Inv s' /\
    forall idx c, index_of dims idx -> nth_error vals (linear dims idx) = Some c -> Q idx c.
Proof.
  intros Hb G I Hitem.
  assert (SD : size (dims ++ []) = size dims) by now rewrite app_nil_r.
  destruct (one_ok hp Inv m blk jj dims []) with (item := item) (ins := ins) (s := s)
    (R := fun idx vals => exists c, vals = [c] /\ Q idx c) as (s' & E & G' & I' & F & V).
  - intros k (H1 & H2). rewrite SD in H2. replace k with (jj + Z.of_nat (Z.to_nat (k - jj))) by lia. apply Hb. lia.
  - intros idx s1 Hi G1 I1. pose proof (linear_bound _ _ Hi) as LB. change (size []) with 1%nat. rewrite Nat.mul_1_r.
    destruct (Hitem idx s1 (jj + Z.of_nat (linear dims idx)) Hi G1 I1) as (s2 & c & A & B & C & D).
    + apply Hb, LB.
    + exists s2, [c]. split; [exact A|]. split; [exact B|]. split; [reflexivity|]. split; [eauto|exact D].
  - exact G.
  - exact I.
  - rewrite app_nil_r in E, F. change (size []) with 1%nat in V.
    assert (HS : forall i, (i < size dims)%nat -> exists c, hp s' (jj + Z.of_nat i) = Some c) by (intros i Hi; apply (proj1 (G' _)), Hb, Hi).
    set (v := fun i => match hp s' (jj + Z.of_nat i) with Some c => c | None => Intp 0 end).
    assert (Hv : forall i, (i < size dims)%nat -> hp s' (jj + Z.of_nat i) = Some (v i)).
    { intros i Hi. unfold v. destruct (HS i Hi) as (c & ->). reflexivity. }
    exists s', (map v (seq 0 (size dims))). split; [exact E|]. split; [|split; [|split]].
    + split.
      * intros i c Hc. apply nth_error_map_seq in Hc. destruct Hc as (Hi & ->). now apply Hv.
      * intros k Hk. rewrite map_length, seq_length in Hk. apply F. unfold blk1. exact Hk.
    + now rewrite map_length, seq_length.
    + exact I'.
    + intros idx c Hi Hc. apply nth_error_map_seq in Hc. destruct Hc as (Hl & ->).
      destruct (V idx Hi) as (vals & (c' & -> & HQ) & _ & HM). specialize (HM 0%nat c' eq_refl).
      rewrite Nat.mul_1_r, Z.add_0_r in HM. rewrite Hv in HM by exact Hl. now injection HM as ->.
Qed.

(** the result of a call with one output array *)
Lemma finish_gives m base odims tdims m2 (P : list nat -> option cell -> Prop) :
  free_cells m base (size (odims ++ tdims)) ->
  good m (blk1 (base / 8) (size (odims ++ tdims))) m2 ->
  (forall idx, index_of odims idx -> exists vals, length vals = size tdims /\
     (forall tdx c, index_of tdims tdx -> nth_error vals (linear tdims tdx) = Some c -> P (idx ++ tdx) (Some c)) /\
     forall i c, nth_error vals i = Some c -> m2 (base / 8 + Z.of_nat (linear odims idx * size tdims) + Z.of_nat i) = Some c) ->
  gives m (Ok (m2, out_array base (odims ++ tdims))) (odims ++ tdims) P.
Proof.
  intros (Hb & Hf) G HV. set (D := odims ++ tdims) in *.
  assert (CA : forall mm idx, index_of D idx -> cell_at mm (out_array base D) idx = mm (base / 8 + Z.of_nat (linear D idx))).
  { intros mm idx Hi. unfold cell_at. rewrite (out_address base D idx Hb Hi), mod_8, div_8. reflexivity. }
  exists m2, (out_array base D). split; [reflexivity|]. split; [reflexivity|]. split; [|split; [|split]].
  - split.
    + intros idx Hi. cbn in Hi. rewrite address_dot. cbn [out_array data stride]. rewrite dot_c_strides by exact Hi.
      now rewrite <- offset_linear.
    + intros idx Hi. cbn in Hi. rewrite !CA by exact Hi. pose proof (linear_bound _ _ Hi). split; [apply Hf; lia|].
      apply (proj1 (G _)). unfold blk1. lia.
  - intros k c Hk. rewrite (proj2 (G k)); [exact Hk|]. intro B. unfold blk1 in B. rewrite Hf in Hk by exact B. discriminate.
  - intros k Hk Hn. exists (out_array base D).
    destruct (Z_le_dec (base / 8) k) as [A|A]; [|exfalso; apply Hn; rewrite (proj2 (G k)); [exact Hk|unfold blk1; lia]].
    destruct (Z_lt_dec k (base / 8 + Z.of_nat (size D))) as [B|B]; [|exfalso; apply Hn; rewrite (proj2 (G k)); [exact Hk|unfold blk1; lia]].
    assert (U : forall dims n, (n < size dims)%nat -> exists idx, index_of dims idx /\ linear dims idx = n).
    { clear. induction dims as [|d ds IH]; intros n Hn.
      - exists []. split; [constructor|]. cbn in Hn. cbn. lia.
      - cbn [size fold_right] in Hn. fold (size ds) in Hn. assert (size ds <> 0)%nat by nia.
        destruct (IH (n mod size ds)%nat) as (idx & A & B); [now apply Nat.mod_upper_bound|].
        exists ((n / size ds)%nat :: idx). split.
        + constructor; [|exact A]. unfold Nat.lt. apply Nat.div_lt_upper_bound; [assumption|]. lia.
        + cbn [linear]. rewrite B. pose proof (Nat.div_mod n (size ds)). lia. }
    destruct (U D (Z.to_nat (k - base / 8))) as (idx & Hi & L); [lia|].
    exists idx. split; [now left|]. split; [exact Hi|]. rewrite out_address by assumption. unfold StridedProofs.cell. rewrite L. lia.
  - intros idx Hi. rewrite CA by exact Hi. destruct (index_split _ _ _ Hi) as (i & t & -> & A & B).
    destruct (HV i A) as (vals & L & HP & HM). unfold D. rewrite linear_cat by exact A.
    pose proof (linear_bound _ _ B) as LB.
    destruct (nth_error vals (linear tdims t)) as [c|] eqn:E; [|apply nth_error_None in E; lia].
    replace (base / 8 + Z.of_nat (linear odims i * size tdims + linear tdims t))
      with (base / 8 + Z.of_nat (linear odims i * size tdims) + Z.of_nat (linear tdims t)) by lia.
    rewrite (HM _ _ E). now apply HP.
Qed.

Lemma free_blk m base n : free_cells m base n -> forall k, blk1 (base / 8) n k -> m k = None.
Proof. intros (_ & H) k Hk. now apply H. Qed.

(** the walk over the new array of a function *)
Lemma run_st_ok {S} (hp : S -> heap) (Inv : S -> Prop) item ins m base odims tdims (P : list nat -> option cell -> Prop) s :
  free_cells m base (size (odims ++ tdims)) ->
  (forall idx s jj, index_of odims idx -> good m (blk1 (base / 8) (size (odims ++ tdims))) (hp s) -> Inv s ->
     (forall i, (i < size tdims)%nat -> blk1 (base / 8) (size (odims ++ tdims)) (jj + Z.of_nat i)) ->
     exists s' vals, item (map (fun '(g, a) => sub g a idx) ins) [out_array (8 * jj) tdims] s = Ok s' /\
       blit (hp s) jj vals (hp s') /\ length vals = size tdims /\ Inv s' /\
       forall tdx c, index_of tdims tdx -> nth_error vals (linear tdims tdx) = Some c -> P (idx ++ tdx) (Some c)) ->
  good m (blk1 (base / 8) (size (odims ++ tdims))) (hp s) -> Inv s ->
  exists s', walk item odims ins [out_array base (odims ++ tdims)] s = Ok s' /\
    gives m (Ok (hp s', out_array base (odims ++ tdims))) (odims ++ tdims) P.
Proof.
  intros Hf Hitem G1 I1. pose proof Hf as (Hb & _).
  assert (Eb : base = 8 * (base / 8)) by (pose proof (Z.div_mod base 8); lia).
  destruct (one_ok hp Inv m (blk1 (base / 8) (size (odims ++ tdims))) (base / 8) odims tdims (fun k H => H) item ins
    (fun idx vals => forall tdx c, index_of tdims tdx -> nth_error vals (linear tdims tdx) = Some c -> P (idx ++ tdx) (Some c)))
    with (s := s) as (m2 & E & G2 & _ & _ & V); [|exact G1|exact I1|].
  - intros idx s1 Hi G I. destruct (Hitem idx s1 (base / 8 + Z.of_nat (linear odims idx * size tdims)) Hi G I) as (m' & vals & A & B & C & D & D').
    + intros i H. now apply (pos_in (base / 8) odims tdims).
    + exists m', vals. repeat split; try assumption; apply B.
  - exists m2. rewrite Eb at 1. split; [exact E|].
    apply finish_gives; [exact Hf|exact G2|].
    intros idx Hi. destruct (V idx Hi) as (vals & A & B & C). exists vals. repeat split; assumption.
Qed.

Lemma run_ok item ins m base junk odims tdims (P : list nat -> option cell -> Prop) :
  free_cells m base (size (odims ++ tdims)) ->
  (forall idx m1 jj, index_of odims idx -> good m (blk1 (base / 8) (size (odims ++ tdims))) m1 ->
     (forall i, (i < size tdims)%nat -> blk1 (base / 8) (size (odims ++ tdims)) (jj + Z.of_nat i)) ->
     exists m' vals, item (map (fun '(g, a) => sub g a idx) ins) [out_array (8 * jj) tdims] m1 = Ok m' /\
       blit m1 jj vals m' /\ length vals = size tdims /\
       forall tdx c, index_of tdims tdx -> nth_error vals (linear tdims tdx) = Some c -> P (idx ++ tdx) (Some c)) ->
  gives m (let '(m1, out) := alloc m base junk (odims ++ tdims) in
           bind (walk item odims ins [out] m1) (fun m2 => Ok (m2, out))) (odims ++ tdims) P.
Proof.
  intros Hf Hitem. pose proof (alloc_good m base junk (odims ++ tdims) Hf) as G1.
  destruct (run_st_ok (fun x : heap => x) (fun _ => True) item ins m base odims tdims P
    (fst (alloc m base junk (odims ++ tdims))) Hf) as (m2 & E & R); [|exact G1|exact I|].
  - intros idx s jj Hi G _ B. destruct (Hitem idx s jj Hi G B) as (m' & vals & A1 & A2 & A3 & A4).
    exists m', vals. repeat split; try assumption; apply A2.
  - unfold alloc in *. cbv iota beta. cbn [fst] in E. fold (out_array base (odims ++ tdims)). rewrite E. exact R.
Qed.
