(** Proofs about legendre, which has two output arrays, and about the refused arguments. *)

From Coq Require Import Bool List Reals ZArith Lia Lra Arith.
From Verif Require Import ArrModel LegendreModel LegendreSpec LegendreProofs LoopProofs SizeModel CoefModel ShEvalModel ShEvalSpec
  TempModel FourierModel FourierProofs SunModel InterpModel ROrd StridedModel StridedSpec StridedEvalModel StridedEvalSpec StridedProofs
  NdModel NdSpec NdProofs NdFunProofs.
Import ListNotations.
Open Scope Z_scope.

(** one of the arrays of the result *)
Lemma finish_array m base odims tdims blk m2 (P : list nat -> option cell -> Prop) :
  let D := odims ++ tdims in
  free_cells m base (size D) -> good m blk m2 -> (forall k, blk1 (base / 8) (size D) k -> blk k) ->
  (forall idx, index_of odims idx -> exists vals, length vals = size tdims /\
     (forall tdx c, index_of tdims tdx -> nth_error vals (linear tdims tdx) = Some c -> P (idx ++ tdx) (Some c)) /\
     forall i c, nth_error vals i = Some c -> m2 (base / 8 + Z.of_nat (linear odims idx * size tdims) + Z.of_nat i) = Some c) ->
  new_cells m m2 (out_array base D) /\ forall idx, index_of D idx -> P idx (cell_at m2 (out_array base D) idx).
Proof.
  intros D (Hb & Hf) G Hblk HV.
  assert (CA : forall mm idx, index_of D idx -> cell_at mm (out_array base D) idx = mm (base / 8 + Z.of_nat (linear D idx))).
  { intros mm idx Hi. unfold cell_at. rewrite (out_address base D idx Hb Hi), mod_8, div_8. reflexivity. }
  split.
  - split.
    + intros idx Hi. cbn in Hi. rewrite address_dot. cbn [out_array data stride]. rewrite dot_c_strides by exact Hi. reflexivity.
    + intros idx Hi. cbn in Hi. rewrite !CA by exact Hi. pose proof (linear_bound _ _ Hi). split; [apply Hf; lia|].
      apply (proj1 (G _)). apply Hblk. unfold blk1. lia.
  - intros idx Hi. rewrite CA by exact Hi. destruct (index_split _ _ _ Hi) as (i & t & -> & A & B).
    destruct (HV i A) as (vals & L & HP & HM). unfold D. rewrite linear_cat by exact A.
    pose proof (linear_bound _ _ B) as LB.
    destruct (nth_error vals (linear tdims t)) as [c|] eqn:E; [|apply nth_error_None in E; lia].
    replace (base / 8 + Z.of_nat (linear odims i * size tdims + linear tdims t))
      with (base / 8 + Z.of_nat (linear odims i * size tdims) + Z.of_nat (linear tdims t)) by lia.
    rewrite (HM _ _ E). now apply HP.
Qed.

Lemma unlinear : forall dims n, (n < size dims)%nat -> exists idx, index_of dims idx /\ linear dims idx = n.
Proof.
  induction dims as [|d ds IH]; intros n Hn.
  - exists []. split; [constructor|]. cbn in Hn. cbn. lia.
  - cbn [size fold_right] in Hn. fold (size ds) in Hn. assert (size ds <> 0)%nat by nia.
    destruct (IH (n mod size ds)%nat) as (idx & A & B); [now apply Nat.mod_upper_bound|].
    exists ((n / size ds)%nat :: idx). split.
    + constructor; [|exact A]. unfold Nat.lt. apply Nat.div_lt_upper_bound; [assumption|]. lia.
    + cbn [linear]. rewrite B. pose proof (Nat.div_mod n (size ds)). lia.
Qed.

Lemma nm_cover degree : forall k, (k < nm_size degree)%nat -> exists n m, k = nm_index n m /\ (m <= n <= degree)%nat.
Proof.
  induction degree as [|d IH]; intros k Hk.
  - exists 0%nat, 0%nat. rewrite T_size in Hk. change (T 1) with 1%nat in Hk. split; [|lia]. cbn. lia.
  - destruct (Nat.lt_ge_cases k (nm_size d)) as [L|L].
    + destruct (IH k L) as (n & m & -> & H). exists n, m. split; [reflexivity|lia].
    + exists (S d), (k - nm_size d)%nat. rewrite T_index. rewrite T_size in *. rewrite T_S in Hk. split; lia.
Qed.

Lemma legendre_one x degree mem buf init k : (k < nm_size degree)%nat ->
  fst (legendre [x] degree mem buf) k = fst (shc_legendre (fst init) (snd init) degree (x * DG2RAD) (shc_presqrt degree buf) (shc_prersqrt degree buf)) k /\
  snd (legendre [x] degree mem buf) k = snd (shc_legendre (fst init) (snd init) degree (x * DG2RAD) (shc_presqrt degree buf) (shc_prersqrt degree buf)) k.
Proof.
  intro Hk. destruct (nm_cover degree k Hk) as (n & m & -> & Hn). unfold legendre. cbn [legendre_items].
  pose proof (legendre_pure (ptr (fst mem) 0) (ptr (snd mem) 0) (fst init) (snd init) degree (x * DG2RAD) _ _ n m (tables degree buf buf) Hn) as (A1 & A2).
  pose proof (legendre_pure (fst init) (snd init) (fst init) (snd init) degree (x * DG2RAD) _ _ n m (tables degree buf buf) Hn) as (A3 & _).
  rewrite A3, <- A2. destruct (shc_legendre (ptr (fst mem) 0) _ _ _ _ _) as [p' dp']. cbn [fst snd] in *.
  unfold unptr. destruct (Nat.ltb_spec (nm_index n m) 0); [lia|]. rewrite !Nat.sub_0_r. split; [exact A1|reflexivity].
Qed.

Lemma legendre_gives m base_p base_dp junk lat degree buf init nlat : 1 <= degree ->
  let size1 := nm_size (Z.to_nat degree) in
  let D := dims nlat ++ [size1] in
  number_array m lat nlat -> free_cells m base_p (size D) -> free_cells m base_dp (size D) ->
  base_p + 8 * Z.of_nat (size D) <= base_dp \/ base_dp + 8 * Z.of_nat (size D) <= base_p ->
  gives2 m (legendre_array m base_p base_dp junk lat degree buf init) D
    (fun idx c => forall mem, c = Some (num (fst (legendre [at_index nlat idx] (Z.to_nat degree) mem buf) (last idx 0%nat))))
    (fun idx c => forall mem, c = Some (num (snd (legendre [at_index nlat idx] (Z.to_nat degree) mem buf) (last idx 0%nat)))).
Proof.
  intros Hd size1 D Hx Hp Hdp Hsep. pose proof Hx as (Sx & _). unfold legendre_array.
  destruct (Z.ltb_spec degree 0); [lia|]. set (d := Z.to_nat degree) in *. cbv zeta. rewrite Sx.
  change ((d + 1) * (d + 2) / 2)%nat with size1. fold D.
  assert (LW : legendre_written d = size1).
  { unfold legendre_written. change ((d + 1) * (d + 2) / 2)%nat with (nm_size d). fold size1.
    assert (3 <= size1)%nat; [|lia]. unfold size1. rewrite T_size. pose proof (T_le 2 (S d) ltac:(lia)) as T2. exact T2. }
  set (jp := base_p / 8). set (jd := base_dp / 8).
  assert (Ep : base_p = 8 * jp) by (destruct Hp as (Hp & _); unfold jp; pose proof (Z.div_mod base_p 8); lia).
  assert (Ed : base_dp = 8 * jd) by (destruct Hdp as (Hdp & _); unfold jd; pose proof (Z.div_mod base_dp 8); lia).
  set (blk := fun k => blk1 jp (size D) k \/ blk1 jd (size D) k).
  unfold alloc. cbv iota beta. fold (out_array base_p D). fold (out_array base_dp D). fold jp jd.
  match goal with |- context [walk ?i ?dd ?ins ?outs ?mm] => set (m2 := mm); set (item := i) end.
  assert (Fr : forall k, blk k -> m k = None) by (intros k [Hk|Hk]; [apply (free_blk m base_p _ Hp); exact Hk|apply (free_blk m base_dp _ Hdp); exact Hk]).
  assert (G2 : good m blk m2).
  { intros k. unfold m2, blk, blk1. destruct (Z.leb_spec jd k); destruct (Z.ltb_spec k (jd + Z.of_nat (size D))); cbn [andb];
      try (split; [intros _; eexists; reflexivity|intro Hn; exfalso; apply Hn; right; lia]);
      destruct (Z.leb_spec jp k); destruct (Z.ltb_spec k (jp + Z.of_nat (size D))); cbn [andb];
      try (split; [intros _; eexists; reflexivity|intro Hn; exfalso; apply Hn; left; lia]); (split; [intros [Hq|Hq]; exfalso; lia|reflexivity]). }
  assert (SD : size D = (size (dims nlat) * size1)%nat) by (unfold D; rewrite size_app; f_equal; unfold size; cbn [fold_right]; lia).
  assert (S1 : size [size1] = size1) by (unfold size; cbn [fold_right]; lia).
  set (off := fun idx => Z.of_nat (linear (dims nlat) idx * size1)).
  assert (Hoff : forall idx i, index_of (dims nlat) idx -> (i < size1)%nat -> 0 <= off idx /\ off idx + Z.of_nat i < Z.of_nat (size D)).
  { intros idx i Hi Hl. pose proof (linear_bound _ _ Hi). unfold off. rewrite SD. nia. }
  set (A := fun idx => shc_legendre (fst init) (snd init) d (get nlat idx * DG2RAD)%R (shc_presqrt d buf) (shc_prersqrt d buf)).
  destruct (walk_ok (fun x : heap => x) item (good m blk) (dims nlat) [(0%nat, lat)] [out_array base_p D; out_array base_dp D]
    (fun idx k => blk1 (jp + off idx) size1 k \/ blk1 (jd + off idx) size1 k)
    (fun idx m' => (forall i c, nth_error (cells (fst (A idx)) size1) i = Some c -> m' (jp + off idx + Z.of_nat i) = Some c) /\
                   (forall i c, nth_error (cells (snd (A idx)) size1) i = Some c -> m' (jd + off idx + Z.of_nat i) = Some c)))
    with (s := m2) as (m3 & E & G3 & _ & V).
  - intros idx s Hi G. cbn [map].
    assert (So : forall j, subo (out_array (8 * j) D) idx = out_array (8 * (j + off idx)) [size1]).
    { intro j. unfold D. rewrite subo_item by exact Hi. unfold off. now rewrite S1. }
    assert (Sp : subo (out_array base_p D) idx = out_array (8 * (jp + off idx)) [size1]) by (rewrite <- So; do 2 f_equal; exact Ep).
    assert (Sd : subo (out_array base_dp D) idx = out_array (8 * (jd + off idx)) [size1]) by (rewrite <- So; do 2 f_equal; exact Ed).
    rewrite Sp, Sd. unfold item, legendre_item. cbn [out_array data].
    rewrite (fetch_real_ok m blk s G Fr _ (at_index nlat idx)) by (apply (arg0 m lat nlat (dims nlat)); [exact Hx|apply self_prefix|exact Hi]).
    cbn [bind]. rewrite at_index_full by exact Hi. fold (A idx). rewrite LW. destruct (A idx) as [lp ldp]. cbn [fst snd].
    destruct (put_list_ok m blk (cells lp size1) s (jp + off idx) G) as (s1 & E1 & G1 & W1 & F1).
    { intros i Hl. rewrite cells_length in Hl. left. unfold blk1. destruct (Hoff idx i Hi Hl). lia. }
    rewrite E1. cbn [bind].
    destruct (put_list_ok m blk (cells ldp size1) s1 (jd + off idx) G1) as (s2 & E2 & G2' & W2 & F2).
    { intros i Hl. rewrite cells_length in Hl. right. unfold blk1. destruct (Hoff idx i Hi Hl). lia. }
    rewrite cells_length in F1, F2.
    exists s2. split; [exact E2|]. split; [exact G2'|]. split; [|split].
    + intros k Hk. unfold blk1 in Hk. rewrite F2 by tauto. apply F1. tauto.
    + intros i c Hc. rewrite F2; [now apply W1|].
      assert (Hl : (i < size1)%nat) by (rewrite <- (cells_length lp size1); apply nth_error_Some; congruence).
      destruct (Hoff idx i Hi Hl). assert (Hl0 : (0 < size1)%nat) by lia. destruct (Hoff idx (size1 - 1)%nat Hi ltac:(lia)). lia.
    + exact W2.
  - intros idx m4 m5 Hi Eq (V1 & V2). split; intros i c Hc;
      assert (Hl : (i < size1)%nat) by (match type of Hc with nth_error (cells ?a _) _ = _ => rewrite <- (cells_length a size1) end; apply nth_error_Some; congruence);
      (rewrite Eq; [auto|]); unfold blk1; lia.
  - intros idx idx' k Hi Hi' H1 H2. apply (linear_inj (dims nlat)); [assumption..|]. unfold blk1 in *.
    pose proof (linear_bound _ _ Hi) as L1. pose proof (linear_bound _ _ Hi') as L2.
    unfold off in *. rewrite SD in *. nia.
  - exact G2.
  - rewrite E. cbn [bind].
    assert (Val : forall (idx : list nat) tdx c (f : arr), index_of [size1] tdx ->
      nth_error (cells f size1) (linear [size1] tdx) = Some c -> exists k, tdx = [k] /\ (k < size1)%nat /\ c = num (f k)).
    { intros idx tdx c f Ht Hc. destruct (index1 _ _ Ht) as (k & -> & Hk). replace (linear [size1] [k]) with k in Hc by (cbn; lia).
      apply cells_nth in Hc. exists k. tauto. }
    destruct (finish_array m base_p (dims nlat) [size1] blk m3
      (fun idx c => forall mem, c = Some (num (fst (legendre [at_index nlat idx] d mem buf) (last idx 0%nat))))) as (N1 & P1);
      [exact Hp|exact G3|intros k Hk; now left| |].
    { intros idx Hi. exists (cells (fst (A idx)) size1). rewrite cells_length, S1. split; [reflexivity|]. split.
      - intros tdx c Ht Hc mem. destruct (Val idx tdx c _ Ht Hc) as (k & -> & Hk & ->). rewrite last_last, at_index_app by exact Hi.
        do 2 f_equal. unfold A. symmetry. now apply legendre_one.
      - apply (V idx Hi). }
    destruct (finish_array m base_dp (dims nlat) [size1] blk m3
      (fun idx c => forall mem, c = Some (num (snd (legendre [at_index nlat idx] d mem buf) (last idx 0%nat))))) as (N2 & P2);
      [exact Hdp|exact G3|intros k Hk; now right| |].
    { intros idx Hi. exists (cells (snd (A idx)) size1). rewrite cells_length, S1. split; [reflexivity|]. split.
      - intros tdx c Ht Hc mem. destruct (Val idx tdx c _ Ht Hc) as (k & -> & Hk & ->). rewrite last_last, at_index_app by exact Hi.
        do 2 f_equal. unfold A. symmetry. now apply legendre_one.
      - apply (V idx Hi). }
    destruct Hp as (Hp1 & Hp2). destruct Hdp as (Hd1 & Hd2).
    exists m3, (out_array base_p D), (out_array base_dp D). split; [reflexivity|]. split; [reflexivity|]. split; [reflexivity|].
    split; [exact N1|]. split; [exact N2|]. split; [|split; [|split]].
    + intros idx idx' Hi Hi'. rewrite !out_address by assumption. unfold StridedProofs.cell. fold jp jd.
      pose proof (linear_bound _ _ Hi). pose proof (linear_bound _ _ Hi'). lia.
    + intros k c Hk. rewrite (proj2 (G3 k)); [exact Hk|]. intro B. rewrite (Fr k B) in Hk. discriminate.
    + intros k Hk Hn.
      assert (B : blk k).
      { destruct (Z_le_dec jp k) as [a1|a1]; destruct (Z_lt_dec k (jp + Z.of_nat (size D))) as [a2|a2];
          try (left; unfold blk1; lia);
          destruct (Z_le_dec jd k) as [a3|a3]; destruct (Z_lt_dec k (jd + Z.of_nat (size D))) as [a4|a4];
          try (right; unfold blk1; lia); exfalso; apply Hn; rewrite (proj2 (G3 k)); auto; unfold blk, blk1; lia. }
      destruct B as [B|B]; unfold blk1 in B.
      * destruct (unlinear D (Z.to_nat (k - jp))) as (idx & Hi & L); [lia|]. exists (out_array base_p D), idx.
        split; [now left|]. split; [exact Hi|]. rewrite out_address by assumption. unfold StridedProofs.cell. fold jp. rewrite L. lia.
      * destruct (unlinear D (Z.to_nat (k - jd))) as (idx & Hi & L); [lia|]. exists (out_array base_dp D), idx.
        split; [right; now left|]. split; [exact Hi|]. rewrite out_address by assumption. unfold StridedProofs.cell. fold jd. rewrite L. lia.
    + intros idx Hi. split; [exact (P1 idx Hi)|exact (P2 idx Hi)].
Qed.

(** ** The refused arguments *)

Lemma nd_errors m base base' junk v x t t0 c0 lat t1 t2 :
  (forall side, side <> 0 -> side <> 1 -> bisect_array m base junk v x side = Err ValueError) /\
  (forall side, length (shape v) <> 1%nat -> bisect_array m base junk v x side = Err ValueError) /\
  (forall kind extrapolate, kind <> 0 -> kind <> 1 -> kind <> 17 -> interp_array m base junk t t0 c0 kind extrapolate = Err ValueError) /\
  (forall kind extrapolate n ds n', shape t0 = [n] -> shape c0 = ds ++ [n'] -> n <> n' \/ (n < 2)%nat /\ kind <> 0 \/ n = 0%nat ->
     interp_array m base junk t t0 c0 kind extrapolate = Err ValueError) /\
  (forall degree buf init, degree < 0 -> legendre_array m base base' junk lat degree buf init = Err ValueError) /\
  (forall degree reference internal init, degree < 0 \/ (reference <= 0)%R ->
     relradpow_array m base junk lat degree reference internal init = Err ValueError) /\
  (forall degree fast init, degree < 0 -> loncossin_array m base junk lat degree fast init = Err ValueError) /\
  (forall min1 min2 s1 s2 mem, (length (shape c0) < 3)%nat \/ shape t1 <> shape t2 \/ last (shape c0) 0%nat <> 2%nat ->
     fourier2d_array m base junk t1 t2 c0 min1 min2 s1 s2 mem = Err ValueError).
Proof.
  repeat apply conj.
  - intros side H0 H1. unfold bisect_array. apply Z.eqb_neq in H0, H1. now rewrite H0, H1.
  - intros side H. unfold bisect_array. destruct (_ && _); [reflexivity|]. apply Nat.eqb_neq in H. now rewrite H.
  - intros kind ex H0 H1 H2. unfold interp_array, check_kind. apply Z.eqb_neq in H0, H1, H2. now rewrite H0, H1, H2.
  - intros kind ex n ds n' Hs Hc H. unfold interp_array, dim0. rewrite Hs, Hc, app_length, last_last. cbn [length hd Nat.eqb negb].
    destruct (check_kind kind) as [k|e] eqn:Ek; [|unfold check_kind in Ek; repeat (destruct (_ =? _); [discriminate|]); cbn [bind]; congruence].
    cbn [bind]. destruct (Nat.ltb_spec (length ds + 1) 1); [reflexivity|].
    destruct (Nat.eqb_spec n n') as [->|N]; cbn [negb]; [|reflexivity].
    destruct (Nat.ltb_spec n' (min_nt k)); [reflexivity|]. exfalso. unfold check_kind in Ek.
    destruct (Z.eqb_spec kind 0); [|destruct (Z.eqb_spec kind 1); [|destruct (Z.eqb_spec kind 17); [|discriminate]]];
      injection Ek as <-; cbn in *; lia.
  - intros degree buf init H. unfold legendre_array. destruct (Z.ltb_spec degree 0); [reflexivity|lia].
  - intros degree ref int init H. unfold relradpow_array. destruct (Z.ltb_spec degree 0); [reflexivity|].
    destruct (Rleb ref 0) eqn:E; [reflexivity|]. apply Rleb_gt in E. exfalso. destruct H; [lia|lra].
  - intros degree fast init H. unfold loncossin_array. destruct (Z.ltb_spec degree 0); [reflexivity|lia].
  - intros min1 min2 s1 s2 mem H. unfold fourier2d_array. destruct (Nat.ltb_spec (length (shape c0)) 3) as [|L]; [reflexivity|].
    destruct (same_dims (shape t1) (shape t2)) eqn:E; cbn [negb]; [|reflexivity]. apply same_dims_spec in E.
    destruct H as [H|[H|H]]; [lia|contradiction|].
    assert (EL : dim_last 1 c0 = last (shape c0) 0%nat).
    { destruct (exists_last (l := shape c0)) as (l & y & Ey); [intro Q; rewrite Q in L; cbn in L; lia|].
      rewrite Ey, last_last. now apply (dim_last_one c0 l). }
    rewrite EL. apply Nat.eqb_neq in H. now rewrite H.
Qed.
