(** Proofs about the functions over arrays in a memory of doubles and integers. *)

From Coq Require Import Bool List Reals ZArith Lia Lra Arith.
From Verif Require Import ArrModel LegendreModel LegendreSpec LegendreProofs LoopProofs SizeModel CoefModel ShEvalModel ShEvalSpec ShEvalProofs
  SpharModel SpharProofs TempModel FourierModel FourierSpec FourierProofs SunModel SunSpec SunProofs BisectModel BisectProofs InterpModel ROrd
  StridedModel StridedSpec StridedEvalModel StridedEvalSpec StridedProofs StridedEvalProofs BufTopProofs NdModel NdSpec NdProofs.
Import ListNotations.
Open Scope Z_scope.

Notation cell := NdModel.cell.
Notation good := NdProofs.good.

(** ** Arguments *)

Lemma at_full {A} (nx : nd A) odims idx : prefix (dims nx) odims -> index_of odims idx ->
  at_index nx idx = get nx (firstn (length (dims nx)) idx).
Proof. reflexivity. Qed.

Lemma arg0 m a nx odims idx : number_array m a nx -> prefix (dims nx) odims -> index_of odims idx ->
  readable m (data (sub 0 a idx)) (num (at_index nx idx)).
Proof.
  intros (Hs & Hl & Hc) Hp Hi.
  destruct (sub_item (dims nx) odims [] a idx) as (D & _); [now rewrite app_nil_r|exact Hl|exact Hp|exact Hi|].
  cbn [length] in D. rewrite D. apply cell_readable. apply Hc. now apply (firstn_index _ odims).
Qed.

Lemma arg_double m a nx idx : double_array m a nx -> index_of (dims nx) idx ->
  readable m (data (sub 0 a idx)) (Dbl (get nx idx)).
Proof.
  intros (Hs & Hl & Hc) Hi.
  destruct (sub_item (dims nx) (dims nx) [] a idx) as (D & _); [now rewrite app_nil_r|exact Hl|exists []; now rewrite app_nil_r|exact Hi|].
  cbn [length] in D. rewrite D. apply cell_readable. rewrite <- (index_len _ _ Hi), firstn_all. now apply Hc.
Qed.

Lemma row1 m a n nx idx k : series_array m a n nx -> c_contiguous a -> index_of (dims nx) idx -> (k < n)%nat ->
  readable m (address a idx + 8 * Z.of_nat k) (num (get nx idx k)).
Proof.
  intros (Hs & Hl & Hc) C Hi Hk.
  pose proof (row_address a (dims nx) [n] idx [k] C Hs Hi ltac:(now repeat constructor)) as E.
  replace (linear [n] [k]) with k in E by (cbn; lia). rewrite <- E. apply cell_readable. now apply Hc.
Qed.

Lemma row2 m a n nx idx k : pair_array m a n nx -> c_contiguous a -> index_of (dims nx) idx -> (k < n)%nat ->
  readable m (address a idx + 8 * Z.of_nat (2 * k)) (num (fst (get nx idx k))) /\
  readable m (address a idx + 8 * Z.of_nat (2 * k + 1)) (num (snd (get nx idx k))).
Proof.
  intros (Hs & Hl & Hc) C Hi Hk. destruct (Hc idx k Hi Hk) as (A & B).
  pose proof (row_address a (dims nx) [n; 2%nat] idx [k; 0%nat] C Hs Hi ltac:(repeat constructor; unfold Nat.lt; lia)) as E0.
  pose proof (row_address a (dims nx) [n; 2%nat] idx [k; 1%nat] C Hs Hi ltac:(repeat constructor; unfold Nat.lt; lia)) as E1.
  replace (linear [n; 2%nat] [k; 0%nat]) with (2 * k)%nat in E0 by (unfold linear, size; cbn [fold_right]; lia).
  replace (linear [n; 2%nat] [k; 1%nat]) with (2 * k + 1)%nat in E1 by (unfold linear, size; cbn [fold_right]; lia).
  rewrite <- E0, <- E1. split; now apply cell_readable.
Qed.

Lemma row3 m a n1 n2 nx idx k : matrix_array m a n1 n2 nx -> c_contiguous a -> index_of (dims nx) idx -> (k < n1 * n2)%nat ->
  readable m (address a idx + 8 * Z.of_nat (2 * k)) (num (fst (get nx idx k))) /\
  readable m (address a idx + 8 * Z.of_nat (2 * k + 1)) (num (snd (get nx idx k))).
Proof.
  intros (Hs & Hl & Hc) C Hi Hk. assert (n2 <> 0)%nat by lia.
  set (p := (k / n2)%nat). set (q := (k mod n2)%nat).
  assert (Ek : k = (p * n2 + q)%nat) by (unfold p, q; pose proof (Nat.div_mod k n2); lia).
  assert (Hq : (q < n2)%nat) by (now apply Nat.mod_upper_bound).
  assert (Hp : (p < n1)%nat) by (apply Nat.div_lt_upper_bound; lia).
  destruct (Hc idx p q Hi Hp Hq) as (A & B). rewrite <- Ek in A, B.
  pose proof (row_address a (dims nx) [n1; n2; 2%nat] idx [p; q; 0%nat] C Hs Hi ltac:(repeat constructor; unfold Nat.lt; lia)) as E0.
  pose proof (row_address a (dims nx) [n1; n2; 2%nat] idx [p; q; 1%nat] C Hs Hi ltac:(repeat constructor; unfold Nat.lt; lia)) as E1.
  replace (linear [n1; n2; 2%nat] [p; q; 0%nat]) with (2 * k)%nat in E0 by (unfold linear, size; cbn [fold_right]; lia).
  replace (linear [n1; n2; 2%nat] [p; q; 1%nat]) with (2 * k + 1)%nat in E1 by (unfold linear, size; cbn [fold_right]; lia).
  rewrite <- E0, <- E1. split; now apply cell_readable.
Qed.

Lemma arg1 m a n nx odims idx k : series_array m a n nx -> c_contiguous a -> prefix (dims nx) odims -> index_of odims idx -> (k < n)%nat ->
  readable m (data (sub 1 a idx) + 8 * Z.of_nat k) (num (at_index nx idx k)).
Proof.
  intros Ha C Hp Hi Hk. pose proof Ha as (Hs & Hl & _).
  destruct (sub_item (dims nx) odims [n] a idx Hs Hl Hp Hi) as (D & _). cbn [length] in D. rewrite D.
  apply (row1 _ _ n); [assumption..|now apply (firstn_index _ odims)|exact Hk].
Qed.

Lemma arg2 m a n nx odims idx k : pair_array m a n nx -> c_contiguous a -> prefix (dims nx) odims -> index_of odims idx -> (k < n)%nat ->
  readable m (data (sub 2 a idx) + 8 * Z.of_nat (2 * k)) (num (fst (at_index nx idx k))) /\
  readable m (data (sub 2 a idx) + 8 * Z.of_nat (2 * k + 1)) (num (snd (at_index nx idx k))).
Proof.
  intros Ha C Hp Hi Hk. pose proof Ha as (Hs & Hl & _).
  destruct (sub_item (dims nx) odims [n; 2%nat] a idx Hs Hl Hp Hi) as (D & _). cbn [length] in D. rewrite D.
  apply (row2 _ _ n); [assumption..|now apply (firstn_index _ odims)|exact Hk].
Qed.

Lemma nodes_row m a l k x : node_array m a l -> c_contiguous a -> nth_error l k = Some x ->
  readable m (data a + 8 * Z.of_nat k) (num x).
Proof.
  intros (Hs & Hl & Hc) C Hk.
  assert (L : (k < length l)%nat) by (apply nth_error_Some; congruence).
  pose proof (C [k]) as E. rewrite Hs in E. specialize (E ltac:(now repeat constructor)).
  replace (offset [length l] [k]) with k in E by (cbn; lia). rewrite <- E. apply cell_readable. now apply Hc.
Qed.

Lemma self_prefix (d : list nat) : prefix d d.
Proof. exists []. now rewrite app_nil_r. Qed.

Lemma at_index_full {A} (nx : nd A) idx : index_of (dims nx) idx -> at_index nx idx = get nx idx.
Proof. intro H. unfold at_index. now rewrite <- (index_len _ _ H), firstn_all. Qed.

Lemma put_blit m blk m1 jj c : good m blk m1 -> blk jj -> exists m', put m1 (8 * jj) c = Ok m' /\ blit m1 jj [c] m'.
Proof.
  intros G B. destruct (put_list_ok m blk [c] m1 jj G) as (m' & E & _ & W).
  - intros i Hi. cbn in Hi. now replace (jj + Z.of_nat i) with jj by lia.
  - exists m'. split; [|exact W]. cbn [put_list] in E. destruct (put m1 (8 * jj) c); [exact E|discriminate].
Qed.

Lemma app_nil_index (d : list nat) idx : index_of [] idx -> idx = [].
Proof. now inversion 1. Qed.

Lemma run0_ok item ins m base junk odims (P : list nat -> option cell -> Prop) :
  free_cells m base (size odims) ->
  (forall idx m1 jj, index_of odims idx -> good m (blk1 (base / 8) (size odims)) m1 -> blk1 (base / 8) (size odims) jj ->
     exists m' c, item (map (fun '(g, a) => sub g a idx) ins) [out_array (8 * jj) []] m1 = Ok m' /\
       blit m1 jj [c] m' /\ P idx (Some c)) ->
  gives m (let '(m1, out) := alloc m base junk odims in
           bind (walk item odims ins [out] m1) (fun m2 => Ok (m2, out))) odims P.
Proof.
  intros Hf Hitem. pose proof (run_ok item ins m base junk odims [] P) as H. rewrite app_nil_r in H. apply H; [exact Hf|].
  intros idx m1 jj Hi G B. destruct (Hitem idx m1 jj Hi G) as (m' & c & A1 & A2 & A3).
  - rewrite <- (Z.add_0_r jj). apply (B 0%nat). cbn. lia.
  - exists m', [c]. split; [exact A1|]. split; [exact A2|]. split; [reflexivity|].
    intros tdx c' Ht Hc. inversion Ht; subst. cbn in Hc. injection Hc as <-. now rewrite app_nil_r.
Qed.

(** ** bisect *)

Lemma bisect_gives m base junk v x nodes nx side : side = 0 \/ side = 1 ->
  node_array m v nodes -> c_contiguous v -> double_array m x nx -> free_cells m base (size (dims nx)) ->
  gives m (bisect_array m base junk v x side) (dims nx)
    (fun idx c => exists i, bisect nodes [get nx idx] (side =? 1) = [Some i] /\ c = Some (Intp i)).
Proof.
  intros Hside Hv C Hx Hf. pose proof Hv as (Sv & _). pose proof Hx as (Sx & _).
  unfold bisect_array. rewrite Sv, Sx. cbn [length Nat.eqb negb].
  replace (negb (side =? 0) && negb (side =? 1)) with false by (destruct Hside as [->| ->]; reflexivity).
  apply run0_ok; [exact Hf|].
  intros idx m1 jj Hi G B. set (blk := blk1 _ _) in *.
  assert (Fr : forall k, blk k -> m k = None) by (intros k Hk; now apply (free_blk m base _ Hf)).
  cbn [map bisect_item]. unfold dim0. rewrite Sv. cbn [hd].
  rewrite (fetch_list_ok m blk m1 G Fr nodes) by (intros k y Hk; now apply (nodes_row m v nodes)). cbn [bind].
  rewrite (fetch_ok m blk m1 G Fr _ (get nx idx)) by now apply arg_double. cbn [bind].
  assert (T : exists i, (if side =? 1 then bisect_right (get nx idx) nodes else bisect_left (get nx idx) nodes) = Some i).
  { destruct (side =? 1); [destruct (bisect_right_total (get nx idx) nodes) as (i & E & _)|destruct (bisect_left_total (get nx idx) nodes) as (i & E & _)]; eauto. }
  destruct T as (i & E). rewrite E. cbn [out_array data].
  destruct (put_blit m blk m1 jj (Intp i) G B) as (m' & E' & W).
  exists m', (Intp i). split; [exact E'|]. split; [exact W|]. exists i. split; [|reflexivity].
  unfold bisect. cbn [map]. now rewrite E.
Qed.

(** ** interp *)

Lemma aread_some {A} (v : list A) i : 0 <= i < Z.of_nat (length v) -> exists a, aread v i = Some a.
Proof.
  intros H. unfold aread. destruct (Z.ltb_spec i 0); [lia|].
  destruct (nth_error v (Z.to_nat i)) as [a|] eqn:E; [eauto|]. apply nth_error_None in E. lia.
Qed.

Lemma basis_total kind x v : (min_nt kind <= length v)%nat -> exists b, get_interp_basis kind x v = Some b /\
  0 <= b_i b /\ b_i b + Z.of_nat (min_nt kind) <= Z.of_nat (length v).
Proof.
  intro L. destruct (bisect_right_total x v) as (i & E & B).
  destruct kind; cbn [get_interp_basis min_nt] in *; unfold get_interp0_basis, get_interp1_basis, get_interp1d1_basis; cbv zeta; rewrite E.
  - eexists. split; [reflexivity|]. cbn [b_i]. unfold clip. destruct (Z.ltb_spec i 0); [lia|].
    destruct (Z.ltb_spec (Z.of_nat (length v) - 1) i); lia.
  - assert (Cl : 0 <= clip i 0 (Z.of_nat (length v) - 2) <= Z.of_nat (length v) - 2).
    { unfold clip. destruct (Z.ltb_spec i 0); [lia|]. destruct (Z.ltb_spec (Z.of_nat (length v) - 2) i); lia. }
    destruct (aread_some v (clip i 0 (Z.of_nat (length v) - 2)) ltac:(lia)) as (a & ->).
    destruct (aread_some v (clip i 0 (Z.of_nat (length v) - 2) + 1) ltac:(lia)) as (a' & ->).
    eexists. split; [reflexivity|]. cbn [b_i]. lia.
  - assert (Cl : 0 <= clip i 0 (Z.of_nat (length v) - 2) <= Z.of_nat (length v) - 2).
    { unfold clip. destruct (Z.ltb_spec i 0); [lia|]. destruct (Z.ltb_spec (Z.of_nat (length v) - 2) i); lia. }
    destruct (aread_some v (clip i 0 (Z.of_nat (length v) - 2)) ltac:(lia)) as (a & ->).
    destruct (aread_some v (clip i 0 (Z.of_nat (length v) - 2) + 1) ltac:(lia)) as (a' & ->).
    eexists. split; [reflexivity|]. cbn [b_i]. lia.
Qed.

Lemma eval_total kind b v : 0 <= b_i b -> b_i b + Z.of_nat (min_nt kind) <= Z.of_nat (length v) ->
  exists r, interp_eval kind b v = Some r.
Proof.
  intros H1 H2. destruct kind; cbn [interp_eval min_nt] in *; unfold interp0_eval, interp1_eval.
  - destruct (aread_some v (b_i b) ltac:(lia)) as (a & ->). eauto.
  - destruct (aread_some v (b_i b) ltac:(lia)) as (a & ->). destruct (aread_some v (b_i b + 1) ltac:(lia)) as (a' & ->). eauto.
  - destruct (aread_some v (b_i b) ltac:(lia)) as (a & ->). destruct (aread_some v (b_i b + 1) ltac:(lia)) as (a' & ->). eauto.
Qed.

Lemma last_total t (v : list R) : v <> [] -> exists b, is_last t v = Some b.
Proof.
  intro N. unfold is_last. destruct (aread_some v (Z.of_nat (length v) - 1)) as (a & ->); [|eauto].
  destruct v; [contradiction|]. cbn [length]. lia.
Qed.

Lemma removelast_app1 {A} (l : list A) x : removelast (l ++ [x]) = l.
Proof. rewrite removelast_app by discriminate. cbn. now rewrite app_nil_r. Qed.

Lemma interp_gives m base junk t t0 c0 kind k extrapolate nt nodes nc : of_code kind k ->
  double_array m t nt -> node_array m t0 nodes -> c_contiguous t0 -> series_array m c0 (length nodes) nc -> c_contiguous c0 ->
  (min_nt k <= length nodes)%nat -> free_cells m base (size (dims nt ++ dims nc)) ->
  gives m (interp_array m base junk t t0 c0 kind extrapolate) (dims nt ++ dims nc)
    (fun idx c => exists r,
       interp_one nodes (map (get nc (skipn (length (dims nt)) idx)) (seq 0 (length nodes))) k extrapolate
         (get nt (firstn (length (dims nt)) idx)) = Some r /\ c = Some (Dbl r)).
Proof.
  intros Hk Ht Ht0 Ct Hc0 Cc Hn Hf. pose proof Ht as (St & _). pose proof Ht0 as (St0 & _). pose proof Hc0 as (Sc & Lc & _).
  unfold interp_array.
  assert (E : check_kind kind = Ok k) by (destruct Hk as [(-> & ->)|[(-> & ->)|(-> & ->)]]; reflexivity).
  rewrite E. cbn [bind]. rewrite St0, Sc. unfold dim0. rewrite St0. cbn [length Nat.eqb negb hd]. rewrite app_length. cbn [length].
  destruct (Nat.ltb_spec (length (dims nc) + 1) 1); [lia|]. rewrite last_last, Nat.eqb_refl. cbn [negb].
  destruct (Nat.ltb_spec (length nodes) (min_nt k)); [lia|]. rewrite removelast_app1, St.
  apply run_ok; [exact Hf|].
  intros idx m1 jj Hi G B. set (blk := blk1 _ _) in *.
  assert (Fr : forall k, blk k -> m k = None) by (intros j Hj; now apply (free_blk m base _ Hf)).
  cbn [map interp_item]. rewrite (fetch_ok m blk m1 G Fr _ (get nt idx)) by now apply arg_double. cbn [bind].
  unfold dim0. rewrite St0. cbn [hd].
  rewrite (fetch_list_ok m blk m1 G Fr nodes) by (intros j y Hj; now apply (nodes_row m t0 nodes)). cbn [bind].
  destruct (basis_total k (get nt idx) nodes Hn) as (b & Eb & B1 & B2).
  destruct (last_total (get nt idx) nodes) as (lst & El).
  { intros ->. destruct k; cbn in Hn; lia. }
  rewrite Eb, El. cbn [out_array shape].
  assert (Hres : forall tdx, exists r, interp_one nodes (map (get nc tdx) (seq 0 (length nodes))) k extrapolate (get nt idx) = Some r).
  { intro tdx. unfold interp_one. rewrite Eb, El. destruct (extrapolate || (b_i0 b =? b_i b) || lst); [|eauto].
    apply eval_total; [exact B1|]. now rewrite map_length, seq_length. }
  assert (Fin : forall tdx, index_of (dims nc) tdx -> firstn (length (dims nt)) (idx ++ tdx) = idx /\ skipn (length (dims nt)) (idx ++ tdx) = tdx).
  { intros tdx _. rewrite <- (index_len _ _ Hi). rewrite firstn_app, skipn_app, Nat.sub_diag, firstn_all, skipn_all.
    cbn [firstn skipn]. now rewrite app_nil_r. }
  unfold interp_one in Hres. rewrite Eb, El in Hres.
  destruct (extrapolate || (b_i0 b =? b_i b) || lst) eqn:Ex.
  - destruct (nested_ok (fun x : heap => x) (fun _ => True) m blk jj (dims nc)
      (interp_eval_item k b (length nodes)) [(0%nat, c0)]
      (fun tdx c => exists r, interp_eval k b (map (get nc tdx) (seq 0 (length nodes))) = Some r /\ c = Dbl r) m1)
      as (m' & vals & A1 & A2 & A3 & _ & A4); [exact B|exact G|exact I| |].
    + intros tdx m2 kk Htd G2 _ Bk. cbn [map interp_eval_item].
      destruct (sub_cat (dims nc) [length nodes] c0 0 tdx [] Sc Lc ltac:(lia) Htd ltac:(now left)) as (D & _).
      rewrite app_nil_r in D. rewrite D.
      pose proof (fetch_list_ok m blk m2 G2 Fr (map (get nc tdx) (seq 0 (length nodes))) (address c0 tdx)) as FL.
      rewrite map_length, seq_length in FL. rewrite FL.
      2: { intros j y Hj. apply nth_error_map_seq in Hj. destruct Hj as (Hj & ->). now apply (row1 m c0 (length nodes)). }
      cbn [bind]. destruct (Hres tdx) as (r & Er). rewrite Er. cbn [out_array data].
      destruct (put_blit m blk m2 kk (Dbl r) G2 Bk) as (m3 & E3 & W3). exists m3, (Dbl r). repeat split; eauto; apply W3.
    + exists m', vals. split; [exact A1|]. split; [exact A2|]. split; [exact A3|].
      intros tdx c Htd Hc. destruct (A4 tdx c Htd Hc) as (r & Er & ->). destruct (Fin tdx Htd) as (-> & ->).
      exists r. split; [|reflexivity]. unfold interp_one. rewrite Eb, El, Ex. exact Er.
  - destruct (nested_ok (fun x : heap => x) (fun _ => True) m blk jj (dims nc) (fill_item None) []
      (fun tdx c => c = Dbl None) m1) as (m' & vals & A1 & A2 & A3 & _ & A4); [exact B|exact G|exact I| |].
    + intros tdx m2 kk Htd G2 _ Bk. cbn [map fill_item out_array data].
      destruct (put_blit m blk m2 kk (Dbl None) G2 Bk) as (m3 & E3 & W3). exists m3, (Dbl None). repeat split; eauto; apply W3.
    + exists m', vals. split; [exact A1|]. split; [exact A2|]. split; [exact A3|].
      intros tdx c Htd Hc. rewrite (A4 tdx c Htd Hc). destruct (Fin tdx Htd) as (-> & ->).
      exists None. split; [|reflexivity]. unfold interp_one. now rewrite Eb, El, Ex.
Qed.

(** ** relradpow and loncossin *)

Lemma cells_nth a n k c : nth_error (cells a n) k = Some c -> (k < n)%nat /\ c = num (a k).
Proof. unfold cells. intro H. apply (nth_error_map_seq (fun k => Dbl (Some (a k)))) in H. exact H. Qed.
Lemma cells_length a n : length (cells a n) = n.
Proof. unfold cells. now rewrite map_length, seq_length. Qed.

Lemma cells2_length a n : length (cells2 a n) = (2 * n)%nat.
Proof.
  unfold cells2. rewrite <- (seq_length n 0) at 2. induction (seq 0 n) as [|i l IH]; [reflexivity|].
  cbn [flat_map app length]. rewrite IH. lia.
Qed.
Lemma cells2_nth a n k r c : (r < 2)%nat -> nth_error (cells2 a n) (k * 2 + r) = Some c ->
  c = num (if Nat.eqb r 0 then fst (a k) else snd (a k)).
Proof.
  intros Hr. unfold cells2. assert (Q : forall l k c, nth_error (flat_map (fun k => [Dbl (Some (fst (a k))); Dbl (Some (snd (a k)))]) l) (k * 2 + r) = Some c ->
    exists i, nth_error l k = Some i /\ c = num (if Nat.eqb r 0 then fst (a i) else snd (a i))).
  { induction l as [|i l IH]; intros k' c' H; [destruct (k' * 2 + r)%nat; discriminate|].
    destruct k' as [|k'].
    - exists i. split; [reflexivity|]. destruct r as [|[|r]]; [| |lia]; cbn in H; injection H as <-; reflexivity.
    - cbn [flat_map app Nat.mul Nat.add nth_error] in H. destruct (IH k' c' H) as (i' & A & B). now exists i'. }
  intro H. destruct (Q _ _ _ H) as (i & A & B).
  assert (k < length (seq 0 n))%nat by (apply nth_error_Some; congruence). rewrite seq_length in *.
  rewrite (nth_error_nth' _ 0%nat) in A by now rewrite seq_length. rewrite seq_nth in A by assumption. cbn in A. now injection A as <-.
Qed.

Lemma index1 n idx : index_of [n] idx -> exists k, idx = [k] /\ (k < n)%nat.
Proof. inversion 1 as [|k ? l ? Hk Hl]; subst. inversion Hl; subst. eauto. Qed.
Lemma index2 n p idx : index_of [n; p] idx -> exists k r, idx = [k; r] /\ (k < n)%nat /\ (r < p)%nat.
Proof. inversion 1 as [|k ? l ? Hk Hl]; subst. destruct (index1 _ _ Hl) as (r & -> & Hr). eauto. Qed.

Lemma at_index_app {A} (nx : nd A) idx rest : index_of (dims nx) idx -> at_index nx (idx ++ rest) = get nx idx.
Proof.
  intro H. unfold at_index. rewrite <- (index_len _ _ H), firstn_app, Nat.sub_diag, firstn_all. cbn [firstn]. now rewrite app_nil_r.
Qed.

Lemma relradpow_one x degree ref internal mem init k : (k <= degree)%nat ->
  relradpow [x] degree ref internal mem k =
  (if internal then shc_relradpow_internal init degree (x / ref) else shc_relradpow_external init degree (x / ref)) k.
Proof.
  intro Hk. unfold relradpow. cbn [array_items]. unfold unptr. destruct (Nat.ltb_spec k 0); [lia|]. rewrite Nat.sub_0_r.
  destruct internal.
  - rewrite !internal_spec. destruct (Nat.leb_spec k degree); [reflexivity|lia].
  - now rewrite !external_any.
Qed.

Lemma loncossin_one x degree fast mem k : (k <= degree)%nat ->
  loncossin [x] degree fast mem k = (cos (INR k * (x * DG2RAD)), sin (INR k * (x * DG2RAD)))%R.
Proof.
  intro Hk. unfold loncossin. cbn [array_items]. unfold unptr. destruct (Nat.ltb_spec k 0); [lia|]. rewrite Nat.sub_0_r.
  destruct fast; [rewrite fs_spec|rewrite fs_ref_spec]; destruct (Nat.leb_spec k degree); try reflexivity; lia.
Qed.

Lemma relradpow_gives m base junk rad degree reference internal init nrad : 0 <= degree -> (0 < reference)%R ->
  number_array m rad nrad -> free_cells m base (size (dims nrad ++ [(Z.to_nat degree + 1)%nat])) ->
  gives m (relradpow_array m base junk rad degree reference internal init) (dims nrad ++ [(Z.to_nat degree + 1)%nat])
    (fun idx c => forall mem,
       c = Some (num (relradpow [at_index nrad idx] (Z.to_nat degree) reference internal mem (last idx 0%nat)))).
Proof.
  intros Hd Hr Hx Hf. pose proof Hx as (Sx & _). unfold relradpow_array.
  destruct (Z.ltb_spec degree 0); [lia|]. rewrite (proj2 (Rleb_gt reference 0)) by exact Hr. cbv zeta. rewrite Sx.
  set (d := Z.to_nat degree) in *. apply run_ok; [exact Hf|].
  intros idx m1 jj Hi G B. set (blk := blk1 _ _) in *.
  assert (Fr : forall k, blk k -> m k = None) by (intros k Hk; now apply (free_blk m base _ Hf)).
  cbn [map relradpow_item].
  rewrite (fetch_real_ok m blk m1 G Fr _ (at_index nrad idx)) by (apply (arg0 m rad nrad (dims nrad)); [exact Hx|apply self_prefix|exact Hi]).
  cbn [bind out_array data]. cbv zeta.
  set (a := if internal then _ else _).
  destruct (put_list_ok m blk (cells a (d + 1)) m1 jj G) as (m' & E & _ & W).
  { intros i Hl. rewrite cells_length in Hl. apply B. unfold size. cbn [fold_right]. lia. }
  exists m', (cells a (d + 1)). split; [exact E|]. split; [exact W|]. split; [rewrite cells_length; unfold size; cbn [fold_right]; lia|].
  intros tdx c Ht Hc mem. destruct (index1 _ _ Ht) as (k & -> & Hk). replace (linear [(d + 1)%nat] [k]) with k in Hc by (cbn; lia).
  apply cells_nth in Hc. destruct Hc as (_ & ->). rewrite last_last, at_index_app by exact Hi. 
  do 2 f_equal. unfold a. rewrite at_index_full by exact Hi. now rewrite (relradpow_one _ _ _ _ mem init k) by lia.
Qed.

Lemma loncossin_gives m base junk lon degree fast init nlon : 0 <= degree ->
  number_array m lon nlon -> free_cells m base (size (dims nlon ++ [(Z.to_nat degree + 1)%nat; 2%nat])) ->
  gives m (loncossin_array m base junk lon degree fast init) (dims nlon ++ [(Z.to_nat degree + 1)%nat; 2%nat])
    (fun idx c =>
       let k := nth (length (dims nlon)) idx 0%nat in
       let arg := (INR k * (at_index nlon idx * (PI / 180)))%R in
       c = Some (num (if Nat.eqb (last idx 0%nat) 0 then cos arg else sin arg))).
Proof.
  intros Hd Hx Hf. pose proof Hx as (Sx & _). unfold loncossin_array.
  destruct (Z.ltb_spec degree 0); [lia|]. cbv zeta. rewrite Sx.
  set (d := Z.to_nat degree) in *. apply run_ok; [exact Hf|].
  intros idx m1 jj Hi G B. set (blk := blk1 _ _) in *.
  assert (Fr : forall k, blk k -> m k = None) by (intros k Hk; now apply (free_blk m base _ Hf)).
  cbn [map loncossin_item].
  rewrite (fetch_real_ok m blk m1 G Fr _ (at_index nlon idx)) by (apply (arg0 m lon nlon (dims nlon)); [exact Hx|apply self_prefix|exact Hi]).
  cbn [bind out_array data]. cbv zeta.
  set (a := (if fast then fs_cos_sin else fs_cos_sin_ref) _ _ _).
  assert (SZ : size [(d + 1)%nat; 2%nat] = (2 * (d + 1))%nat) by (unfold size; cbn [fold_right]; lia).
  destruct (put_list_ok m blk (cells2 a (d + 1)) m1 jj G) as (m' & E & _ & W).
  { intros i Hl. rewrite cells2_length in Hl. apply B. now rewrite SZ. }
  exists m', (cells2 a (d + 1)). split; [exact E|]. split; [exact W|]. split; [now rewrite cells2_length, SZ|].
  intros tdx c Ht Hc. destruct (index2 _ _ _ Ht) as (k & r & -> & Hk & Hr).
  replace (linear [(d + 1)%nat; 2%nat] [k; r]) with (k * 2 + r)%nat in Hc by (unfold linear, size; cbn [fold_right]; lia).
  apply cells2_nth in Hc; [|exact Hr]. rewrite Hc.
  replace (last (idx ++ [k; r]) 0%nat) with r by (change [k; r] with ([k] ++ [r]); now rewrite app_assoc, last_last).
  replace (nth (length (dims nlon)) (idx ++ [k; r]) 0%nat) with k by (rewrite <- (index_len _ _ Hi), app_nth2, Nat.sub_diag by lia; reflexivity).
  rewrite at_index_app by exact Hi.
  assert (Ea : a k = (cos (INR k * (get nlon idx * DG2RAD)), sin (INR k * (get nlon idx * DG2RAD)))%R).
  { unfold a. rewrite at_index_full by exact Hi. destruct fast; [rewrite fs_spec|rewrite fs_ref_spec]; destruct (Nat.leb_spec k d); try reflexivity; lia. }
  rewrite Ea. unfold DG2RAD. cbn [fst snd]. replace (PI / 180)%R with (1 / 180 * PI)%R by lra. reflexivity || (repeat f_equal; lra).
Qed.

(** ** spharpot and sphargrd *)

Lemma loop_ext {St} lo hi (f g : nat -> St -> St) s : (forall i s, (lo <= i <= hi)%nat -> f i s = g i s) ->
  loop lo hi f s = loop lo hi g s.
Proof.
  intro H. unfold loop. assert (Q : forall l s, (forall i, In i l -> (lo <= i <= hi)%nat) ->
    fold_left (fun s i => f i s) l s = fold_left (fun s i => g i s) l s).
  { induction l as [|i l IH]; intros s1 Hl; [reflexivity|]. cbn [fold_left]. rewrite H by (apply Hl; now left). apply IH. intros j Hj. apply Hl. now right. }
  apply Q. intros i Hi. apply in_seq in Hi. lia.
Qed.

Lemma tri_lt i j d : (j <= i <= d)%nat -> (i * (i + 1) / 2 + j < nterm_of d)%nat.
Proof.
  intro H. unfold nterm_of. replace ((d + 1) * (d + 2) / 2)%nat with (T (S d)) by (unfold T; f_equal; lia).
  fold (T i). pose proof (T_double (S d)). pose proof (T_double i). nia.
Qed.

Definition same_to {A} (n : nat) (f g : nat -> A) : Prop := forall k, (k < n)%nat -> f k = g k.

Lemma eval_v_ext d rad coef coef' lcs lcs' lp lp' rrp rrp' :
  same_to (nterm_of d) coef coef' -> same_to (d + 1) lcs lcs' -> same_to (nterm_of d) lp lp' -> same_to (d + 1) rrp rrp' ->
  shc_eval_v d rad coef lcs lp rrp = shc_eval_v d rad coef' lcs' lp' rrp'.
Proof.
  intros Hc Hl Hp Hr. unfold shc_eval_v. cbv zeta. f_equal.
  assert (H0 : (0 < nterm_of d)%nat) by (pose proof (tri_lt 0 0 d ltac:(lia)); cbn in *; lia).
  rewrite (Hc 0%nat) by exact H0. rewrite (Hr 0%nat) by lia.
  apply loop_ext. intros i v Hi. f_equal. rewrite (Hr i) by lia. f_equal.
  pose proof (tri_lt i 0 d ltac:(lia)) as T0. rewrite Nat.add_0_r in T0. rewrite (Hc _ T0), (Hp _ T0).
  apply loop_ext. intros j w Hj. pose proof (tri_lt i j d ltac:(lia)) as Tj. rewrite (Hc _ Tj), (Hp _ Tj), (Hl j) by lia. reflexivity.
Qed.

Lemma eval_dv_ext d elv coef coef' lcs lcs' lp lp' ldp ldp' rrp rrp' internal :
  same_to (nterm_of d) coef coef' -> same_to (d + 1) lcs lcs' -> same_to (nterm_of d) lp lp' -> same_to (nterm_of d) ldp ldp' ->
  same_to (d + 1) rrp rrp' ->
  shc_eval_dv d elv coef lcs lp ldp rrp internal = shc_eval_dv d elv coef' lcs' lp' ldp' rrp' internal.
Proof.
  intros Hc Hl Hp Hd Hr. unfold shc_eval_dv. cbv zeta.
  assert (H0 : (0 < nterm_of d)%nat) by (pose proof (tri_lt 0 0 d ltac:(lia)); cbn in *; lia).
  rewrite (Hc 0%nat) by exact H0. rewrite (Hr 0%nat) by lia.
  assert (EP : (0 < d)%nat -> shc_eval_dvaz_pole d elv coef lcs rrp = shc_eval_dvaz_pole d elv coef' lcs' rrp').
  { intro Pd. unfold shc_eval_dvaz_pole. cbv zeta. assert (T1 : (2 < nterm_of d)%nat) by exact (tri_lt 1 1 d ltac:(lia)).
    rewrite (Hc 2%nat T1). rewrite (Hl 1%nat), (Hr 1%nat) by lia.
    erewrite (loop_ext 2 d); [reflexivity|].
    intros i [[[s1 s2] s3] s4] Hi. pose proof (tri_lt i 1 d ltac:(lia)) as Ti. rewrite (Nat.add_comm _ 1) in Ti.
    rewrite (Hc _ Ti), (Hr i) by lia. reflexivity. }
  assert (EL : forall dr_scale off init,
    loop 1 d (fun i '(dvel, dvaz, dvrd) =>
      let '(dvel_i, dvaz_i, dvrd_i) :=
        loop 1 i (fun j '(dvel_i, dvaz_i, dvrd_i) =>
          (dvel_i + (fst (coef (i * (i + 1) / 2 + j)%nat) * fst (lcs j) + snd (coef (i * (i + 1) / 2 + j)%nat) * snd (lcs j)) * ldp (i * (i + 1) / 2 + j)%nat,
           dvaz_i + (fst (coef (i * (i + 1) / 2 + j)%nat) * snd (lcs j) - snd (coef (i * (i + 1) / 2 + j)%nat) * fst (lcs j)) * lp (i * (i + 1) / 2 + j)%nat * INR j,
           dvrd_i + (fst (coef (i * (i + 1) / 2 + j)%nat) * fst (lcs j) + snd (coef (i * (i + 1) / 2 + j)%nat) * snd (lcs j)) * lp (i * (i + 1) / 2 + j)%nat * (dr_scale * INR (i + off))))%R
          (fst (coef (i * (i + 1) / 2)%nat) * ldp (i * (i + 1) / 2)%nat, 0, fst (coef (i * (i + 1) / 2)%nat) * lp (i * (i + 1) / 2)%nat * (dr_scale * INR (i + off)))%R in
      (dvel + rrp i * dvel_i, dvaz - rrp i * dvaz_i, dvrd - rrp i * dvrd_i)%R) init =
    loop 1 d (fun i '(dvel, dvaz, dvrd) =>
      let '(dvel_i, dvaz_i, dvrd_i) :=
        loop 1 i (fun j '(dvel_i, dvaz_i, dvrd_i) =>
          (dvel_i + (fst (coef' (i * (i + 1) / 2 + j)%nat) * fst (lcs' j) + snd (coef' (i * (i + 1) / 2 + j)%nat) * snd (lcs' j)) * ldp' (i * (i + 1) / 2 + j)%nat,
           dvaz_i + (fst (coef' (i * (i + 1) / 2 + j)%nat) * snd (lcs' j) - snd (coef' (i * (i + 1) / 2 + j)%nat) * fst (lcs' j)) * lp' (i * (i + 1) / 2 + j)%nat * INR j,
           dvrd_i + (fst (coef' (i * (i + 1) / 2 + j)%nat) * fst (lcs' j) + snd (coef' (i * (i + 1) / 2 + j)%nat) * snd (lcs' j)) * lp' (i * (i + 1) / 2 + j)%nat * (dr_scale * INR (i + off))))%R
          (fst (coef' (i * (i + 1) / 2)%nat) * ldp' (i * (i + 1) / 2)%nat, 0, fst (coef' (i * (i + 1) / 2)%nat) * lp' (i * (i + 1) / 2)%nat * (dr_scale * INR (i + off)))%R in
      (dvel + rrp' i * dvel_i, dvaz - rrp' i * dvaz_i, dvrd - rrp' i * dvrd_i)%R) init).
  { intros sc off init. apply loop_ext. intros i [[v1 v2] v3] Hi.
    pose proof (tri_lt i 0 d ltac:(lia)) as T0. rewrite Nat.add_0_r in T0. rewrite (Hc _ T0), (Hp _ T0), (Hd _ T0), (Hr i) by lia.
    erewrite (loop_ext 1 i); [reflexivity|].
    intros j [[w1 w2] w3] Hj. pose proof (tri_lt i j d ltac:(lia)) as Tj.
    rewrite (Hc _ Tj), (Hp _ Tj), (Hd _ Tj), (Hl j) by lia. reflexivity. }
  rewrite EL.
  match goal with |- context [loop 1 d ?f ?s] => destruct (loop 1 d f s) as [[v1 v2] v3] end.
  destruct (Nat.ltb_spec 0 d) as [Pd|Pd]; cbn [andb]; [|reflexivity]. rewrite (EP Pd). reflexivity.
Qed.

Lemma applied_le degrees degree d : degrees <> [] -> applied_degree degrees degree = Ok d ->
  forall x, In x degrees -> 0 <= x /\ Z.of_nat d <= x.
Proof.
  intros N. unfold applied_degree. cbv zeta. destruct (get_max_degree degrees) as [idx m] eqn:E. cbn [snd].
  destruct (SizeProofs.get_max_degree_spec degrees idx m N E) as (A & _ & B).
  destruct (Z.ltb_spec m 0); [discriminate|]. destruct (_ && _); [discriminate|].
  intros H' x Hx. specialize (B x Hx). assert (Q : d = Z.to_nat (if (degree <? 0) || (m <? degree) then m else degree)) by congruence.
  destruct (Z.ltb_spec degree 0); cbn [orb] in Q; [lia|]. destruct (Z.ltb_spec m degree); lia.
Qed.

Lemma terms_fit n d : Z.of_nat n < 2 ^ 50 -> 0 <= size_to_degree (Z.of_nat n) -> Z.of_nat d <= size_to_degree (Z.of_nat n) ->
  (nterm_of d <= n)%nat.
Proof.
  intros H1 H2 H3. pose proof (set_fits (Z.of_nat n) d ltac:(lia) H2 H3) as H. rewrite Nat2Z.id in H.
  unfold nterm_of. replace ((d + 1) * (d + 2) / 2)%nat with (T (S d)) by (unfold T; f_equal; lia). exact H.
Qed.

Lemma dim_last_app (l : list nat) t n : n = length t -> (0 < n)%nat ->
  nth (length (l ++ t) - n) (l ++ t) 0%nat = hd 0%nat t.
Proof.
  intros -> H. rewrite app_length, Nat.add_sub, app_nth2, Nat.sub_diag by lia. now destruct t.
Qed.

Lemma dim_last_pair a l n p : shape a = l ++ [n; p] -> dim_last 2 a = n /\ dim_last 1 a = p.
Proof.
  intro H. unfold dim_last. rewrite H. split; [exact (dim_last_app l [n; p] 2 eq_refl ltac:(lia))|].
  replace (l ++ [n; p]) with ((l ++ [n]) ++ [p]) by now rewrite <- app_assoc. exact (dim_last_app _ [p] 1 eq_refl ltac:(lia)).
Qed.
Lemma dim_last_one a l n : shape a = l ++ [n] -> dim_last 1 a = n.
Proof. intro H. unfold dim_last. rewrite H. exact (dim_last_app l [n] 1 eq_refl ltac:(lia)). Qed.

Lemma drop_last_app (l t : list nat) : drop_last (length t) (l ++ t) = l.
Proof. unfold drop_last. rewrite app_length, Nat.add_sub, firstn_app, Nat.sub_diag, firstn_all. cbn. now rewrite app_nil_r. Qed.

Lemma nth_indices odims idx : index_of odims idx -> nth_error (indices odims) (linear odims idx) = Some idx.
Proof.
  intro H. pose proof (linear_bound _ _ H) as L.
  destruct (nth_error (indices odims) (linear odims idx)) as [i|] eqn:E.
  - apply indices_linear in E. destruct E as (A & B). f_equal. now apply (linear_inj odims).
  - apply nth_error_None in E. rewrite indices_length in E. lia.
Qed.

Lemma spharpot_gives m base junk rad coef lp rrp lcs nrad nc ncoef nl nlp nr nrrp ns nlcs degree :
  number_array m rad nrad -> pair_array m coef nc ncoef -> c_contiguous coef -> series_array m lp nl nlp -> c_contiguous lp ->
  series_array m rrp nr nrrp -> c_contiguous rrp -> pair_array m lcs ns nlcs -> c_contiguous lcs ->
  Z.of_nat nc < 2 ^ 50 -> Z.of_nat nl < 2 ^ 50 ->
  let pure := spharpot nrad (Z.of_nat nc) 2 ncoef (Z.of_nat nl) nlp (Z.of_nat nr) nrrp (Z.of_nat ns) 2 nlcs degree in
  (forall odims out, pure = Ok (odims, out) -> free_cells m base (size odims)) ->
  match pure with
  | Ok (odims, out) =>
      gives m (spharpot_array m base junk rad coef lp rrp lcs degree) odims
        (fun idx c => exists v, nth_error out (offset odims idx) = Some v /\ c = Some (num v))
  | Err e => spharpot_array m base junk rad coef lp rrp lcs degree = Err e
  end.
Proof.
  intros Hrad Hcoef Ccoef Hlp Clp Hrrp Crrp Hlcs Clcs Bc Bl pure.
  pose proof Hrad as (S1 & _). pose proof Hcoef as (S2 & _). pose proof Hlp as (S3 & _). pose proof Hrrp as (S4 & _). pose proof Hlcs as (S5 & _).
  unfold spharpot_array. rewrite S2, S3, S4, S5, S1, !app_length. cbn [length].
  destruct (dim_last_pair _ _ _ _ S2) as (-> & ->). destruct (dim_last_pair _ _ _ _ S5) as (-> & ->).
  rewrite (dim_last_one _ _ _ S3), (dim_last_one _ _ _ S4).
  pose proof (drop_last_app (dims ncoef) [nc; 2%nat]) as D1. pose proof (drop_last_app (dims nlp) [nl]) as D2.
  pose proof (drop_last_app (dims nrrp) [nr]) as D3. pose proof (drop_last_app (dims nlcs) [ns; 2%nat]) as D4. cbn [length] in D1, D2, D3, D4.
  rewrite D1, D2, D3, D4.
  destruct (Nat.ltb_spec (length (dims ncoef) + 2) 2); [lia|]. destruct (Nat.ltb_spec (length (dims nlp) + 1) 1); [lia|].
  destruct (Nat.ltb_spec (length (dims nrrp) + 1) 1); [lia|]. destruct (Nat.ltb_spec (length (dims nlcs) + 2) 2); [lia|]. cbn [orb].
  unfold pure, spharpot. destruct (applied_degree _ degree) as [d|e] eqn:Ed; [|reflexivity]. cbn [bind].
  destruct (output_shape _ _) as [odims|e] eqn:Eo; [|reflexivity]. cbn [bind].
  intro Hf. specialize (Hf _ _ eq_refl).
  apply output_shape_spec in Eo; [|discriminate]. destruct Eo as (_ & Pr & _).
  pose proof (fun N => applied_le _ _ _ N Ed) as Le. specialize (Le ltac:(discriminate)).
  assert (F1 : (nterm_of d <= nc)%nat) by (apply terms_fit; [exact Bc|apply Le; now left|apply Le; now left]).
  assert (F2 : (nterm_of d <= nl)%nat) by (apply terms_fit; [exact Bl|apply Le; right; now left|apply Le; right; now left]).
  assert (F3 : (d + 1 <= nr)%nat) by (destruct (Le (Z.of_nat nr - 1)); [do 2 right; now left|lia]).
  assert (F4 : (d + 1 <= ns)%nat) by (destruct (Le (Z.of_nat ns - 1)); [do 3 right; now left|lia]).
  apply run0_ok; [exact Hf|].
  intros idx m1 jj Hi G B. set (blk := blk1 _ _) in *.
  assert (Fr : forall k, blk k -> m k = None) by (intros k Hk; now apply (free_blk m base _ Hf)).
  cbn [map spharpot_item].
  rewrite (fetch_real_ok m blk m1 G Fr _ (at_index nrad idx)) by (apply (arg0 m rad nrad odims); [exact Hrad|apply Pr; now left|exact Hi]).
  cbn [bind].
  destruct (fetch_pairs_ok m blk m1 G Fr (data (sub 2 coef idx)) (nterm_of d) (at_index ncoef idx)) as (g1 & -> & Q1).
  { intros k Hk. apply (arg2 m coef nc ncoef odims); [assumption..|apply Pr; right; now left|exact Hi|lia]. }
  destruct (fetch_arr_ok m blk m1 G Fr (data (sub 1 lp idx)) (nterm_of d) (at_index nlp idx)) as (g2 & -> & Q2).
  { intros k Hk. apply (arg1 m lp nl nlp odims); [assumption..|apply Pr; do 2 right; now left|exact Hi|lia]. }
  destruct (fetch_arr_ok m blk m1 G Fr (data (sub 1 rrp idx)) (d + 1) (at_index nrrp idx)) as (g3 & -> & Q3).
  { intros k Hk. apply (arg1 m rrp nr nrrp odims); [assumption..|apply Pr; do 3 right; now left|exact Hi|lia]. }
  destruct (fetch_pairs_ok m blk m1 G Fr (data (sub 2 lcs idx)) (d + 1) (at_index nlcs idx)) as (g4 & -> & Q4).
  { intros k Hk. apply (arg2 m lcs ns nlcs odims); [assumption..|apply Pr; do 4 right; now left|exact Hi|lia]. }
  cbn [bind out_array data].
  destruct (put_blit m blk m1 jj (Dbl (Some (shc_eval_v d (at_index nrad idx) g1 g4 g2 g3))) G B) as (m' & E' & W).
  exists m'. eexists. split; [exact E'|]. split; [exact W|]. eexists. split; [|reflexivity].
  rewrite (eval_v_ext d _ g1 (at_index ncoef idx) g4 (at_index nlcs idx) g2 (at_index nlp idx) g3 (at_index nrrp idx)) by assumption.
  rewrite spharpot_items_value.
  exact (map_nth_error (fun ix => shc_eval_v d (at_index nrad ix) (at_index ncoef ix) (at_index nlcs ix) (at_index nlp ix) (at_index nrrp ix))
    (linear odims idx) (indices odims) (nth_indices odims idx Hi)).
Qed.

Lemma sphargrd_gives m base junk lat coef lp ldp rrp lcs nlat nc ncoef nl nlp nd' nldp nr nrrp ns nlcs internal degree :
  number_array m lat nlat -> pair_array m coef nc ncoef -> c_contiguous coef -> series_array m lp nl nlp -> c_contiguous lp ->
  series_array m ldp nd' nldp -> c_contiguous ldp ->
  series_array m rrp nr nrrp -> c_contiguous rrp -> pair_array m lcs ns nlcs -> c_contiguous lcs ->
  Z.of_nat nc < 2 ^ 50 -> Z.of_nat nl < 2 ^ 50 -> Z.of_nat nd' < 2 ^ 50 ->
  let pure := sphargrd nlat (Z.of_nat nc) 2 ncoef (Z.of_nat nl) nlp (Z.of_nat nd') nldp (Z.of_nat nr) nrrp (Z.of_nat ns) 2 nlcs internal degree in
  (forall odims out, pure = Ok (odims, out) -> free_cells m base (size (odims ++ [3%nat]))) ->
  match pure with
  | Ok (odims, out) =>
      gives m (sphargrd_array m base junk lat coef lp ldp rrp lcs internal degree) (odims ++ [3%nat])
        (fun idx c => exists v, nth_error out (offset odims (removelast idx)) = Some v /\
           c = Some (num (component v (last idx 0%nat))))
  | Err e => sphargrd_array m base junk lat coef lp ldp rrp lcs internal degree = Err e
  end.
Proof.
  intros Hrad Hcoef Ccoef Hlp Clp Hldp Cldp Hrrp Crrp Hlcs Clcs Bc Bl Bd pure.
  pose proof Hrad as (S1 & _). pose proof Hcoef as (S2 & _). pose proof Hlp as (S3 & _). pose proof Hrrp as (S4 & _). pose proof Hlcs as (S5 & _).
  pose proof Hldp as (S6 & _).
  unfold sphargrd_array. rewrite S2, S3, S4, S5, S6, S1, !app_length. cbn [length].
  destruct (dim_last_pair _ _ _ _ S2) as (-> & ->). destruct (dim_last_pair _ _ _ _ S5) as (-> & ->).
  rewrite (dim_last_one _ _ _ S3), (dim_last_one _ _ _ S4), (dim_last_one _ _ _ S6).
  pose proof (drop_last_app (dims ncoef) [nc; 2%nat]) as D1. pose proof (drop_last_app (dims nlp) [nl]) as D2.
  pose proof (drop_last_app (dims nrrp) [nr]) as D3. pose proof (drop_last_app (dims nlcs) [ns; 2%nat]) as D4.
  pose proof (drop_last_app (dims nldp) [nd']) as D5. cbn [length] in D1, D2, D3, D4, D5.
  rewrite D1, D2, D3, D4, D5.
  destruct (Nat.ltb_spec (length (dims ncoef) + 2) 2); [lia|]. destruct (Nat.ltb_spec (length (dims nlp) + 1) 1); [lia|].
  destruct (Nat.ltb_spec (length (dims nldp) + 1) 1); [lia|].
  destruct (Nat.ltb_spec (length (dims nrrp) + 1) 1); [lia|]. destruct (Nat.ltb_spec (length (dims nlcs) + 2) 2); [lia|]. cbn [orb].
  unfold pure, sphargrd. destruct (applied_degree _ degree) as [d|e] eqn:Ed; [|reflexivity]. cbn [bind].
  destruct (output_shape _ _) as [odims|e] eqn:Eo; [|reflexivity]. cbn [bind].
  intro Hf. specialize (Hf _ _ eq_refl).
  apply output_shape_spec in Eo; [|discriminate]. destruct Eo as (_ & Pr & _).
  pose proof (fun N => applied_le _ _ _ N Ed) as Le. specialize (Le ltac:(discriminate)).
  assert (F1 : (nterm_of d <= nc)%nat) by (apply terms_fit; [exact Bc|apply Le; now left|apply Le; now left]).
  assert (F2 : (nterm_of d <= nl)%nat) by (apply terms_fit; [exact Bl|apply Le; right; now left|apply Le; right; now left]).
  assert (F5 : (nterm_of d <= nd')%nat) by (apply terms_fit; [exact Bd|apply Le; do 2 right; now left|apply Le; do 2 right; now left]).
  assert (F3 : (d + 1 <= nr)%nat) by (destruct (Le (Z.of_nat nr - 1)); [do 3 right; now left|lia]).
  assert (F4 : (d + 1 <= ns)%nat) by (destruct (Le (Z.of_nat ns - 1)); [do 4 right; now left|lia]).
  apply run_ok; [exact Hf|].
  intros idx m1 jj Hi G B. set (blk := blk1 _ _) in *.
  assert (Fr : forall k, blk k -> m k = None) by (intros k Hk; now apply (free_blk m base _ Hf)).
  cbn [map sphargrd_item].
  rewrite (fetch_real_ok m blk m1 G Fr _ (at_index nlat idx)) by (apply (arg0 m lat nlat odims); [exact Hrad|apply Pr; now left|exact Hi]).
  cbn [bind].
  destruct (fetch_pairs_ok m blk m1 G Fr (data (sub 2 coef idx)) (nterm_of d) (at_index ncoef idx)) as (g1 & -> & Q1).
  { intros k Hk. apply (arg2 m coef nc ncoef odims); [assumption..|apply Pr; right; now left|exact Hi|lia]. }
  destruct (fetch_arr_ok m blk m1 G Fr (data (sub 1 lp idx)) (nterm_of d) (at_index nlp idx)) as (g2 & -> & Q2).
  { intros k Hk. apply (arg1 m lp nl nlp odims); [assumption..|apply Pr; do 2 right; now left|exact Hi|lia]. }
  destruct (fetch_arr_ok m blk m1 G Fr (data (sub 1 ldp idx)) (nterm_of d) (at_index nldp idx)) as (g5 & -> & Q5).
  { intros k Hk. apply (arg1 m ldp nd' nldp odims); [assumption..|apply Pr; do 3 right; now left|exact Hi|lia]. }
  destruct (fetch_arr_ok m blk m1 G Fr (data (sub 1 rrp idx)) (d + 1) (at_index nrrp idx)) as (g3 & -> & Q3).
  { intros k Hk. apply (arg1 m rrp nr nrrp odims); [assumption..|apply Pr; do 4 right; now left|exact Hi|lia]. }
  destruct (fetch_pairs_ok m blk m1 G Fr (data (sub 2 lcs idx)) (d + 1) (at_index nlcs idx)) as (g4 & -> & Q4).
  { intros k Hk. apply (arg2 m lcs ns nlcs odims); [assumption..|apply Pr; do 5 right; now left|exact Hi|lia]. }
  cbn [bind].
  rewrite (eval_dv_ext d _ g1 (at_index ncoef idx) g4 (at_index nlcs idx) g2 (at_index nlp idx) g5 (at_index nldp idx) g3 (at_index nrrp idx)) by assumption.
  pose proof (map_nth_error (fun ix => shc_eval_dv d (at_index nlat ix * DG2RAD) (at_index ncoef ix) (at_index nlcs ix) (at_index nlp ix)
         (at_index nldp ix) (at_index nrrp ix) internal)
    (linear odims idx) (indices odims) (nth_indices odims idx Hi)) as NE. rewrite <- sphargrd_items_value in NE. cbv beta in NE.
  destruct (shc_eval_dv d _ _ _ _ _ _ internal) as [[v0 v1] v2]. cbn [out_array data].
  set (vals := [Dbl (Some v0); Dbl (Some v1); Dbl (Some v2)]).
  destruct (put_list_ok m blk vals m1 jj G) as (m' & E' & _ & W); [intros i Hl; apply B, Hl|].
  exists m', vals. split; [exact E'|]. split; [exact W|]. split; [reflexivity|].
  intros tdx c Ht Hc. destruct (index1 _ _ Ht) as (k & -> & Hk). replace (linear [3%nat] [k]) with k in Hc by (cbn; lia).
  rewrite removelast_app1, last_last. exists (v0, v1, v2). split; [exact NE|].
  destruct k as [|[|[|k]]]; [..|lia]; cbn in Hc; injection Hc as <-; reflexivity.
Qed.

(** ** fourier2d *)

Lemma fourier2d_gives m base junk t1 t2 c0 min1 min2 s1 s2 mem nt1 nt2 n1 n2 nc :
  degrees_fit n1 n2 min1 min2 -> dims nt1 = dims nt2 ->
  number_array m t1 nt1 -> number_array m t2 nt2 -> matrix_array m c0 n1 n2 nc -> c_contiguous c0 ->
  free_cells m base (size (dims nt1 ++ dims nc)) ->
  gives m (fourier2d_array m base junk t1 t2 c0 min1 min2 s1 s2 mem) (dims nt1 ++ dims nc)
    (fun idx c => c = Some (num (fourier_value (get nc (skipn (length (dims nt1)) idx)) n1 n2 min1 min2 s1 s2
                                   (at_index nt1 idx) (at_index nt2 idx)))).
Proof.
  intros Hd Ed H1 H2 Hc Cc Hf. pose proof H1 as (S1 & _). pose proof H2 as (S2 & _). pose proof Hc as (S3 & L3 & _).
  unfold fourier2d_array. rewrite S1, S2, S3, app_length. cbn [length].
  destruct (Nat.ltb_spec (length (dims nc) + 3) 3); [lia|]. rewrite (proj2 (same_dims_spec _ _) Ed). cbn [negb].
  assert (E1 : dim_last 1 c0 = 2%nat /\ dim_last 2 c0 = n2 /\ dim_last 3 c0 = n1).
  { destruct (dim_last_pair c0 (dims nc ++ [n1]) n2 2) as (A & B); [now rewrite <- app_assoc|]. split; [exact B|]. split; [exact A|].
    unfold dim_last. rewrite S3. exact (dim_last_app (dims nc) [n1; n2; 2%nat] 3 eq_refl ltac:(lia)). }
  destruct E1 as (-> & -> & ->). cbn [Nat.eqb negb].
  pose proof (drop_last_app (dims nc) [n1; n2; 2%nat]) as D. cbn [length] in D. rewrite D.
  pose proof (alloc_good m base junk (dims nt1 ++ dims nc) Hf) as G1. unfold alloc in G1 |- *. cbv iota beta zeta. cbn [fst] in G1.
  match type of G1 with good _ _ ?mm => set (m1 := mm) in * end. fold (out_array base (dims nt1 ++ dims nc)).
  set (f := fourier2d_init _ _ _ _ _ _ _).
  destruct (run_st_ok fst (fun s : heap * fourier_2d => f2d_sizes n1 n2 min1 min2 s1 s2 (snd s)) (fourier2d_item c0)
    [(0%nat, t1); (0%nat, t2)] m base (dims nt1) (dims nc)
    (fun idx c => c = Some (num (fourier_value (get nc (skipn (length (dims nt1)) idx)) n1 n2 min1 min2 s1 s2
                                   (at_index nt1 idx) (at_index nt2 idx)))) (m1, f) Hf) as (s' & E & R).
  - intros idx [m2 f2] jj Hi G I2 B. cbn [fst snd] in *. set (blk := blk1 _ _) in *.
    assert (Fr : forall k, blk k -> m k = None) by (intros k Hk; now apply (free_blk m base _ Hf)).
    cbn [map fourier2d_item].
    rewrite (fetch_real_ok m blk m2 G Fr _ (at_index nt1 idx)) by (apply (arg0 m t1 nt1 (dims nt1)); [exact H1|apply self_prefix|exact Hi]).
    rewrite (fetch_real_ok m blk m2 G Fr _ (at_index nt2 idx)) by (apply (arg0 m t2 nt2 (dims nt1)); [exact H2|rewrite Ed; apply self_prefix|exact Hi]).
    cbn [bind].
    destruct (cossin_ok n1 n2 min1 min2 s1 s2 f2 (at_index nt1 idx) (at_index nt2 idx) Hd I2) as (f3 & -> & I3 & A3).
    cbn [out_array shape].
    assert (Z1 : f2d_size1 f3 = n1) by (destruct I3 as (P1 & P2 & _); unfold f2d_size1; rewrite P1, P2; clear; lia).
    assert (Z2 : f2d_size2 f3 = n2) by (destruct I3 as (_ & _ & P1 & P2 & _); unfold f2d_size2; rewrite P1, P2; clear; lia).
    destruct (nested_ok (fun x : heap => x) (fun _ => True) m blk jj (dims nc) (single_time_item f3) [(0%nat, c0)]
      (fun tdx c => c = num (fourier_value (get nc tdx) n1 n2 min1 min2 s1 s2 (at_index nt1 idx) (at_index nt2 idx))) m2)
      as (m' & vals & A1 & A2 & A4 & _ & A5); [exact B|exact G|exact I| |].
    + intros tdx m4 kk Htd G4 _ Bk. cbn [map single_time_item]. rewrite Z1, Z2.
      destruct (sub_cat (dims nc) [n1; n2; 2%nat] c0 0 tdx [] S3 L3 ltac:(cbn; lia) Htd ltac:(now left)) as (Da & _).
      rewrite app_nil_r in Da. rewrite Da.
      destruct (fetch_pairs_ok m blk m4 G4 Fr (address c0 tdx) (n1 * n2) (get nc tdx)) as (g & -> & Q).
      { intros k Hk. now apply (row3 m c0 n1 n2 nc). }
      cbn [bind]. rewrite (eval_ok n1 n2 min1 min2 s1 s2 f3 (at_index nt1 idx) (at_index nt2 idx) g I3 A3). cbn [out_array data].
      destruct (put_blit m blk m4 kk (Dbl (Some (fourier_value g n1 n2 min1 min2 s1 s2 (at_index nt1 idx) (at_index nt2 idx)))) G4 Bk) as (m5 & E5 & W5).
      exists m5. eexists. split; [exact E5|]. split; [exact W5|]. split; [|exact I].
      unfold num. do 2 f_equal. unfold fourier_value. apply fsum_ext. intros p Hp. apply fsum_ext. intros q Hq. rewrite (Q (p * n2 + q)%nat); [reflexivity|]. nia.
    + exists (m', f3), vals. rewrite A1. cbn [bind fst snd]. split; [reflexivity|]. split; [exact A2|]. split; [exact A4|]. split; [exact I3|].
      intros tdx c Htd Hc'. rewrite (A5 tdx c Htd Hc'). rewrite at_index_app by exact Hi.
      rewrite at_index_app by (rewrite <- Ed; exact Hi). rewrite at_index_full by exact Hi. rewrite at_index_full by (rewrite <- Ed; exact Hi).
      rewrite <- (index_len _ _ Hi), skipn_app, Nat.sub_diag, skipn_all. reflexivity.
  - exact G1.
  - apply init_sizes.
  - match goal with |- context [bind ?w _] => replace w with (Ok s' : result (heap * fourier_2d)) by (symmetry; exact E) end. exact R.
Qed.

(** ** sunpos and sunpos_original *)

Lemma largest_shape_nd m : forall arrs nds, Forall2 (number_array m) arrs nds -> forall nx,
  largest_shape (dims nx) arrs = dims (largest_array nx nds).
Proof.
  induction 1 as [|a na arrs nds H Hr IH]; intro nx; [reflexivity|]. cbn [largest_shape largest_array].
  destruct H as (Sa & _). rewrite Sa. destruct (Nat.ltb (length (dims nx)) (length (dims na))); apply IH.
Qed.

Lemma sun_gives calc calc' m base junk first others nfirst nothers :
  (forall args s, calc args = Some s -> calc' args = Some s) ->
  (forall args, length args = S (length others) -> exists s, calc args = Some s) ->
  number_array m first nfirst -> Forall2 (number_array m) others nothers ->
  let pure := sun_arrays calc' nfirst nothers in
  (forall odims out, pure = Ok (odims, out) -> free_cells m base (size (odims ++ [5%nat]))) ->
  match pure with
  | Ok (odims, out) =>
      gives m (sun_array calc m base junk first others) (odims ++ [5%nat])
        (fun idx c => exists s, nth_error out (offset odims (removelast idx)) = Some (Some s) /\
           c = Some (num (sun_component s (last idx 0%nat))))
  | Err e => sun_array calc m base junk first others = Err e
  end.
Proof.
  intros Hcc Htot H1 H2 pure. unfold pure, sun_arrays, sun_array.
  pose proof H1 as (S1 & _). rewrite S1, (largest_shape_nd m _ _ H2). set (D := dims (largest_array nfirst nothers)).
  change (MAX_OUT_ARRAY_NDIM - 1)%nat with 15%nat. cbv zeta.
  destruct (Nat.ltb 15 (length D)); [reflexivity|].
  assert (EX : existsb (fun a => Nat.ltb 0 (length (shape a)) && check_equal_shape (shape a) D) (first :: others)
    = existsb (fun a => Nat.ltb 0 (length (dims a)) && check_equal_shape (dims a) D) (nfirst :: nothers)).
  { cbn [existsb]. rewrite S1. f_equal. clearbody D. clear - H2. induction H2 as [|a na l l' (Sa & _) _ IH]; [reflexivity|]. cbn [existsb]. now rewrite Sa, IH. }
  rewrite EX. destruct (existsb _ (nfirst :: nothers)) eqn:Ex; [reflexivity|].
  intro Hf. specialize (Hf _ _ eq_refl).
  assert (Dm : forall na, In na (nfirst :: nothers) -> dims na = [] \/ dims na = D).
  { intros na Hn. assert (Q := existsb_exists (fun a => Nat.ltb 0 (length (dims a)) && check_equal_shape (dims a) D) (nfirst :: nothers)).
    rewrite Ex in Q. destruct (dims na) as [|x l] eqn:El; [now left|]. right.
    destruct (check_equal_shape (x :: l) D) eqn:Ec.
    - exfalso. destruct Q as (_ & Q). discriminate Q. exists na. rewrite El. split; [exact Hn|]. cbn [length Nat.ltb]. now rewrite Ec.
    - clear - Ec. revert Ec. generalize (x :: l) as d0. generalize D as d1. intros d1 d0. revert d1.
      induction d0 as [|y d0 IH]; intros [|z d1]; cbn [check_equal_shape]; try discriminate; [reflexivity|].
      destruct (Nat.eqb_spec y z) as [->|]; [|discriminate]. intro E. now rewrite (IH d1 E). }
  apply run_ok; [exact Hf|].
  intros idx m1 jj Hi G B. set (blk := blk1 _ _) in *.
  assert (Fr : forall k, blk k -> m k = None) by (intros k Hk; now apply (free_blk m base _ Hf)).
  cbn [sun_item].
  assert (H12 : Forall2 (number_array m) (first :: others) (nfirst :: nothers)) by now constructor.
  rewrite map_map.
  assert (FA : fetch_args m1 (map (fun x => sub 0 x idx) (first :: others)) = Ok (map (fun na => at_index na idx) (nfirst :: nothers))).
  { clear - H12 Dm G Fr Hi. induction H12 as [|a na l l' Ha Hr IH]; [reflexivity|]. cbn [map fetch_args].
    rewrite (fetch_real_ok m blk m1 G Fr _ (at_index na idx)).
    - cbn [bind]. rewrite IH by (intros; apply Dm; now right). reflexivity.
    - apply (arg0 m a na D); [exact Ha| |exact Hi]. destruct (Dm na ltac:(now left)) as [->| ->]; [exists D; reflexivity|apply self_prefix]. }
  rewrite FA. cbn [bind].
  destruct (Htot (map (fun na => at_index na idx) (nfirst :: nothers))) as (s & Es).
  { rewrite map_length. cbn [length]. f_equal. clear - H2. induction H2; cbn; congruence. }
  rewrite Es. unfold put_sun. cbn [out_array data stride c_strides hd].
  replace (Z.of_nat (fold_right Nat.mul 1%nat []) * 8) with 8 by reflexivity.
  set (vals := map _ _).
  destruct (put_list_ok m blk vals m1 jj G) as (m' & E' & _ & W); [intros i Hl; apply B, Hl|].
  exists m', vals. split; [exact E'|]. split; [exact W|]. split; [reflexivity|].
  intros tdx c Ht Hc. destruct (index1 _ _ Ht) as (k & -> & Hk). replace (linear [5%nat] [k]) with k in Hc by (cbn; lia).
  rewrite removelast_app1, last_last. exists s. split.
  - rewrite sun_items_spec by exact Dm.
    rewrite (map_nth_error _ _ _ (nth_indices D idx Hi)). f_equal. now apply Hcc.
  - destruct k as [|[|[|[|[|k]]]]]; [..|lia]; cbn in Hc; injection Hc as <-; reflexivity.
Qed.
