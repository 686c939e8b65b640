(** Proofs about the sums of coefficient arrays. *)

From Coq Require Import List ZArith Reals Lra Lia.
From Verif Require Import Ord SparseModel SparseSpec SparseProofs SeriesProofs SeriesSpec SeriesLineProofs CombineModel.
Import ListNotations.
Open Scope R_scope.

Definition sum (vs : list R) : R := fold_right Rplus 0 vs.

Lemma add_cells_length base : forall new, length (add_cells base new) = length base.
Proof. induction base as [|[a b] base IH]; intros [|[c d] new]; cbn [add_cells length]; try reflexivity. now rewrite IH. Qed.

Lemma cell_value_S {V} (x : V * V) l row col : (0 <= row)%Z -> cell_value (x :: l) (row + 1) col = cell_value l row col.
Proof.
  intro H. unfold cell_value. destruct (Z.ltb_spec (row + 1) 0); [lia|]. destruct (Z.ltb_spec row 0); [lia|].
  replace (Z.to_nat (row + 1)) with (S (Z.to_nat row)) by lia. reflexivity.
Qed.

Lemma cell_value_range {V} (l : list (V * V)) row col v : cell_value l row col = Some v -> (0 <= row < Z.of_nat (length l) /\ 0 <= col <= 1)%Z.
Proof.
  unfold cell_value. destruct (Z.ltb_spec row 0); [discriminate|]. destruct (nth_error l (Z.to_nat row)) as [r|] eqn:E; [|discriminate].
  assert (Z.to_nat row < length l)%nat by (apply nth_error_Some; congruence).
  destruct (Z.eqb_spec col 0); [lia|]. destruct (Z.eqb_spec col 1); [lia|discriminate].
Qed.

Lemma add_cells_value base : forall new row col b v, (length new <= length base)%nat -> cell_value base row col = Some (Some (Some b)) ->
  (cell_value new row col = Some (Some (Some v)) \/ (Z.of_nat (length new) <= row)%Z /\ v = 0) ->
  cell_value (add_cells base new) row col = Some (Some (Some (b + v))).
Proof.
  induction base as [|[x y] base IH]; intros new row col b v L Hb Hn.
  - apply cell_value_range in Hb. cbn in Hb. lia.
  - destruct new as [|[c d] new].
    + cbn [add_cells]. destruct Hn as [Hn|[_ ->]]; [apply cell_value_range in Hn; cbn in Hn; lia|]. now rewrite Rplus_0_r.
    + cbn [add_cells length] in *. pose proof (cell_value_range _ _ _ _ Hb) as Rg.
      destruct (Z.eq_dec row 0) as [->|N].
      * destruct Hn as [Hn|[Hn _]]; [|cbn in Hn; lia].
        unfold cell_value in *. cbn [Z.ltb Z.compare Z.to_nat nth_error fst snd] in *.
        destruct (col =? 0)%Z; [|destruct (col =? 1)%Z; [|discriminate]];
          injection Hb as ->; injection Hn as ->; reflexivity.
      * replace row with (row - 1 + 1)%Z in * by lia. rewrite cell_value_S in * by lia. apply IH; [lia|exact Hb|].
        destruct Hn as [Hn|[Hn ->]]; [left|right; split; [lia|reflexivity]].
        exact Hn.
Qed.

Lemma fold_add_value row col fs vs : Forall2 (fun f v => cell_value f row col = Some (Some (Some v)) \/ (Z.of_nat (length f) <= row)%Z /\ v = 0) fs vs ->
  forall base b, (forall f, In f fs -> length f <= length base)%nat -> cell_value base row col = Some (Some (Some b)) ->
  cell_value (fold_left add_cells fs base) row col = Some (Some (Some (b + sum vs))).
Proof.
  induction 1 as [|f v fs vs Hf H IH]; intros base b L Hb; cbn [fold_left sum fold_right].
  - now rewrite Rplus_0_r.
  - fold (sum vs). replace (b + (v + sum vs)) with (b + v + sum vs) by ring. apply IH.
    + intros f' Hf'. rewrite add_cells_length. apply L. now right.
    + apply add_cells_value; auto. apply L. now left.
Qed.

Lemma fold_max_le l : forall a, (a <= fold_left Z.max l a)%Z /\ forall x, In x l -> (x <= fold_left Z.max l a)%Z.
Proof.
  induction l as [|y l IH]; intro a; cbn [fold_left]; [split; [lia|intros x []]|].
  destruct (IH (Z.max a y)) as [A B]. split; [lia|]. intros x [->|Hx]; [lia|now apply B].
Qed.

Lemma repeat_cell {V} (z : V * V) k row col : (0 <= row < Z.of_nat k)%Z -> (0 <= col <= 1)%Z -> fst z = snd z ->
  cell_value (repeat z k) row col = Some (fst z).
Proof.
  intros Hr Hc E. unfold cell_value. destruct (Z.ltb_spec row 0); [lia|].
  assert (nth_error (repeat z k) (Z.to_nat row) = Some z) as ->.
  { rewrite (nth_error_nth' _ z) by (rewrite repeat_length; lia). now rewrite nth_repeat. }
  destruct (Z.eqb_spec col 0); [reflexivity|]. destruct (Z.eqb_spec col 1); [now rewrite E|lia].
Qed.

Lemma combine_coefficient results n m vs : valid_nm n m -> Forall sized results -> Forall2 (fun r v => coefficient r n m v) results vs ->
  coefficient (combine_cells results) n m (sum vs) /\ sized (combine_cells results).
Proof.
  intros V Hs H. set (D := fold_left Z.max (map snd results) 0%Z).
  destruct (fold_max_le (map snd results) 0%Z) as [D0 Dm]. fold D in D0, Dm.
  assert (Sz : (2 * coeff_size_z D = (D + 1) * (D + 2))%Z) by (apply size2).
  assert (Ls : forall r, In r results -> (Z.of_nat (length (fst r)) <= coeff_size_z D)%Z).
  { intros r Hr. rewrite Forall_forall in Hs. destruct (Hs r Hr) as [S1 S2]. pose proof (Dm _ (in_map snd _ _ Hr)). nia. }
  assert (Lb : forall f, In f (map fst results) -> (length f <= Z.to_nat (coeff_size_z D))%nat).
  { intros f Hf. apply in_map_iff in Hf as (r & <- & Hr). specialize (Ls r Hr). lia. }
  split.
  - unfold combine_cells. cbv zeta. change (fold_left Z.max (map snd results) 0%Z) with D. destruct (Z.le_gt_cases n D) as [L|L].
    + left. split; [exact L|]. destruct (packed_exists n m V) as (row & col & Hr & Hc). exists row, col. split; [exact Hr|split; [exact Hc|]].
      rewrite <- (Rplus_0_l (sum vs)).
      assert (Rr : (0 <= row < coeff_size_z D)%Z).
      { unfold packed_row in Hr. destruct V as [V1 V2]. assert (2 * row <= n * (n + 1) + 2 * n)%Z by lia. nia. }
      assert (Rc : (0 <= col <= 1)%Z) by (destruct Hc as [[_ ->]|[_ ->]]; lia).
      apply fold_add_value.
      * revert H Hs. clear -Hr Hc V. induction 1 as [|r v results vs Hv H IH]; intro Hs; [constructor|]. inversion Hs as [|? ? S1 S2]; subst. cbn [map].
        constructor; [|now apply IH]. destruct r as [full degree]. cbn [fst]. destruct Hv as [(_ & row' & col' & Hr' & Hc' & E)|[Hd ->]].
        -- left. assert (row' = row) as -> by (unfold packed_row in Hr, Hr'; clear - Hr Hr'; lia).
           assert (col' = col) as -> by (clear - Hc Hc'; unfold packed_col in *; lia). exact E.
        -- right. split; [|reflexivity]. destruct S1 as [S1 S3]. cbn [fst snd] in *. unfold packed_row in Hr. destruct V as [V1 V2].
           assert ((degree + 1) * (degree + 2) <= n * (n + 1))%Z by nia. lia.
      * intros f Hf. rewrite repeat_length. now apply Lb.
      * rewrite repeat_cell; [reflexivity|rewrite Z2Nat.id; [exact Rr|exact (Z.le_trans _ _ _ (proj1 Rr) (Z.lt_le_incl _ _ (proj2 Rr)))]|exact Rc|reflexivity].
    + right. split; [exact L|]. revert H. clear -Dm L. clearbody D. revert vs. induction results as [|r results IH]; intros vs H; inversion H as [|? v ? vs' Hv Hvs]; subst; [reflexivity|].
      cbn [sum fold_right]. fold (sum vs'). rewrite (IH (fun x Hx => Dm x (or_intror Hx)) vs' Hvs).
      destruct r as [full degree]. pose proof (Dm degree (or_introl eq_refl)). destruct Hv as [[Hn _]|[_ ->]]; [lia|lra].
  - unfold sized, combine_cells. cbv zeta. cbn [fst snd]. change (fold_left Z.max (map snd results) 0%Z) with D.
    assert (E : forall fs (base : list (cell_t * cell_t)), length (fold_left add_cells fs base) = length base).
    { induction fs as [|f fs IH]; intro base; cbn [fold_left]; [reflexivity|]. rewrite IH. apply add_cells_length. }
    rewrite E, repeat_length. split; [|exact D0]. rewrite Z2Nat.id; [exact Sz|].
    clearbody D. clear - Sz D0. assert (0 <= (D + 1) * (D + 2))%Z by (apply Z.mul_nonneg_nonneg; lia). lia.
Qed.

(** the coefficients within the bounds *)
Lemma combine_bounded results lo hi n m vs : valid_nm n m -> Forall sized results -> Forall2 (fun r v => bounded_coefficient lo hi r n m v) results vs ->
  bounded_coefficient lo hi (combine_cells results) n m (sum vs).
Proof.
  intros V Hs H. split; intro Hw.
  - apply combine_coefficient; auto. revert H. clear -Hw. induction 1 as [|r v results vs [Hv _] H IH]; constructor; auto.
  - assert (E : exists zs, Forall2 (fun r v => coefficient r n m v) results zs /\ sum zs = 0).
    { revert H. clear -Hw. induction 1 as [|r v results vs [_ Hv] H (zs & IH1 & IH2)]; [exists []; split; [constructor|reflexivity]|].
      exists (0 :: zs). split; [constructor; auto|cbn; fold (sum zs); lra]. }
    destruct E as (zs & E1 & E2). rewrite <- E2. now apply combine_coefficient.
Qed.
