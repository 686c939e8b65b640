(** Examples and a counterexample for the functions of arrays in memory. *)

From Coq Require Import Bool List Reals ZArith Lia Lra Arith.
From Verif Require Import ArrModel LegendreModel LegendreSpec SizeModel SizeProofs CoefModel ShEvalModel ShEvalSpec SpharModel FourierModel FourierSpec SunModel
  InterpModel StridedModel StridedSpec StridedProofs StridedEvalModel StridedEvalSpec NdModel NdSpec NdProofs NdFunProofs NdLegendreProofs.
Import ListNotations.
Open Scope Z_scope.

(** ** The positions of the Sun *)
Lemma sunpos_gives m base junk mjd lat lon rad dtt nmjd nlat nlon nrad ndtt :
  number_array m mjd nmjd -> number_array m lat nlat -> number_array m lon nlon -> number_array m rad nrad -> number_array m dtt ndtt ->
  let pure := sunpos nmjd nlat nlon nrad ndtt in
  (forall odims out, pure = Ok (odims, out) -> free_cells m base (size (odims ++ [5%nat]))) ->
  match pure with
  | Ok (odims, out) =>
      gives m (sunpos_array m base junk mjd lat lon rad dtt) (odims ++ [5%nat])
        (fun idx c => exists s, nth_error out (offset odims (removelast idx)) = Some (Some s) /\
           c = Some (num (sun_component s (last idx 0%nat))))
  | Err e => sunpos_array m base junk mjd lat lon rad dtt = Err e
  end.
Proof.
  intros H1 H2 H3 H4 H5. apply (sun_gives _ _ m base junk mjd [lat; lon; rad; dtt] nmjd [nlat; nlon; nrad; ndtt]).
  - trivial.
  - intros [|a [|b [|c [|d [|e [|]]]]]] L; try discriminate L. eauto.
  - exact H1.
  - repeat (apply Forall2_cons; [assumption|]). apply Forall2_nil.
Qed.

Lemma sunpos_original_gives m base junk mjd lat lon rad dtt pres temp nmjd nlat nlon nrad ndtt npres ntemp :
  number_array m mjd nmjd -> number_array m lat nlat -> number_array m lon nlon -> number_array m rad nrad -> number_array m dtt ndtt ->
  number_array m pres npres -> number_array m temp ntemp ->
  let pure := sunpos_original nmjd nlat nlon nrad ndtt npres ntemp in
  (forall odims out, pure = Ok (odims, out) -> free_cells m base (size (odims ++ [5%nat]))) ->
  match pure with
  | Ok (odims, out) =>
      gives m (sunpos_original_array m base junk mjd lat lon rad dtt pres temp) (odims ++ [5%nat])
        (fun idx c => exists s, nth_error out (offset odims (removelast idx)) = Some (Some s) /\
           c = Some (num (sun_component s (last idx 0%nat))))
  | Err e => sunpos_original_array m base junk mjd lat lon rad dtt pres temp = Err e
  end.
Proof.
  intros H1 H2 H3 H4 H5 H6 H7.
  apply (sun_gives _ _ m base junk mjd [lat; lon; rad; dtt; pres; temp] nmjd [nlat; nlon; nrad; ndtt; npres; ntemp]).
  - trivial.
  - intros [|a [|b [|c [|d [|e [|f [|g [|]]]]]]]] L; try discriminate L. eauto.
  - exact H1.
  - repeat (apply Forall2_cons; [assumption|]). apply Forall2_nil.
Qed.

(** ** A memory with the numbers 0, 1, ..., 29 and a NaN *)
Definition ex_heap : heap := fun k =>
  if (0 <=? k) && (k <? 30) then Some (num (IZR k)) else if k =? 30 then Some (Dbl None) else None.
(** every second number backwards from 28, in two rows *)
Definition ex_back : arrd := {| data := 8 * 28; shape := [2; 3]%nat; stride := [-48; -16] |}.
Definition ex_back_nd : nd R := {| dims := [2; 3]%nat; get := fun ix => IZR (28 - 6 * Z.of_nat (nth 0 ix 0%nat) - 2 * Z.of_nat (nth 1 ix 0%nat)) |}.
(** the same number for all the items *)
Definition ex_same : arrd := {| data := 8 * 30; shape := [3]%nat; stride := [0] |}.
Definition ex_same_nd : nd (option R) := {| dims := [3]%nat; get := fun _ => None |}.
Definition ex_nodes : arrd := {| data := 0; shape := [4]%nat; stride := [8] |}.
Definition ex_list : list R := [0; 1; 2; 3]%R.
Definition ex_series : arrd := {| data := 0; shape := [2; 4]%nat; stride := [32; 8] |}.
Definition ex_series_nd : nd arr := {| dims := [2]%nat; get := fun ix k => IZR (4 * Z.of_nat (nth 0 ix 0%nat) + Z.of_nat k) |}.
Definition ex_matrix : arrd := {| data := 0; shape := [2; 2; 2]%nat; stride := [32; 16; 8] |}.
Definition ex_matrix_nd : nd coefs := {| dims := []; get := fun _ k => (IZR (2 * Z.of_nat k), IZR (2 * Z.of_nat k + 1)) |}.
(** the numbers of one row of three pairs *)
Definition ex_pairs (n : nat) : arrd := {| data := 0; shape := [n; 2]%nat; stride := [16; 8] |}.
Definition ex_pairs_nd : nd coefs := {| dims := []; get := fun _ k => (IZR (2 * Z.of_nat k), IZR (2 * Z.of_nat k + 1)) |}.
Definition ex_row (n : nat) : arrd := {| data := 0; shape := [n]%nat; stride := [8] |}.
Definition ex_row_nd : nd arr := {| dims := []; get := fun _ k => IZR (Z.of_nat k) |}.
Definition ex_scalar : arrd := {| data := 8 * 7; shape := []; stride := [] |}.
Definition ex_scalar_nd : nd R := {| dims := []; get := fun _ => 7%R |}.

Lemma ex_cell a idx k : address a idx = 8 * k -> 0 <= k < 30 -> cell_at ex_heap a idx = Some (num (IZR k)).
Proof.
  intros E B. unfold cell_at. rewrite E, mod_8, div_8. unfold ex_heap.
  destruct (Z.leb_spec 0 k); [|lia]. destruct (Z.ltb_spec k 30); [|lia]. reflexivity.
Qed.

Lemma ex_free n : free_cells ex_heap (8 * 100) n.
Proof.
  split; [reflexivity|]. intros k Hk. rewrite div_8 in Hk. unfold ex_heap.
  destruct (Z.ltb_spec k 30); [lia|]. rewrite andb_false_r. destruct (Z.eqb_spec k 30); [lia|reflexivity].
Qed.
Lemma ex_free2 n : free_cells ex_heap (8 * 200) n.
Proof.
  split; [reflexivity|]. intros k Hk. rewrite div_8 in Hk. unfold ex_heap.
  destruct (Z.ltb_spec k 30); [lia|]. rewrite andb_false_r. destruct (Z.eqb_spec k 30); [lia|reflexivity].
Qed.

Lemma ex_back_numbers : number_array ex_heap ex_back ex_back_nd.
Proof.
  split; [reflexivity|]. split; [reflexivity|]. intros idx Hi. destruct (index2 _ _ _ Hi) as (i & j & -> & A & B).
  apply ex_cell; [unfold ex_back; rewrite address_dot; cbn [data stride]; rewrite ?dot_cons, ?dot_nil|cbn [nth]]; cbn [nth]; lia.
Qed.
Lemma ex_scalar_number : number_array ex_heap ex_scalar ex_scalar_nd.
Proof. split; [reflexivity|]. split; [reflexivity|]. intros idx Hi. inversion Hi; subst. reflexivity. Qed.
Lemma ex_same_doubles : double_array ex_heap ex_same ex_same_nd.
Proof.
  split; [reflexivity|]. split; [reflexivity|]. intros idx Hi. destruct (index1 _ _ Hi) as (k & -> & Hk).
  unfold cell_at. replace (address ex_same [k]) with (8 * 30); [reflexivity|].
  unfold ex_same. rewrite address_dot. cbn [data stride]. rewrite ?dot_cons, ?dot_nil. lia.
Qed.
Lemma ex_nodes_array : node_array ex_heap ex_nodes ex_list /\ c_contiguous ex_nodes.
Proof.
  split.
  - split; [reflexivity|]. split; [reflexivity|]. intros k x Hk.
    do 4 (destruct k as [|k]; [injection Hk as <-; reflexivity|]). destruct k; discriminate Hk.
  - intros idx Hi. destruct (index1 _ _ Hi) as (k & -> & Hk). unfold ex_nodes. rewrite address_dot. cbn [data stride shape]. rewrite ?dot_cons, ?dot_nil. cbn [offset size fold_right]. lia.
Qed.
Lemma ex_series_array : series_array ex_heap ex_series 4 ex_series_nd /\ c_contiguous ex_series.
Proof.
  split.
  - split; [reflexivity|]. split; [reflexivity|]. intros idx k Hi Hk. destruct (index1 _ _ Hi) as (i & -> & Ha).
    apply ex_cell; [unfold ex_series; rewrite address_dot; cbn [app data stride]; rewrite ?dot_cons, ?dot_nil|]; cbn [nth]; lia.
  - intros idx Hi. destruct (index2 _ _ _ Hi) as (i & k & -> & Ha & Hk). unfold ex_series. rewrite address_dot. cbn [data stride shape]. rewrite ?dot_cons, ?dot_nil.
    cbn [offset size fold_right]. lia.
Qed.
Lemma ex_matrix_array : matrix_array ex_heap ex_matrix 2 2 ex_matrix_nd /\ c_contiguous ex_matrix.
Proof.
  split.
  - split; [reflexivity|]. split; [reflexivity|]. intros idx p q Hi Hp Hq. inversion Hi; subst. cbn [app].
    split; apply ex_cell; unfold ex_matrix; rewrite ?address_dot; cbn [data stride fst snd ex_matrix_nd get]; rewrite ?dot_cons, ?dot_nil; lia.
  - intros idx Hi. inversion Hi as [|i ? l ? Ha Hl]; subst. destruct (index2 _ _ _ Hl) as (j & k & -> & Hj & Hk).
    unfold ex_matrix. rewrite address_dot. cbn [data stride shape]. rewrite ?dot_cons, ?dot_nil. cbn [offset size fold_right]. lia.
Qed.
Lemma ex_pairs_array n : (n <= 10)%nat -> pair_array ex_heap (ex_pairs n) n ex_pairs_nd /\ c_contiguous (ex_pairs n).
Proof.
  intro Hn. split.
  - split; [reflexivity|]. split; [reflexivity|]. intros idx k Hi Hk. inversion Hi; subst. cbn [app].
    split; apply ex_cell; unfold ex_pairs; rewrite ?address_dot; cbn [data stride fst snd ex_pairs_nd get]; rewrite ?dot_cons, ?dot_nil; lia.
  - intros idx Hi. destruct (index2 _ _ _ Hi) as (i & k & -> & Ha & Hk).
    unfold ex_pairs. rewrite address_dot. cbn [data stride shape]. rewrite ?dot_cons, ?dot_nil. cbn [offset size fold_right]. lia.
Qed.
Lemma ex_row_array n : (n <= 10)%nat -> series_array ex_heap (ex_row n) n ex_row_nd /\ c_contiguous (ex_row n).
Proof.
  intro Hn. split.
  - split; [reflexivity|]. split; [reflexivity|]. intros idx k Hi Hk. inversion Hi; subst. cbn [app].
    apply ex_cell; unfold ex_row; rewrite ?address_dot; cbn [data stride ex_row_nd get]; rewrite ?dot_cons, ?dot_nil; lia.
  - intros idx Hi. destruct (index1 _ _ Hi) as (k & -> & Hk). unfold ex_row. rewrite address_dot. cbn [data stride shape]. rewrite ?dot_cons, ?dot_nil.
    cbn [offset size fold_right]. lia.
Qed.

Lemma ex_fit : degrees_fit 2 2 0 0.
Proof. left. lia. Qed.

Lemma ex_spharpot : exists v, spharpot ex_scalar_nd 3 2 ex_pairs_nd 3 ex_row_nd 2 ex_row_nd 2 2 ex_pairs_nd 1 = Ok ([], [v]).
Proof. eexists. unfold spharpot. rewrite (proj1 ex_size). reflexivity. Qed.
Lemma ex_sphargrd : exists v, sphargrd ex_scalar_nd 3 2 ex_pairs_nd 3 ex_row_nd 3 ex_row_nd 2 ex_row_nd 2 2 ex_pairs_nd true 1 = Ok ([], [v]).
Proof. eexists. unfold sphargrd. rewrite (proj1 ex_size). reflexivity. Qed.
Lemma ex_sunpos : exists out, sunpos ex_back_nd ex_scalar_nd ex_back_nd ex_scalar_nd ex_scalar_nd = Ok ([2; 3]%nat, out).
Proof. eexists. reflexivity. Qed.

(** ** The degree 0 of the associated Legendre functions *)
Definition scalar_heap (x : R) : heap := fun k => if k =? 0 then Some (num x) else None.
Definition at_zero : arrd := {| data := 0; shape := []; stride := [] |}.

Lemma legendre_degree_zero x junk buf init :
  legendre_array (scalar_heap x) (8 * 10) (8 * 20) junk at_zero 0 buf init = Err OutOfBounds.
Proof.
  unfold legendre_array, alloc. change (0 <? 0) with false. cbv iota zeta beta. cbn [at_zero shape walk map snd]. unfold legendre_item.
  match goal with |- context [fetch_real ?m ?a] => replace (fetch_real m a) with (Ok x) by reflexivity end.
  cbn [bind]. destruct (shc_legendre _ _ _ _ _ _) as [lp ldp]. reflexivity.
Qed.

Lemma legendre_all_refuted : ~ (forall m base_p base_dp junk lat degree buf init nlat, 0 <= degree ->
  let D := dims nlat ++ [nm_size (Z.to_nat degree)] in
  number_array m lat nlat -> free_cells m base_p (size D) -> free_cells m base_dp (size D) ->
  base_p + 8 * Z.of_nat (size D) <= base_dp \/ base_dp + 8 * Z.of_nat (size D) <= base_p ->
  exists r, legendre_array m base_p base_dp junk lat degree buf init = Ok r).
Proof.
  intro H. destruct (H (scalar_heap 45) (8 * 10) (8 * 20) (fun _ => num 0) at_zero 0 (fun _ => 0%R) ((fun _ => 0%R), (fun _ => 0%R))
    {| dims := []; get := fun _ => 45%R |}) as (r & E).
  - lia.
  - split; [reflexivity|]. split; [reflexivity|]. intros idx Hi. inversion Hi; subst. reflexivity.
  - split; [reflexivity|]. intros k Hk. rewrite div_8 in Hk. unfold scalar_heap. destruct (Z.eqb_spec k 0); [lia|reflexivity].
  - split; [reflexivity|]. intros k Hk. rewrite div_8 in Hk. unfold scalar_heap. destruct (Z.eqb_spec k 0); [lia|reflexivity].
  - left. cbn. lia.
  - rewrite legendre_degree_zero in E. discriminate.
Qed.
