(** The decay of the field with the distance. *)
From Coq Require Import Bool List Arith ZArith Reals Lia Lra FunctionalExtensionality.
From Coquelicot Require Import Coquelicot.
From Verif Require Import ShEvalSpec ShEvalDeriv FieldSpec TruncationSpec FieldSizeSpec FieldSizeProofs TruncationExamples FieldSizeExamples.
Open Scope R_scope.

Lemma degree_size_pos gh n : 0 <= degree_size gh n.
Proof. apply sqrt_pos. Qed.

Lemma radial_internal n r : 0 < r -> 6371.2 / Rabs r * Rabs (radial true 6371.2 n r) = (6371.2 / r) ^ (n + 2).
Proof.
  intros P. unfold radial. rewrite (Rabs_right r) by lra. assert (Q : 0 < 6371.2 / r) by (apply Rdiv_lt_0_compat; lra).
  rewrite Rabs_right by (apply Rle_ge, pow_le; lra). replace (n + 2)%nat with (S (n + 1)) by lia. reflexivity.
Qed.

Lemma radial_external n r : 0 < r -> (1 <= n)%nat -> 6371.2 / Rabs r * Rabs (radial false 6371.2 n r) = (r / 6371.2) ^ (n - 1).
Proof.
  intros P L. unfold radial. rewrite (Rabs_right r) by lra. assert (Q : 0 < r / 6371.2) by (apply Rdiv_lt_0_compat; lra).
  rewrite Rabs_right by (apply Rle_ge, pow_le; lra). destruct n as [|n]; [lia|]. replace (S n - 1)%nat with n by lia. cbn [pow]. field; lra.
Qed.

Lemma sum_le f g N : (forall n, (n <= N)%nat -> f n <= g n) -> sum_f_R0 f N <= sum_f_R0 g N.
Proof. intros H. apply sum_Rle. exact H. Qed.

Lemma decay_internal gh N r0 rad : gh 0%nat 0%nat = (0, 0) -> 0 < r0 <= rad -> whole_field true gh N rad <= (r0 / rad) ^ 3 * whole_field true gh N r0.
Proof.
  intros Z [P L]. unfold whole_field. rewrite <- Rmult_assoc, <- !sum_scal. apply sum_le. intros n _. destruct n as [|n].
  - replace (degree_size gh 0) with 0; [rewrite !Rmult_0_r; lra|]. unfold degree_size. cbn [sum_f_R0]. rewrite Z. cbn [fst snd].
    replace (0 ^ 2 + 0 ^ 2) with 0 by ring. now rewrite sqrt_0.
  - replace (6371.2 / Rabs rad * ((INR (S n) + 1) * Rabs (radial true 6371.2 (S n) rad) * degree_size gh (S n)))
      with ((INR (S n) + 1) * degree_size gh (S n) * (6371.2 / Rabs rad * Rabs (radial true 6371.2 (S n) rad))) by ring.
    replace ((r0 / rad) ^ 3 * (6371.2 / Rabs r0) * ((INR (S n) + 1) * Rabs (radial true 6371.2 (S n) r0) * degree_size gh (S n)))
      with ((INR (S n) + 1) * degree_size gh (S n) * ((r0 / rad) ^ 3 * (6371.2 / Rabs r0 * Rabs (radial true 6371.2 (S n) r0)))) by ring.
    rewrite !radial_internal by lra. apply Rmult_le_compat_l.
    + apply Rmult_le_pos; [pose proof (pos_INR (S n)); lra|apply degree_size_pos].
    + replace (6371.2 / rad) with (r0 / rad * (6371.2 / r0)) by (field; lra). rewrite Rpow_mult_distr. replace (S n + 2)%nat with (3 + n)%nat by lia.
      rewrite (pow_add (r0 / rad) 3 n). rewrite Rmult_assoc. apply Rmult_le_compat_l; [apply pow_le, Rlt_le, Rdiv_lt_0_compat; lra|].
      assert (0 <= (6371.2 / r0) ^ (3 + n)) by (apply pow_le, Rlt_le, Rdiv_lt_0_compat; lra).
      assert (0 < r0 / rad <= 1) by (split; [apply Rdiv_lt_0_compat; lra|apply Rmult_le_reg_r with rad; [lra|]; unfold Rdiv; rewrite Rmult_assoc, Rinv_l by lra; lra]).
      assert ((r0 / rad) ^ n <= 1) by (rewrite <- (pow1 n); apply pow_incr; lra). nra.
Qed.

Lemma decay_external gh N r0 rad : 0 < rad <= r0 -> whole_field false gh N rad <= whole_field false gh N r0.
Proof.
  intros [P L]. unfold whole_field. rewrite <- !sum_scal. apply sum_le. intros n _. destruct n as [|n].
  - cbn [INR]. rewrite !Rmult_0_l, !Rmult_0_r. lra.
  - replace (6371.2 / Rabs rad * (INR (S n) * Rabs (radial false 6371.2 (S n) rad) * degree_size gh (S n)))
      with (INR (S n) * degree_size gh (S n) * (6371.2 / Rabs rad * Rabs (radial false 6371.2 (S n) rad))) by ring.
    replace (6371.2 / Rabs r0 * (INR (S n) * Rabs (radial false 6371.2 (S n) r0) * degree_size gh (S n)))
      with (INR (S n) * degree_size gh (S n) * (6371.2 / Rabs r0 * Rabs (radial false 6371.2 (S n) r0))) by ring.
    rewrite !radial_external by (lra || lia). apply Rmult_le_compat_l.
    + apply Rmult_le_pos; [apply pos_INR|apply degree_size_pos].
    + apply pow_incr. split; [apply Rlt_le, Rdiv_lt_0_compat; lra|]. apply Rmult_le_compat_r; lra.
Qed.

Definition no_monopole (gh : nat -> nat -> R * R) (n m : nat) : R * R := if Nat.eqb n 0 then (0, 0) else gh n m.

Lemma potential_no_monopole internal gh N : fst (gh 0%nat 0%nat) = 0 ->
  potential internal 6371.2 gh N = potential internal 6371.2 (no_monopole gh) N.
Proof.
  intros Z. extensionality r. extensionality t. extensionality p. unfold potential. f_equal. apply sum_ext. intros n _. f_equal. apply sum_ext. intros m Hm.
  unfold no_monopole. destruct n as [|n]; [|reflexivity]. replace m with 0%nat by lia. cbn [Nat.eqb fst snd INR]. rewrite Z. replace (0 * p) with 0 by ring. rewrite sin_0. ring.
Qed.

Lemma field_no_monopole internal gh N lat lon rad f : fst (gh 0%nat 0%nat) = 0 ->
  field_of internal gh N lat lon rad f -> field_of internal (no_monopole gh) N lat lon rad f.
Proof.
  intros Z. unfold field_of. destruct f as [[north east] up]. cbv zeta. rewrite (potential_no_monopole internal gh N Z).
  replace (potential internal 6371.2 (low_orders (no_monopole gh)) N) with (potential internal 6371.2 (low_orders gh) N); [easy|].
  rewrite (potential_no_monopole internal (low_orders gh) N Z). f_equal. extensionality n. extensionality m. unfold no_monopole, low_orders.
  destruct (Nat.eqb n 0), (Nat.leb m 1); reflexivity.
Qed.

Lemma whole_no_monopole gh N r : 0 < r -> whole_field true (no_monopole gh) N r <= whole_field true gh N r.
Proof.
  intros P. unfold whole_field. apply Rmult_le_compat_l; [apply Rlt_le, Rdiv_lt_0_compat; [lra|apply Rabs_pos_lt; lra]|]. apply sum_le. intros n _.
  apply Rmult_le_compat_l; [apply Rmult_le_pos; [pose proof (pos_INR n); lra|apply Rabs_pos]|].
  destruct n as [|n].
  - unfold degree_size at 1. cbn [sum_f_R0]. unfold no_monopole. cbn [Nat.eqb fst snd]. replace (0 ^ 2 + 0 ^ 2) with 0 by ring. rewrite sqrt_0. apply degree_size_pos.
  - apply Req_le. reflexivity.
Qed.

Lemma field_decay gh N lat lon r0 rad f : fst (gh 0%nat 0%nat) = 0 -> 0 < r0 <= rad -> -90 <= lat <= 90 ->
  field_of true gh N lat lon rad f -> vector_length f <= (r0 / rad) ^ 3 * whole_field true gh N r0.
Proof.
  intros Z L A F. apply field_no_monopole in F; [|exact Z].
  apply Rle_trans with (whole_field true (no_monopole gh) N rad).
  - apply (field_bound true (no_monopole gh) N lat lon rad f A); [lra|exact F].
  - apply Rle_trans with ((r0 / rad) ^ 3 * whole_field true (no_monopole gh) N r0); [apply decay_internal; [reflexivity|exact L]|].
    apply Rmult_le_compat_l; [apply pow_le, Rlt_le, Rdiv_lt_0_compat; lra|]. apply whole_no_monopole; lra.
Qed.

Lemma field_external gh N lat lon r0 rad f : 0 < rad <= r0 -> -90 <= lat <= 90 ->
  field_of false gh N lat lon rad f -> vector_length f <= whole_field false gh N r0.
Proof.
  intros L A F. apply Rle_trans with (whole_field false gh N rad); [|now apply decay_external].
  apply (field_bound false gh N lat lon rad f A); [lra|exact F].
Qed.
