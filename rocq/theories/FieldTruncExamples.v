(** The truncation error of a WMM file. *)
From Coq Require Import Bool List Arith ZArith Reals Lia Lra.
From Coquelicot Require Import Coquelicot.
From Verif Require Import ShEvalSpec SparseSpec TimeModel WmmModel WmmSpec WmmExamples FieldSpec FileFieldExamples TruncationSpec FieldSizeSpec.
Open Scope R_scope.

Lemma ex_wmm_truncated :
  coefficient_table (fun n m v => wmm_coefficient 2020 ex_wmm_rows n m (mjd2k_to_decimal_year (decimal_year_to_mjd2k 2022)) v) (-1) 1 ex_wmm_gh /\
  0 < remaining_field true ex_wmm_gh 0 1 6371.2.
Proof.
  split.
  - intros n m Hm. split.
    + intros _. apply (ex_wmm_table n m Hm). unfold within_bounds. lia.
    + intros W. unfold within_bounds in W. destruct n as [|[|n]]; try lia. reflexivity.
  - unfold remaining_field. cbn [sum_f_R0 Nat.leb]. rewrite Rabs_right by lra.
    replace (6371.2 / 6371.2) with 1 by (field; lra).
    assert (0 < Rabs (radial true 6371.2 1 6371.2)) by (apply Rabs_pos_lt; unfold radial; replace (6371.2 / 6371.2) with 1 by (field; lra); rewrite pow1; lra).
    assert (0 < degree_size ex_wmm_gh 1) by (apply sqrt_lt_R0; cbn; lra).
    rewrite Rplus_0_l, Rmult_1_l. apply Rmult_lt_0_compat; [apply Rmult_lt_0_compat; [cbn; lra|assumption]|assumption].
Qed.
