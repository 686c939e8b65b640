(** An example of EMM files. *)

From Coq Require Import Bool List Ascii String ZArith Reals Lra Lia.
From Verif Require Import TextModel TextSpec TextProofs ShcExamples WmmModel WmmExamples EmmModel EmmSpec EmmProofs.
Import ListNotations.
Open Scope list_scope.

Definition ex_emm_header : list text := [t_ "EMM2015"; t_ " Epoch: 2015"; t_ "n m g h"; t_ " --------- "].
Definition ex_emm_static : list text := ex_emm_header ++ [t_ " 1 0 -29438 0"; t_ " 1 1 -1494 4796"; t_ " 2 0 -2450 0"].
Definition ex_emm_secvar : list text := ex_emm_header ++ [t_ " 1 0 7 0"; t_ " 1 1 9 -30"].
(** the rows in another order and for another epoch *)
Definition ex_emm_swapped : list text := [t_ "Epoch: 2010"; t_ "---"; t_ " 1 1 9 -30"; t_ " 1 0 7 0"].
Definition ex_emm_variable : list emm_row := [{| m_n := 1; m_m := 0; m_g := -29438; m_h := 0 |}; {| m_n := 1; m_m := 1; m_g := -1494; m_h := 4796 |}].
Definition ex_emm_constant : list emm_row := [{| m_n := 2; m_m := 0; m_g := -2450; m_h := 0 |}].
Definition ex_emm_rates : list emm_row := [{| m_n := 1; m_m := 0; m_g := 7; m_h := 0 |}; {| m_n := 1; m_m := 1; m_g := 9; m_h := -30 |}].

Ltac not_dash := let f := fresh in let H := fresh in let D := fresh in
  intro H; apply dash_spec in H as (f & H & D); vm_compute in H; try discriminate H; injection H as <-; vm_compute in D; discriminate D.
Ltac not_epoch := let v := fresh in let H := fresh in intros v H; apply split_spec in H; vm_compute in H; discriminate H.
Ltac emm_rows := repeat constructor; do 5 eexists; (split; [fields_by_split|]); repeat split; vm_compute; reflexivity.

Lemma ex_emm_header_file lines rows : Forall2 (emm_line ex_int ex_real) lines rows -> emm_file ex_int ex_real (ex_emm_header ++ lines) 2015 rows.
Proof.
  intro H. exists [t_ "EMM2015"], (t_ " Epoch: 2015"), [t_ "n m g h"], (t_ " --------- "), lines. split; [reflexivity|].
  split; [apply Forall_cons; [split; [not_dash|left; not_epoch]|apply Forall_nil]|]. split; [exists (t_ "2015"); split; [fields_by_split|reflexivity]|].
  split; [apply Forall_cons; [split; [not_dash|not_epoch]|apply Forall_nil]|]. split; [|exact H]. exists (t_ "---------"). split; [fields_by_split|repeat constructor].
Qed.
Lemma ex_emm_files : emm_file ex_int ex_real ex_emm_static 2015 (ex_emm_variable ++ ex_emm_constant) /\ emm_file ex_int ex_real ex_emm_secvar 2015 ex_emm_rates.
Proof. split; apply ex_emm_header_file; emm_rows. Qed.
Lemma ex_emm_swapped_file : emm_file ex_int ex_real ex_emm_swapped 2010 (rev ex_emm_rates).
Proof.
  exists [], (t_ "Epoch: 2010"), [], (t_ "---"), [t_ " 1 1 9 -30"; t_ " 1 0 7 0"]. split; [reflexivity|]. split; [constructor|].
  split; [exists (t_ "2010"); split; [fields_by_split|reflexivity]|]. split; [constructor|]. split; [|emm_rows].
  exists (t_ "---"). split; [fields_by_split|repeat constructor].
Qed.
Definition ex_emm_undated : list text := [t_ "EMM2015"; t_ "---"; t_ " 1 0 7 0"; t_ " 1 1 9 -30"].
Lemma ex_emm_refused : emm_file ex_int ex_real ex_emm_header 2015 [] /\ emm_file_without_epoch ex_int ex_real ex_emm_undated ex_emm_rates.
Proof.
  split.
  - apply (ex_emm_header_file [] []). constructor.
  - exists [t_ "EMM2015"], (t_ "---"), [t_ " 1 0 7 0"; t_ " 1 1 9 -30"]. split; [reflexivity|].
    split; [apply Forall_cons; [split; [not_dash|not_epoch]|apply Forall_nil]|]. split; [|emm_rows].
    exists (t_ "---"). split; [fields_by_split|repeat constructor].
Qed.
Lemma ex_emm_proper : same_rows ex_emm_variable ex_emm_rates /\ proper_emm (ex_emm_variable ++ ex_emm_constant) /\ ex_emm_rates <> [] /\ nonzero_rows ex_emm_constant.
Proof.
  split; [|split; [split|split]].
  - repeat constructor.
  - intros r H. repeat destruct H as [<-|H]; cbn; try lia. destruct H.
  - intros i j a b Hi Hj. destruct i as [|[|[|i]]], j as [|[|[|j]]]; cbn in Hi, Hj; try discriminate; try reflexivity;
      try (destruct i; discriminate); try (destruct j; discriminate); injection Hi as <-; injection Hj as <-; cbn; lia.
  - discriminate.
  - exists {| m_n := 2; m_m := 0; m_g := -2450; m_h := 0 |}. split; [now left|]. cbn. left. lra.
Qed.
Lemma ex_emm_coefficient : emm_coefficient 2015 ex_emm_variable ex_emm_constant ex_emm_rates 1 (-1) 2017 4736.
Proof.
  left. exists 1%nat, {| m_n := 1; m_m := 1; m_g := -1494; m_h := 4796 |}, {| m_n := 1; m_m := 1; m_g := 9; m_h := -30 |}, 4796%R, (-30)%R.
  split; [reflexivity|split; [reflexivity|]]. unfold of_order. cbn. split; [|split; [|lra]]; (split; [reflexivity|split; [reflexivity|right; split; [lia|reflexivity]]]).
Qed.

Lemma emm_incompatible_refuted : ~ (forall to_int to_float file_static file_secvar epoch_static epoch_secvar static secvar,
  emm_file to_int to_float file_static epoch_static static -> emm_file to_int to_float file_secvar epoch_secvar secvar ->
  (epoch_static <> epoch_secvar \/ ~ exists variable constant, static = variable ++ constant /\ same_rows variable secvar) ->
  exists e, load_coeff_emm to_int to_float file_static file_secvar = Failed e).
Proof.
  intro H. destruct (H _ _ _ _ _ _ _ _ (proj1 ex_emm_files) ex_emm_swapped_file) as [e E].
  - left. lra.
  - destruct (emm_not_refused _ _ _ _ _ _ _ _ _ (proj1 ex_emm_files) ex_emm_swapped_file eq_refl) as [emm E'];
      [discriminate|apply ex_emm_proper|congruence].
Qed.
