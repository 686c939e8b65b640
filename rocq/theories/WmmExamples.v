(** An example of a WMM file. *)

From Coq Require Import Bool List Ascii String ZArith Reals Lra Lia.
From Verif Require Import TextModel TextSpec TextProofs ShcExamples WmmModel WmmSpec WmmProofs.
Import ListNotations.
Open Scope list_scope.

Definition ex_real (s : text) : option R := option_map IZR (ex_int s).

Definition ex_wmm_lines : list text :=
  [t_ "  2020 WMM-2020 12/10/2019 "; t_ " 1 0 -29404 0 6 0"; t_ " 1 1 -1450 4652 7 -25"; t_ " 2 0 0 0 0 0 ";
   t_ "99999999999"; t_ "9999999 9"].
Definition ex_wmm_rows : list wmm_row :=
  [{| w_n := 1; w_m := 0; w_g := -29404; w_h := 0; w_dg := 6; w_dh := 0 |};
   {| w_n := 1; w_m := 1; w_g := -1450; w_h := 4652; w_dg := 7; w_dh := -25 |};
   {| w_n := 2; w_m := 0; w_g := 0; w_h := 0; w_dg := 0; w_dh := 0 |}].

Ltac fields_by_split := apply split_spec; vm_compute; reflexivity.

Lemma ex_wmm_file : wmm_file ex_int ex_real ex_wmm_lines 2020 ex_wmm_rows.
Proof.
  exists (t_ "  2020 WMM-2020 12/10/2019 "), [t_ " 1 0 -29404 0 6 0"; t_ " 1 1 -1450 4652 7 -25"; t_ " 2 0 0 0 0 0 "],
    [t_ "99999999999"; t_ "9999999 9"], (t_ "2020"), (t_ "WMM-2020"), (t_ "12/10/2019"), [].
  split; [reflexivity|split; [fields_by_split|split; [reflexivity|split]]].
  - repeat constructor; do 7 eexists; (split; [fields_by_split|]); repeat split; vm_compute; reflexivity.
  - right. exists (t_ "99999999999"), [t_ "9999999 9"]. split; [reflexivity|]. exists (t_ "99999999999"). split; [fields_by_split|repeat constructor].
Qed.
Lemma ex_wmm_proper : proper_rows ex_wmm_rows /\ some_nonzero ex_wmm_rows.
Proof.
  split; [split|].
  - intros r H. repeat destruct H as [<-|H]; cbn; try lia. destruct H.
  - intros i j a b Hi Hj. destruct i as [|[|[|i]]], j as [|[|[|j]]]; cbn in Hi, Hj; try discriminate; try reflexivity;
      try (destruct i; discriminate); try (destruct j; discriminate); injection Hi as <-; injection Hj as <-; cbn; lia.
  - exists {| w_n := 1; w_m := 0; w_g := -29404; w_h := 0; w_dg := 6; w_dh := 0 |}. split; [now left|]. cbn. left. lra.
Qed.
Lemma ex_wmm_coefficient : wmm_coefficient 2020 ex_wmm_rows 1 (-1) 2022 4602.
Proof.
  left. exists {| w_n := 1; w_m := 1; w_g := -1450; w_h := 4652; w_dg := 7; w_dh := -25 |}. split; [right; now left|].
  cbn [w_n w_m w_h w_dh]. split; [reflexivity|split; [reflexivity|]]. right. split; [lia|lra].
Qed.
