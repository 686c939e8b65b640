(** An example of an IGRF file. *)

From Coq Require Import Bool List Ascii String ZArith Reals Lra Lia.
From Verif Require Import TextModel TextSpec TextProofs ShcExamples WmmExamples SparseSpec InterpSpec IgrfModel IgrfSpec.
Import ListNotations.
Open Scope list_scope.

Definition ex_igrf_lines : list text :=
  [t_ "# example"; t_ ""; t_ "c/s deg ord DGRF IGRF SV"; t_ "g/h n m 2010 2015 2015-20";
   t_ "g 1 0 -29496 -29442 10 "; t_ "g 1 1 -1586 -1501 18 "; t_ "h 1 1 4944 4797 -26"].
Definition ex_igrf_rows : list igrf_row :=
  [{| i_n := 1; i_m := 0; i_values := [-29496; -29442]%R; i_rate := 10 |};
   {| i_n := 1; i_m := 1; i_values := [-1586; -1501]%R; i_rate := 18 |};
   {| i_n := 1; i_m := -1; i_values := [4944; 4797]%R; i_rate := -26 |}].

Ltac igrf_example_line vs r m :=
  match goal with |- igrf_line _ _ ?line _ =>
    let fs := eval vm_compute in (split line) in
    match fs with ?l :: ?a :: ?b :: _ => exists l, a, b, vs, r, m end
  end;
  split; [fields_by_split|split; [reflexivity|split; [reflexivity|split; [|split; [repeat constructor|reflexivity]]]]].

Lemma ex_igrf_file : igrf_file ex_int ex_real ex_igrf_lines [2010; 2015]%R ex_igrf_rows.
Proof.
  exists [t_ "# example"; t_ ""], (t_ "c/s deg ord DGRF IGRF SV"), (t_ "g/h n m 2010 2015 2015-20"),
    (t_ "g/h"), (t_ "n"), (t_ "m"), [t_ "2010"; t_ "2015"], (t_ "2015-20"),
    [t_ "g 1 0 -29496 -29442 10 "; t_ "g 1 1 -1586 -1501 18 "; t_ "h 1 1 4944 4797 -26"].
  split; [reflexivity|split; [repeat constructor; apply comment_spec; reflexivity|split; [|split; [fields_by_split|split; [repeat constructor|]]]]].
  - intro H. apply comment_spec in H. discriminate.
  - constructor; [|constructor; [|constructor; [|constructor]]].
    + igrf_example_line [t_ "-29496"; t_ "-29442"] (t_ "10") 0%Z. right. split; [discriminate|reflexivity].
    + igrf_example_line [t_ "-1586"; t_ "-1501"] (t_ "18") 1%Z. right. split; [discriminate|reflexivity].
    + igrf_example_line [t_ "4944"; t_ "4797"] (t_ "-26") 1%Z. left. split; reflexivity.
Qed.
Lemma ex_igrf_proper : proper_igrf [2010; 2015]%R ex_igrf_rows /\ increasing [2010; 2015]%R.
Proof.
  split; [split; [discriminate|split]|].
  - intros r H. repeat destruct H as [<-|H]; try (split; [unfold valid_nm; cbn; lia|reflexivity]). destruct H.
  - intros i j a b Hi Hj. destruct i as [|[|[|i]]], j as [|[|[|j]]]; cbn in Hi, Hj; try discriminate; try reflexivity;
      try (destruct i; discriminate); try (destruct j; discriminate); injection Hi as <-; injection Hj as <-; cbn; lia.
  - intros i j a b Hij Ha Hb. destruct i as [|[|i]], j as [|[|j]]; cbn in Ha, Hb; try lia; try discriminate;
      try (destruct i; discriminate); try (destruct j; discriminate). injection Ha as <-. injection Hb as <-. lra.
Qed.
Lemma ex_igrf_value : igrf_value [2010; 2015]%R {| i_n := 1; i_m := -1; i_values := [4944; 4797]%R; i_rate := -26 |} 2018 4719.
Proof. right. exists 1%nat, 2015%R, 4797%R. cbn. repeat split; try reflexivity; [left; lra|lra]. Qed.
