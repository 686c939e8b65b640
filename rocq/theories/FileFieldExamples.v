(** Examples of the field of WMM, IGRF and EMM files. *)
From Coq Require Import List ZArith Reals Lia Lra.
From Coquelicot Require Import Coquelicot.
From Verif Require Import Ord ROrd RbarOrd TextModel SparseSpec TimeModel DecimalProofs ShcExamples WmmModel WmmSpec WmmExamples IgrfModel IgrfSpec IgrfExamples
  EmmModel EmmSpec EmmExamples ShcLoadSpec ShcLoadProofs FieldModel FieldSpec FileFieldSpec.
Import ListNotations.
Open Scope R_scope.

Lemma ex_file_degrees : (forall r, In r ex_wmm_rows -> (w_n r <= Z.of_nat 2)%Z) /\ (forall r, In r ex_igrf_rows -> (i_n r <= Z.of_nat 1)%Z) /\
  (forall r, In r (ex_emm_variable ++ ex_emm_constant) -> (m_n r <= Z.of_nat 2)%Z).
Proof. repeat split; intros r H; repeat destruct H as [<-|H]; cbn; try lia; destruct H. Qed.

(** The coefficients of the WMM file at the begin of 2022 *)
Definition ex_wmm_gh (n m : nat) : R * R :=
  match n, m with 1%nat, 0%nat => (-29392, 0) | 1%nat, 1%nat => (-1436, 4602) | _, _ => (0, 0) end.
Lemma ex_wmm_year : mjd2k_to_decimal_year (decimal_year_to_mjd2k 2022) = 2022.
Proof. apply decimal_round_trip; lra. Qed.
Lemma ex_wmm_table : coefficient_table (fun n m v => wmm_coefficient 2020 ex_wmm_rows n m (mjd2k_to_decimal_year (decimal_year_to_mjd2k 2022)) v) (-1) (-1) ex_wmm_gh.
Proof.
  intros n m Hm. split; [|intro W; exfalso; apply W; unfold within_bounds; lia]. intros _. rewrite ex_wmm_year.
  assert (None_ : forall a b, (forall r, In r ex_wmm_rows -> ~ (w_n r = a /\ w_m r = Z.abs b)) -> wmm_coefficient 2020 ex_wmm_rows a b 2022 0).
  { intros a b H. right. split; [exact H|reflexivity]. }
  assert (Other : forall b, (2 < Z.of_nat n)%Z \/ (n = 2%nat /\ b <> 0%Z) \/ n = 0%nat -> wmm_coefficient 2020 ex_wmm_rows (Z.of_nat n) b 2022 0).
  { intros b H. apply None_. intros r Hr [E1 E2]. repeat destruct Hr as [<-|Hr]; cbn in E1, E2; try lia. destruct Hr. }
  destruct n as [|[|[|n]]].
  - replace m with 0%nat by lia. split; [apply Other; lia|lia].
  - destruct m as [|[|m]]; [| |lia]; cbn [ex_wmm_gh fst snd]; (split; [|intro Pm]); try lia.
    + left. exists {| w_n := 1; w_m := 0; w_g := -29404; w_h := 0; w_dg := 6; w_dh := 0 |}. split; [now left|].
      cbn [w_n w_m w_g w_dg]. split; [reflexivity|split; [reflexivity|]]. left. split; [lia|lra].
    + left. exists {| w_n := 1; w_m := 1; w_g := -1450; w_h := 4652; w_dg := 7; w_dh := -25 |}. split; [right; now left|].
      cbn [w_n w_m w_g w_dg]. split; [reflexivity|split; [reflexivity|]]. left. split; [lia|lra].
    + exact ex_wmm_coefficient.
  - cbn [ex_wmm_gh fst snd]. split; [|intro Pm; apply Other; right; left; split; [reflexivity|lia]].
    destruct m as [|m]; [|apply Other; right; left; split; [reflexivity|lia]].
    left. exists {| w_n := 2; w_m := 0; w_g := 0; w_h := 0; w_dg := 0; w_dh := 0 |}. split; [right; right; now left|].
    cbn [w_n w_m w_g w_dg]. split; [reflexivity|split; [reflexivity|]]. left. split; [lia|lra].
  - cbn [ex_wmm_gh fst snd]. split; [|intro Pm]; apply Other; lia.
Qed.

Lemma ex_file_validity :
  in_validity (Finite (decimal_year_to_mjd2k 2020), Finite (decimal_year_to_mjd2k (2020 + 5))) (Some (decimal_year_to_mjd2k 2022)) /\
  ~ in_validity (Finite (decimal_year_to_mjd2k 2020), Finite (decimal_year_to_mjd2k (2020 + 5))) (Some (decimal_year_to_mjd2k 2019)) /\
  ~ in_validity (Finite (decimal_year_to_mjd2k 2020), Finite (decimal_year_to_mjd2k (2020 + 5))) None.
Proof.
  assert (I : forall a b, 1600 < a -> a < b -> decimal_year_to_mjd2k a < decimal_year_to_mjd2k b)
    by (intros a b A L; apply year_increasing; unfold regular_year; try split; lra).
  pose proof (I 2019 2020). pose proof (I 2020 2022). pose proof (I 2022 (2020 + 5)). unfold in_validity. cbn [fst snd Rbar_le]. split; [|split].
  - eexists. split; [reflexivity|]. split; lra.
  - intros (u & [= <-] & A & B). lra.
  - intros (u & K & _). discriminate K.
Qed.

Lemma ex_igrf_coefficient : igrf_coefficient [2010; 2015] ex_igrf_rows 1 (-1) 2018 4719.
Proof. left. exists {| i_n := 1; i_m := -1; i_values := [4944; 4797]; i_rate := -26 |}. repeat split; [right; right; now left|exact ex_igrf_value]. Qed.
