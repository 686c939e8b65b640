(** Examples of MMA files. *)

From Coq Require Import Bool List ZArith Reals Lia Lra.
From Verif Require Import Ord ROrd CoefModel SparseModel SparseSpec SeriesSpec InterpSpec SeriesLineProofs MmaModel MmaSpec MmaProofs.
Import ListNotations.
Open Scope R_scope.

Definition ex_raw (day : R) : R := (day + 730485) * 86400000.
Lemma ex_raw_time d : mma_time (ex_raw d) = d.
Proof. unfold mma_time, ex_raw. field. Qed.

Definition ex_mma_nm : list (Z * Z) := [(1, 0); (1, -1)]%Z.
(** files of three and two times *)
Definition ex_mma_1 : cdf_set := {|
  cv_epoch_type := true; cv_time := map ex_raw [0; 1; 2]; cv_nm := Nm_2d ex_mma_nm; cv_ncoeff := 2; cv_coeff := [[1; 10]; [2; 20]; [4; 40]] |}.
Definition ex_mma_2 : cdf_set := {|
  cv_epoch_type := true; cv_time := map ex_raw [4; 5]; cv_nm := Nm_3d [ex_mma_nm]; cv_ncoeff := 2; cv_coeff := [[8; 80]; [5; 50]] |}.
Definition ex_mma_files := [ex_mma_1; ex_mma_2].

Lemma ex_mma_times : all_times ex_mma_files = [0; 1; 2; 4; 5].
Proof. unfold all_times, ex_mma_files, file_times. cbn [flat_map ex_mma_1 ex_mma_2 cv_time map app]. now rewrite !ex_raw_time. Qed.

Lemma ex_mma_proper_nm : proper_nm ex_mma_nm.
Proof.
  split; [discriminate|split].
  - intros [|[|[|i]]] n m E; try discriminate; injection E as <- <-; unfold valid_nm; lia.
  - intros [|[|[|i]]] [|[|[|j]]] p E1 E2; try reflexivity; try discriminate; rewrite <- E2 in E1; discriminate.
Qed.
Lemma ex_increasing : increasing [0; 1; 2; 4; 5].
Proof.
  intros i j a b L Ei Ej. destruct i as [|[|[|[|[|[|i]]]]]]; try discriminate; destruct j as [|[|[|[|[|[|j]]]]]]; try discriminate; try lia;
    cbn [nth_error] in Ei, Ej; assert (a = a) by reflexivity; injection Ei as <-; injection Ej as <-; lra.
Qed.
Lemma ex_mma_proper : proper_files ex_mma_nm ex_mma_files.
Proof.
  split; [exact ex_mma_proper_nm|split; [|split; [|split]]].
  - intros f [<-|[<-|[]]]; (split; [reflexivity|split; [(left; reflexivity) || (right; reflexivity)|split; [reflexivity|split; [reflexivity|]]]]);
      cbn [ex_mma_1 ex_mma_2 cv_coeff]; intros row I; repeat destruct I as [<-|I]; try reflexivity; destruct I.
  - split; [|exact I]. exists [0; 1], 2, 4, [5]. unfold file_times. cbn [ex_mma_1 ex_mma_2 cv_time map app]. rewrite !ex_raw_time.
    split; [reflexivity|split; [reflexivity|lra]].
  - rewrite ex_mma_times. exact (increasing_distinct _ ex_increasing).
  - rewrite ex_mma_times. cbn [length]. lia.
Qed.
(** between the files *)
Lemma ex_mma_value : mma_value ex_mma_nm ex_mma_files 1 (-1) 3 60.
Proof.
  left. exists 2, 40, 4, 80. rewrite ex_mma_times. split; [|split; [|split; [|split; [|split]]]].
  - exists ex_mma_1, 1%nat, 2%nat, (ex_raw 2), [4; 40]. repeat split; [now left|symmetry; apply ex_raw_time].
  - exists ex_mma_2, 1%nat, 0%nat, (ex_raw 4), [8; 80]. repeat split; [right; now left|symmetry; apply ex_raw_time].
  - exact (increasing_neighbours _ 2 2 4 ex_increasing eq_refl eq_refl).
  - left; lra.
  - left; lra.
  - unfold line. field.
Qed.

(** The second file begins at the last time of the first one. *)
Definition ex_touching : cdf_set := {|
  cv_epoch_type := true; cv_time := [ex_raw 2]; cv_nm := Nm_2d ex_mma_nm; cv_ncoeff := 2; cv_coeff := [[7; 70]] |}.
Lemma ex_touching_loaded : exists files td,
  load_coeff_mma_single_set files = Ok td /\ ~ distinct_times (all_times files).
Proof.
  exists [ex_mma_1; ex_touching]. unfold load_coeff_mma_single_set. rewrite mma_series_eq, (merged_ok ex_mma_nm ex_mma_1 [ex_touching]).
  - cbn [bind mma_nm mma_coeff mma_t].
    match goal with |- context [mk_time_dependent ?nm ?cs ?ts 2 None None ?g] => destruct (mk_time_dependent_ok nm cs ts None None g) as [td E] end.
    + discriminate.
    + reflexivity.
    + intros c [<-|[<-|[]]]; reflexivity.
    + discriminate.
    + rewrite E. exists td. split; [reflexivity|]. intro D.
      unfold all_times, file_times in D. cbn [flat_map ex_mma_1 ex_touching cv_time map app] in D. rewrite !ex_raw_time in D.
      destruct (D 2%nat 3%nat 2 2 ltac:(lia) eq_refl eq_refl) as [H|H]; exact (lt_irrefl _ H).
  - discriminate.
  - intros f [<-|[<-|[]]]; (split; [reflexivity|split; [left; reflexivity|split; [reflexivity|split; [reflexivity|]]]]);
      cbn [ex_mma_1 ex_touching cv_coeff]; intros row I; repeat destruct I as [<-|I]; try reflexivity; destruct I.
  - split; [|exact I]. exists [0; 1], 2, 2, []. unfold file_times. cbn [ex_mma_1 ex_touching cv_time map app]. rewrite !ex_raw_time.
    split; [reflexivity|split; [reflexivity|lra]].
Qed.
