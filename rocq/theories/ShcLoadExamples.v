(** Examples of the loading of SHC files. *)

From Coq Require Import Bool List Ascii String ZArith Reals Lra Lia.
From Verif Require Import Ord ROrd TextModel TextSpec TextProofs ShcModel ShcSpec ShcProofs ShcExamples WmmExamples SparseSpec InterpSpec SeriesSpec SeriesProofs SeriesLineProofs
  TimeModel ShcLoadModel ShcLoadSpec ShcLoadProofs.
Import ListNotations.
Open Scope list_scope.

Definition ex_load_lines : list text := [t_ "# an example"; t_ "1 2 2 1 1"; t_ "2010 2000"; t_ "1 0 3 1"; t_ "1 -1 5 7"].
Definition ex_load_shc : @shc_data R :=
  {| shc_head := {| h_degree_min := 1; h_degree_max := 2; h_ntime := 2; h_spline_order := 1; h_nstep := 1; h_validity := None |};
     shc_t := [2010; 2000]%R; shc_validity_start := Some 2000%R; shc_validity_end := Some 2010%R;
     shc_nm := [[1; 0]; [1; -1]]%Z; shc_gh := [[3; 1]; [5; 7]]%R |}.
Definition ex_static_lines : list text := [t_ "2 2 1 1 1"; t_ "2005"; t_ "1 0 40"; t_ "2 2 8"].
Definition ex_static_shc : @shc_data R :=
  {| shc_head := {| h_degree_min := 2; h_degree_max := 2; h_ntime := 1; h_spline_order := 1; h_nstep := 1; h_validity := None |};
     shc_t := [2005]%R; shc_validity_start := None; shc_validity_end := None;
     shc_nm := [[1; 0]; [2; 2]]%Z; shc_gh := [[40]; [8]]%R |}.

Lemma ex_load_file : shc_file ex_int ex_real ex_load_lines ex_load_shc.
Proof.
  exists [t_ "# an example"], (t_ "1 2 2 1 1"), (t_ "1 2 2 1 1"), (t_ "2010 2000"), [t_ "1 0 3 1"; t_ "1 -1 5 7"].
  split; [reflexivity|]. split; [repeat constructor; apply comment_spec; reflexivity|]. split; [apply before_hash_spec; reflexivity|].
  split. { exists [t_ "1"; t_ "2"; t_ "2"; t_ "1"; t_ "1"]. split; [fields_by_split|].
    exists (t_ "1"), (t_ "2"), (t_ "2"), (t_ "1"), (t_ "1"), []. repeat split. left. now split. }
  split. { exists [t_ "2010"; t_ "2000"]. split; [fields_by_split|]. repeat constructor. }
  split. { right. split; [cbn; lia|]. exists 2000%R, 2010%R. split; [reflexivity|split; [reflexivity|]].
    split; (split; [cbn; tauto|]); intros y [<-|[<-|[]]]; apply le_R; lra. }
  split. { repeat constructor; [exists [t_ "1"; t_ "0"], [t_ "3"; t_ "1"]|exists [t_ "1"; t_ "-1"], [t_ "5"; t_ "7"]];
    (split; [fields_by_split|split; [repeat constructor|split; [repeat constructor|left; reflexivity]]]). }
  split; apply as_array_spec; reflexivity.
Qed.
Lemma ex_static_file : shc_file ex_int ex_real ex_static_lines ex_static_shc.
Proof.
  exists [], (t_ "2 2 1 1 1"), (t_ "2 2 1 1 1"), (t_ "2005"), [t_ "1 0 40"; t_ "2 2 8"].
  split; [reflexivity|]. split; [constructor|]. split; [apply before_hash_spec; reflexivity|].
  split. { exists [t_ "2"; t_ "2"; t_ "1"; t_ "1"; t_ "1"]. split; [fields_by_split|].
    exists (t_ "2"), (t_ "2"), (t_ "1"), (t_ "1"), (t_ "1"), []. repeat split. left. now split. }
  split. { exists [t_ "2005"]. split; [fields_by_split|]. repeat constructor. }
  split. { left. cbn. split; [lia|now split]. }
  split. { repeat constructor; [exists [t_ "1"; t_ "0"], [t_ "40"]|exists [t_ "2"; t_ "2"], [t_ "8"]];
    (split; [fields_by_split|split; [repeat constructor|split; [repeat constructor|left; reflexivity]]]). }
  split; apply as_array_spec; reflexivity.
Qed.

Ltac two i := destruct i as [|[|i]]; cbn; try (destruct i); try discriminate.
Lemma ex_load_proper : proper_shc ex_load_shc /\ proper_times false (shc_t ex_load_shc).
Proof.
  split; [split; [discriminate|split; [|split]]|split; [discriminate|split]].
  - intros i row H. two i; cbn in H; try (destruct i); try discriminate; injection H as <-; do 2 eexists; (split; [reflexivity|]); unfold valid_nm; lia.
  - intros i j row Hi Hj. destruct i as [|[|i]], j as [|[|j]]; cbn in Hi, Hj; try (destruct i); try (destruct j); try discriminate; try reflexivity; congruence.
  - intros c [<-|[<-|[]]]; reflexivity.
  - intros i j a b N Hi Hj. destruct i as [|[|i]], j as [|[|j]]; cbn in Hi, Hj; try (destruct i; discriminate); try (destruct j; discriminate); try contradiction;
      rewrite !lt_R.
    + right. injection Hi as <-. injection Hj as <-. lra.
    + left. injection Hi as <-. injection Hj as <-. lra.
  - intros _ _ y [<-|[<-|[]]]; unfold regular_year; split; lra.
Qed.
Lemma ex_static_proper : proper_shc ex_static_shc /\ proper_times false (shc_t ex_static_shc).
Proof.
  split; [split; [discriminate|split; [|split]]|split; [discriminate|split]].
  - intros i row H. two i; cbn in H; try (destruct i); try discriminate; injection H as <-; do 2 eexists; (split; [reflexivity|]); unfold valid_nm; lia.
  - intros i j row Hi Hj. destruct i as [|[|i]], j as [|[|j]]; cbn in Hi, Hj; try (destruct i); try (destruct j); try discriminate; try reflexivity; congruence.
  - intros c [<-|[<-|[]]]; reflexivity.
  - intros i j a b N Hi Hj. destruct i as [|i], j as [|j]; cbn in Hi, Hj; try (destruct i; discriminate); try (destruct j; discriminate); contradiction.
  - intros _ L. cbn in L. lia.
Qed.

Open Scope R_scope.
Definition ex_load_time : R := (decimal_year_to_mjd2k 2000 + decimal_year_to_mjd2k 2010) / 2.
Lemma ex_load_order : decimal_year_to_mjd2k 2000 < decimal_year_to_mjd2k 2010.
Proof. apply year_increasing; unfold regular_year; try split; lra. Qed.

(** (1 + 3) / 2 in the middle *)
Lemma ex_load_value : shc_value false ex_load_shc 1 0 ex_load_time 2.
Proof.
  right. split; [cbn; lia|]. left. exists 2000, 1, 2010, 3.
  split; [exists 0%nat, [3; 1], 1%nat; now repeat split|]. split; [exists 0%nat, [3; 1], 0%nat; now repeat split|].
  split; [split; [lra|]; intros x [<-|[<-|[]]]; lra|].
  pose proof ex_load_order. unfold ex_load_time. split; [left; lra|split; [left; lra|]]. unfold line. field. lra.
Qed.

Lemma shc_spline_order_refuted : ~ (forall to_int to_float file d set t result n m ta ca tb,
  shc_file to_int to_float file d -> proper_shc d -> proper_times false (shc_t d) -> (2 <= List.length (shc_t d))%nat ->
  h_spline_order (shc_head d) = 1%Z -> load_coeff_shc to_int to_float false None None file = Parsed set ->
  shc_call set t (-1) (-1) = Some result -> valid_nm n m -> file_value d n m ta ca -> In tb (shc_t d) -> neighbours (shc_t d) ta tb ->
  decimal_year_to_mjd2k ta <= t < decimal_year_to_mjd2k tb -> coefficient result n m ca).
Proof.
  intro H. destruct ex_load_proper as [P T]. destruct (shc_values _ _ false None None _ _ ex_load_file P T) as (set & E & A).
  destruct (A ex_load_time (-1)%Z (-1)%Z) as (result & Er & B).
  assert (V : valid_nm 1 0) by (unfold valid_nm; lia).
  assert (W : within_bounds (-1) (-1) 1) by (unfold within_bounds; lia).
  pose proof (proj1 (B 1%Z 0%Z 2 V ex_load_value) W) as C1.
  pose proof ex_load_order as O.
  assert (C2 : coefficient result 1 0 1).
  { apply (H _ _ _ _ set ex_load_time result 1%Z 0%Z 2000 1 2010 ex_load_file P T); try assumption; try reflexivity.
    - exists 0%nat, [3; 1], 1%nat. now repeat split.
    - now left.
    - split; [lra|]. intros x [<-|[<-|[]]]; lra.
    - unfold ex_load_time. lra. }
  pose proof (coefficient_unique _ _ _ _ _ C1 C2). lra.
Qed.
