(** Malformed SHC files which are loaded. *)
From Coq Require Import Bool List Ascii String ZArith Reals Lra Lia.
From Verif Require Import Ord ROrd TextModel TextSpec TextProofs ShcModel ShcSpec ShcProofs ShcExamples WmmExamples SparseModel SparseSpec SeriesModel SeriesSpec
  ShcLoadModel ShcLoadSpec ShcLoadProofs ShcLoadExamples ShcColumnProofs.
Import ListNotations.
Open Scope list_scope.

(** one time and two columns *)
Definition ex_wide_lines : list text := [t_ "1 1 1 1 1"; t_ "2005"; t_ "1 0 40 50"; t_ "1 1 8 9"].
Definition ex_wide_shc : @shc_data R :=
  {| shc_head := {| h_degree_min := 1; h_degree_max := 1; h_ntime := 1; h_spline_order := 1; h_nstep := 1; h_validity := None |};
     shc_t := [2005]%R; shc_validity_start := None; shc_validity_end := None;
     shc_nm := [[1; 0]; [1; 1]]%Z; shc_gh := [[40; 50]; [8; 9]]%R |}.

(** one coefficient twice *)
Definition ex_twice_lines : list text := [t_ "1 1 1 1 1"; t_ "2005"; t_ "1 0 40"; t_ "1 0 8"].
Definition ex_twice_shc : @shc_data R :=
  {| shc_head := {| h_degree_min := 1; h_degree_max := 1; h_ntime := 1; h_spline_order := 1; h_nstep := 1; h_validity := None |};
     shc_t := [2005]%R; shc_validity_start := None; shc_validity_end := None;
     shc_nm := [[1; 0]; [1; 0]]%Z; shc_gh := [[40]; [8]]%R |}.

Lemma ex_wide_file : shc_file ex_int ex_real ex_wide_lines ex_wide_shc.
Proof.
  exists [], (t_ "1 1 1 1 1"), (t_ "1 1 1 1 1"), (t_ "2005"), [t_ "1 0 40 50"; t_ "1 1 8 9"].
  split; [reflexivity|]. split; [constructor|]. split; [apply before_hash_spec; reflexivity|].
  split. { exists [t_ "1"; t_ "1"; t_ "1"; t_ "1"; t_ "1"]. split; [fields_by_split|].
    exists (t_ "1"), (t_ "1"), (t_ "1"), (t_ "1"), (t_ "1"), []. repeat split. left. now split. }
  split. { exists [t_ "2005"]. split; [fields_by_split|]. repeat constructor. }
  split. { left. cbn. split; [lia|now split]. }
  split. { repeat constructor; [exists [t_ "1"; t_ "0"], [t_ "40"; t_ "50"]|exists [t_ "1"; t_ "1"], [t_ "8"; t_ "9"]];
    (split; [fields_by_split|split; [repeat constructor|split; [repeat constructor|left; reflexivity]]]). }
  split; apply as_array_spec; reflexivity.
Qed.

Lemma ex_twice_file : shc_file ex_int ex_real ex_twice_lines ex_twice_shc.
Proof.
  exists [], (t_ "1 1 1 1 1"), (t_ "1 1 1 1 1"), (t_ "2005"), [t_ "1 0 40"; t_ "1 0 8"].
  split; [reflexivity|]. split; [constructor|]. split; [apply before_hash_spec; reflexivity|].
  split. { exists [t_ "1"; t_ "1"; t_ "1"; t_ "1"; t_ "1"]. split; [fields_by_split|].
    exists (t_ "1"), (t_ "1"), (t_ "1"), (t_ "1"), (t_ "1"), []. repeat split. left. now split. }
  split. { exists [t_ "2005"]. split; [fields_by_split|]. repeat constructor. }
  split. { left. cbn. split; [lia|now split]. }
  split. { repeat constructor; [exists [t_ "1"; t_ "0"], [t_ "40"]|exists [t_ "1"; t_ "0"], [t_ "8"]];
    (split; [fields_by_split|split; [repeat constructor|split; [repeat constructor|left; reflexivity]]]). }
  split; apply as_array_spec; reflexivity.
Qed.

Lemma same_columns to_int to_float file d d' : shc_file to_int to_float file d -> shc_file to_int to_float file d' ->
  shc_t d = shc_t d' /\ shc_nm d = shc_nm d' /\ shc_gh d = shc_gh d'.
Proof.
  intros H H'. destruct (parse_complete _ _ _ _ H) as (a & P & _ & T & N & G). destruct (parse_complete _ _ _ _ H') as (b & P' & _ & T' & N' & G').
  rewrite P in P'. injection P' as <-. repeat split; congruence.
Qed.

Ltac load_concrete H :=
  destruct (parse_complete _ _ _ _ H) as (a & P & _ & T' & N' & G'); unfold load_coeff_shc; rewrite P; cbn [pbind];
  rewrite N', G', T'; eexists; cbn; reflexivity.

Lemma ex_wide_loaded : exists set, load_coeff_shc ex_int ex_real false None None ex_wide_lines = Parsed set.
Proof. load_concrete ex_wide_file. Qed.

Lemma ex_twice_loaded : exists set, load_coeff_shc ex_int ex_real false None None ex_twice_lines = Parsed set.
Proof. load_concrete ex_twice_file. Qed.

Lemma columns_refuted : ~ (forall to_int to_float years vstart vend file set,
  load_coeff_shc to_int to_float years vstart vend file = Parsed set ->
  exists d, shc_file to_int to_float file d /\ forall c, In c (shc_gh d) -> List.length c = List.length (shc_t d)).
Proof.
  intros H. destruct ex_wide_loaded as (set & L). destruct (H _ _ _ _ _ _ _ L) as (d & F & C).
  destruct (same_columns _ _ _ _ _ F ex_wide_file) as (T & _ & G). rewrite T, G in C. specialize (C _ (or_introl eq_refl)). discriminate.
Qed.

Lemma twice_refuted : ~ (forall to_int to_float years vstart vend file set,
  load_coeff_shc to_int to_float years vstart vend file = Parsed set ->
  exists d, shc_file to_int to_float file d /\
    forall i j row, nth_error (shc_nm d) i = Some row -> nth_error (shc_nm d) j = Some row -> i = j).
Proof.
  intros H. destruct ex_twice_loaded as (set & L). destruct (H _ _ _ _ _ _ _ L) as (d & F & C).
  destruct (same_columns _ _ _ _ _ F ex_twice_file) as (_ & N & _). rewrite N in C. specialize (C 0%nat 1%nat _ eq_refl eq_refl). discriminate.
Qed.
