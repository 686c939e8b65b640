(** Examples of the field of composed and combined SHC files. *)
From Coq Require Import List Ascii String ZArith Reals Lia Lra.
From Coquelicot Require Import Coquelicot.
From Verif Require Import Ord ROrd RbarOrd TextModel TextSpec TextProofs SparseSpec TimeModel ShcModel ShcSpec ShcProofs ShcExamples WmmExamples ShcLoadModel ShcLoadSpec ShcLoadProofs
  ShcLoadExamples FieldModel FieldSpec FieldExamples CompFieldSpec.
Import ListNotations.
Open Scope list_scope.

(** A static file with other coefficients than those of the example of C98 *)
Definition ex_crust_lines : list text := [t_ "2 2 1 1 1"; t_ "2005"; t_ "2 0 9"; t_ "2 2 8"].
Definition ex_crust_shc : @shc_data R :=
  {| shc_head := {| h_degree_min := 2; h_degree_max := 2; h_ntime := 1; h_spline_order := 1; h_nstep := 1; h_validity := None |};
     shc_t := [2005]%R; shc_validity_start := None; shc_validity_end := None;
     shc_nm := [[2; 0]; [2; 2]]%Z; shc_gh := [[9]; [8]]%R |}.
Lemma ex_crust_file : shc_file ex_int ex_real ex_crust_lines ex_crust_shc.
Proof.
  exists [], (t_ "2 2 1 1 1"), (t_ "2 2 1 1 1"), (t_ "2005"), [t_ "2 0 9"; t_ "2 2 8"].
  split; [reflexivity|]. split; [constructor|]. split; [apply before_hash_spec; reflexivity|].
  split. { exists [t_ "2"; t_ "2"; t_ "1"; t_ "1"; t_ "1"]. split; [fields_by_split|].
    exists (t_ "2"), (t_ "2"), (t_ "1"), (t_ "1"), (t_ "1"), []. repeat split. left. now split. }
  split. { exists [t_ "2005"]. split; [fields_by_split|]. repeat constructor. }
  split. { left. cbn. split; [lia|now split]. }
  split. { repeat constructor; [exists [t_ "2"; t_ "0"], [t_ "9"]|exists [t_ "2"; t_ "2"], [t_ "8"]];
    (split; [fields_by_split|split; [repeat constructor|split; [repeat constructor|left; reflexivity]]]). }
  split; apply as_array_spec; reflexivity.
Qed.
Lemma ex_crust_proper : proper_shc ex_crust_shc /\ proper_times false (shc_t ex_crust_shc).
Proof.
  split; [split; [discriminate|split; [|split]]|split; [discriminate|split]].
  - intros i row H. two i; cbn in H; try (destruct i); try discriminate; injection H as <-; do 2 eexists; (split; [reflexivity|]); unfold valid_nm; lia.
  - intros i j row Hi Hj. destruct i as [|[|i]], j as [|[|j]]; cbn in Hi, Hj; try (destruct i); try (destruct j); try discriminate; try reflexivity; congruence.
  - intros c [<-|[<-|[]]]; reflexivity.
  - intros i j a b N Hi Hj. destruct i as [|i], j as [|j]; cbn in Hi, Hj; try (destruct i; discriminate); try (destruct j; discriminate); contradiction.
  - intros _ L. cbn in L. lia.
Qed.

Open Scope R_scope.
Lemma ex_comp_files : Forall2 (shc_file ex_int ex_real) [ex_load_lines; ex_crust_lines] [ex_load_shc; ex_crust_shc] /\
  List.Forall proper_shc [ex_load_shc; ex_crust_shc] /\ List.Forall (fun d => proper_times false (shc_t d)) [ex_load_shc; ex_crust_shc] /\
  List.Forall (fun d => degrees_up_to d 2) [ex_load_shc; ex_crust_shc] /\ disjoint_files [ex_load_shc; ex_crust_shc].
Proof.
  split; [|split; [|split; [|split]]].
  - constructor; [exact ex_load_file|constructor; [exact ex_crust_file|constructor]].
  - constructor; [apply ex_load_proper|constructor; [apply ex_crust_proper|constructor]].
  - constructor; [apply ex_load_proper|constructor; [apply ex_crust_proper|constructor]].
  - constructor; [|constructor; [|constructor]]; intros n m [E|[E|[]]]; injection E as <- <-; cbn; lia.
  - intros i j a b n m Hi Hj Ha Hb. destruct i as [|[|i]], j as [|[|j]]; cbn in Hi, Hj; try (destruct i); try (destruct j); try discriminate; try reflexivity; exfalso;
      injection Hi as <-; injection Hj as <-; destruct Ha as [Ea|[Ea|[]]], Hb as [Eb|[Eb|[]]]; congruence.
Qed.

(** Both files are valid at the time in the middle of the first one: a single time takes the first file, an array of times the last one. *)
Lemma ex_comp_chosen : exists sets, pmap (load_coeff_shc ex_int ex_real false None None) [ex_load_lines; ex_crust_lines] = Parsed sets /\
  (forall s, In s sets -> Rbar_lt (fst (shc_validity s)) (snd (shc_validity s))) /\
  chosen true (map shc_validity sets) (Some ex_load_time) 0 /\ chosen false (map shc_validity sets) (Some ex_load_time) 1 /\
  in_validity (combined_shc_validity sets) (Some ex_load_time) /\ ~ in_validity (combined_shc_validity sets) (Some (decimal_year_to_mjd2k 2010 + 1)).
Proof.
  destruct ex_load_proper as [P T], ex_crust_proper as [P2 T2].
  destruct (shc_load_values _ _ false None None _ _ ex_load_file P T) as (s1 & E1 & _).
  destruct (shc_load_values _ _ false None None _ _ ex_crust_file P2 T2) as (s2 & E2 & _).
  exists [s1; s2]. split; [cbn [pmap]; rewrite E1; cbn [pbind]; rewrite E2; reflexivity|].
  assert (Ha : start_year None ex_load_shc 2000) by (split; [right; now left|intros x [<-|[<-|[]]]; lra]).
  assert (Hb : end_year None ex_load_shc 2010) by (split; [now left|intros x [<-|[<-|[]]]; lra]).
  pose proof (shc_series_validity _ _ false None None _ _ 2000 2010 s1 ex_load_file P T ltac:(cbn; lia) Ha Hb E1) as V1.
  pose proof (shc_constant_validity _ _ false None None _ _ s2 ex_crust_file P2 eq_refl E2) as V2. cbn [ex_crust_shc shc_head h_validity option_map bound] in V2.
  pose proof ex_load_order as O.
  assert (I1 : in_validity (shc_validity s1) (Some ex_load_time)).
  { rewrite V1. exists ex_load_time. unfold ex_load_time. cbn [fst snd Rbar_le]. split; [reflexivity|]. split; lra. }
  assert (I2 : in_validity (shc_validity s2) (Some ex_load_time)).
  { rewrite V2. exists ex_load_time. split; [reflexivity|]. split; exact I. }
  assert (Vs : map shc_validity [s1; s2] = [shc_validity s1; shc_validity s2]) by reflexivity.
  split; [|split; [|split; [|split]]].
  - intros s [<-|[<-|[]]]; [rewrite V1|rewrite V2]; cbn [fst snd Rbar_lt]; [lra|exact I].
  - rewrite Vs. split; [exists (shc_validity s1); now split|]. intros. cbn. lia.
  - rewrite Vs. split; [exists (shc_validity s2); now split|]. intros [|[|j]] v H _; cbn; try lia. destruct j; discriminate.
  - assert (K : forall a b : Rbar, Rbar_le a b -> le a b).
    { intros [a| |] [b| |] H; try exact (proj2 (le_Rbar_finite a b) H); apply leb_le; try reflexivity; destruct H. }
    assert (K' : forall a b : Rbar, le a b -> Rbar_le a b).
    { intros [a| |] [b| |] H; try exact (proj1 (le_Rbar_finite a b) H); try exact I; try (apply leb_le in H; discriminate H). }
    exists ex_load_time. split; [reflexivity|].
    destruct (proj2 (combined_validity [s1; s2] (Finite ex_load_time))) as [A B]; [|split; now apply K'].
    destruct I1 as (u1 & [= <-] & A1 & B1), I2 as (u2 & [= <-] & A2 & B2). intros s [<-|[<-|[]]]; split; now apply K.
  - intros (u & [= <-] & A & B).
    assert (K : forall a b : Rbar, Rbar_le a b -> le a b).
    { intros [a| |] [b| |] H; try exact (proj2 (le_Rbar_finite a b) H); apply leb_le; try reflexivity; destruct H. }
    destruct (proj1 (combined_validity [s1; s2] (Finite (decimal_year_to_mjd2k 2010 + 1))) (conj (K _ _ A) (K _ _ B)) s1 (or_introl eq_refl)) as [_ B1].
    rewrite V1 in B1. cbn [snd] in B1. apply le_Rbar_finite in B1. lra.
Qed.

(** The sum of the coefficients *)
Lemma ex_comp_value : sum_value false [ex_load_shc; ex_crust_shc] ex_load_time 1 0 2 /\ sum_value false [ex_load_shc; ex_crust_shc] ex_load_time 2 2 8.
Proof.
  split; eexists; (split; [constructor; [|constructor; [|constructor]]|]).
  - exact ex_load_value.
  - left. split; [reflexivity|]. right. split; [|reflexivity]. intros [E|[E|[]]]; discriminate E.
  - cbn [fold_right]. ring.
  - apply ex_unlisted. intros [E|[E|[]]]; discriminate E.
  - left. split; [reflexivity|]. left. exists 2005, 1%nat, [8], 0%nat. now repeat split.
  - cbn [fold_right]. ring.
Qed.
