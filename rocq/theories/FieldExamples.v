(** Examples of the field of a SHC file. *)
From Coq Require Import List ZArith Reals Lia Lra.
From Coquelicot Require Import Coquelicot.
From Verif Require Import ShEvalSpec Ord ROrd RbarOrd TextModel ShcModel ShcSpec SparseSpec TimeModel ShcExamples WmmExamples ShcLoadModel ShcLoadSpec ShcLoadProofs ShcLoadExamples
  FieldModel FieldSpec.
Import ListNotations.
Open Scope R_scope.

(** In the middle between the columns of the file: g_10 = 2 and h_11 = 6 *)
Definition ex_gh (n m : nat) : R * R :=
  match n, m with 1%nat, 0%nat => (2, 0) | 1%nat, 1%nat => (0, 6) | _, _ => (0, 0) end.

Lemma ex_unlisted n m t : ~ In [n; m] [[1; 0]; [1; -1]]%Z -> shc_value false ex_load_shc n m t 0.
Proof. intro H. right. split; [cbn; lia|]. right. split; [exact H|reflexivity]. Qed.

Lemma ex_load_sine : shc_value false ex_load_shc 1 (-1) ex_load_time 6.
Proof.
  right. split; [cbn; lia|]. left. exists 2000, 7, 2010, 5.
  split; [exists 1%nat, [5; 7], 1%nat; now repeat split|]. split; [exists 1%nat, [5; 7], 0%nat; now repeat split|].
  split; [split; [lra|]; intros x [<-|[<-|[]]]; lra|].
  pose proof ex_load_order. unfold ex_load_time. split; [left; lra|split; [left; lra|]]. unfold InterpSpec.line. field. lra.
Qed.

Lemma ex_file_coefficients : file_coefficients false ex_load_shc (-1) (-1) ex_load_time ex_gh.
Proof.
  intros n m Hm. split; [|intro W; exfalso; apply W; unfold within_bounds; lia]. intros _.
  destruct n as [|[|n]].
  - replace m with 0%nat by lia. split; [apply ex_unlisted|lia]. intros [E|[E|[]]]; discriminate E.
  - destruct m as [|[|m]]; [| |lia]; (split; [|intro Pm]); try lia.
    + exact ex_load_value.
    + apply ex_unlisted. intros [E|[E|[]]]; discriminate E.
    + exact ex_load_sine.
  - cbn [ex_gh fst snd]. split; [|intro Pm]; apply ex_unlisted; intros [E|[E|[]]]; injection E; lia.
Qed.

Lemma ex_field_degrees : degrees_up_to ex_load_shc 1.
Proof. intros n m [E|[E|[]]]; injection E as <- <-; cbn; lia. Qed.

Lemma ex_field_valid : exists set, load_coeff_shc ex_int ex_real false None None ex_load_lines = Parsed set /\
  in_validity (shc_validity set) (Some ex_load_time) /\ ~ in_validity (shc_validity set) (Some (decimal_year_to_mjd2k 2010 + 1)) /\
  ~ in_validity (shc_validity set) None.
Proof.
  destruct ex_load_proper as [P T]. destruct (shc_load_values _ _ false None None _ _ ex_load_file P T) as (set & E & _). exists set. split; [exact E|].
  assert (Ha : start_year None ex_load_shc 2000) by (split; [right; now left|intros x [<-|[<-|[]]]; lra]).
  assert (Hb : end_year None ex_load_shc 2010) by (split; [now left|intros x [<-|[<-|[]]]; lra]).
  rewrite (shc_series_validity _ _ false None None _ _ 2000 2010 set ex_load_file P T ltac:(cbn; lia) Ha Hb E).
  pose proof ex_load_order. unfold in_validity. cbn [fst snd Rbar_le]. split; [|split].
  - exists ex_load_time. unfold ex_load_time. split; [reflexivity|]. split; lra.
  - intros (u & [= <-] & A & B). lra.
  - intros (u & K & _). discriminate K.
Qed.

Lemma ex_field_place : -90 <= 45 <= 90 /\ 1 / 10 ^ 10 <= cos (45 * (PI / 180)) /\ (7000 : R) <> 0.
Proof.
  split; [lra|]. split; [|lra]. replace (45 * (PI / 180)) with (PI / 4) by field. rewrite cos_PI4.
  assert (S : sqrt 2 <= 2) by (rewrite <- (sqrt_square 2) at 2 by lra; apply sqrt_le_1; lra).
  assert (Q : 0 < sqrt 2) by (apply sqrt_lt_R0; lra).
  assert (1 / 2 <= 1 / sqrt 2). { unfold Rdiv. rewrite !Rmult_1_l. apply Rinv_le_contravar; assumption. }
  lra.
Qed.

(** the expansion of the degree 2 at the pole *)
Lemma ex_at_pole : (1 <= 6 < 2 ^ 50)%Z /\ expansion_degree 6 (-1) 2 /\ -90 <= 90 <= 90 /\ cos (90 * (PI / 180)) = 0.
Proof.
  split; [lia|]. split; [exists 2%nat; split; [lia|reflexivity]|]. split; [lra|].
  replace (90 * (PI / 180)) with (PI / 2) by field. apply cos_PI2.
Qed.
