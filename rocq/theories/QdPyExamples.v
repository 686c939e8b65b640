(** Examples for the Python interface of the quasi-dipole library. *)

From Coq Require Import Bool List String Reals Arith ZArith Lia Lra.
From Coquelicot Require Import Coquelicot.
From Verif Require Import SunSpec QdTimeModel QdSunModel QdSunSpec QdSunProofs.
From Verif Require Import QdMltModel QdMltSpec QdMltProofs QdMltCacheProofs.
From Verif Require Import CoordSpec QdApexModel QdApexSpec QdApexProofs QdApexLoopProofs QdApexBaseProofs QdApexMainProofs QdApexExamples.
From Verif Require Import QdPyModel QdPySpec QdPyProofs.
Import ListNotations.
Open Scope string_scope.
Open Scope R_scope.

(** A one-dimensional array and a number *)
Definition vector {A} (l : list A) : ndarray A := {| nd_shape := [List.length l]; nd_values := l |}.
Definition scalar {A} (v : A) : ndarray A := {| nd_shape := []; nd_values := [v] |}.

Lemma vector_full : forall A (l : list A), full (vector l).
Proof. intros. unfold full, vector. cbn. lia. Qed.

(** Two points, the same file as of C84 *)
Definition two_lat := vector [0; 45].
Definition two_lon := vector [30; 60].
Definition two_rad := vector [7000; 6800].
Definition two_time := vector [Some 2000; Some 2000.001].

Lemma ex_inputs : inputs two_lat two_lon two_rad two_time /\ countable two_lat /\
  (forall i p, point_of two_lat two_lon two_rad two_time i p -> usual_point p).
Proof.
  split.
  { unfold inputs. repeat (split; [apply vector_full|]). unfold at_most_1d. cbn. auto. }
  split; [unfold countable; cbn; lia|].
  intros i p (H1 & H2 & H3 & H4). unfold element in *. cbn in *.
  destruct p as [t r la lo]. cbn in *.
  destruct i as [|[|i]]; cbn in *; [| |destruct i; discriminate];
    injection H1 as <-; injection H2 as <-; injection H3 as <-; injection H4 as <-; apply usual_place; lra.
Qed.

Lemma ex_two : forall any0 any junk junk_base,
  let fs := one_file "apexsh.txt" (centred_file 1) in
  exists qlat qlon vectors st',
    py_eval_qdlatlon any junk junk_base fs two_lat two_lon two_rad two_time "apexsh.txt" true (initial_apex any0)
      = Returns (Value (qlat, qlon, Some vectors), Some st') /\
    nd_shape qlat = [2%nat] /\ nd_shape qlon = [2%nat] /\ element qlat 0 0 /\
    exists qla qlo, element qlat 1 qla /\ element qlon 1 qlo.
Proof.
  intros any0 any junk junk_base fs. destruct ex_inputs as (I & C & U).
  destruct (py_coordinates fs any0 [] [] (initial_apex any0) any junk junk_base true "apexsh.txt" (centred_file 1)
    two_lat two_lon two_rad two_time eq_refl (one_file_self _ _) (small_well_formed 1 (centred 1) (le_n 1)) ltac:(cbn; lia) I C U)
    as (qlat & qlon & vectors & st' & E & (F1 & S1) & (F2 & S2) & H).
  exists qlat, qlon, vectors, st'. split; [exact E|].
  assert (S1' : nd_shape qlat = [2%nat]) by exact S1. assert (S2' : nd_shape qlon = [2%nat]) by exact S2.
  split; [exact S1'|]. split; [exact S2'|].
  unfold full in F1, F2. rewrite S1' in F1. rewrite S2' in F2. cbn in F1, F2.
  unfold element.
  destruct (nd_values qlat) as [|a0 [|a1 [|]]] eqn:E1; try discriminate.
  destruct (nd_values qlon) as [|o0 [|o1 [|]]] eqn:E2; try discriminate.
  split; [|exists a1, o1; split; reflexivity].
  destruct (calls_library any junk junk_base fs "apexsh.txt" _ true (initial_apex any0) two_lat two_lon two_rad two_time
    (one_file_self _ _) ltac:(cbn; lia) I C) as (ps & Lp & Np & _ & Hr).
  destruct (session_returns fs any0 [] [] (initial_apex any0) any true "apexsh.txt" (centred_file 1) ps eq_refl
      (one_file_self _ _) (small_well_formed 1 (centred 1) (le_n 1)) (usual_points _ _ _ _ _ Np U)) as (st2 & E3).
  destruct (Hr _ _ E3) as (qlat' & qlon' & v' & E4 & _ & _ & _ & V & _).
  assert (qlat' = qlat) by congruence. subst qlat'. rewrite E1 in V.
  destruct ps as [|p ps]; [discriminate|].
  assert (Hp : p = place 2000 7000 0 30).
  { destruct (proj1 (Np 0%nat p) eq_refl) as (P1 & P2 & P3 & P4). destruct p. unfold element in *. cbn in *.
    unfold place. congruence. }
  subst p. cbn [pure_loop] in V. unfold used at 1 in V. cbn [place t_dy] in V.
  destruct (Rlt_dec epoch_limit (Rabs (2000 - -9999.9))) as [L|L].
  2: { exfalso. apply L. rewrite Rabs_right by lra. unfold epoch_limit. lra. }
  unfold pure_point at 1 in V. cbn [place gclat gcrad gclon] in V. rewrite convrt4_equator in V.
  destruct (pure_out true (centred_file 1) 2000 0 30 (7000 - 6378.137)) as [[qa qo] b] eqn:EP.
  destruct (pure_pointed true (centred_file 1) _ _ _ _ _ _ _ (small_well_formed 1 (centred 1) (le_n 1)) EP) as (P & _).
  rewrite centred_vector in P. destruct (pointed_equator 1 30 qa qo ltac:(lra) P) as (Q1 & _).
  cbn [map fst snd] in V. injection V as -> _. rewrite Q1. reflexivity.
Qed.

Lemma ex_refused : forall any0 any junk junk_base,
  let fs := one_file "apexsh.txt" (centred_file 1) in
  py_eval_qdlatlon any junk junk_base fs two_lat two_lon two_rad two_time "missing.txt" true (initial_apex any0)
    = Returns (Raises IOError, None) /\
  py_eval_qdlatlon any junk junk_base fs two_lat (scalar 30) two_rad two_time "apexsh.txt" true (initial_apex any0)
    = Returns (Raises ValueError, None) /\
  py_eval_qdlatlon any junk junk_base fs two_lat (vector [0; 1; 2]) two_rad two_time "apexsh.txt" false (initial_apex any0)
    = Returns (Raises ValueError, None).
Proof.
  intros any0 any junk junk_base fs.
  split; [apply py_errors; reflexivity|].
  split; apply py_errors; cbn; try lia; try discriminate; right; right; right; right; left; discriminate.
Qed.

(** A number is returned for a number. *)
Lemma ex_subsol_mlt : forall b2 b3 b4 any junk, exists lat lon mlt saved',
  py_eval_subsol junk (scalar 0) = Returns (Value (scalar lat, scalar lon)) /\
  py_eval_mlt any junk (scalar 10) (scalar 0) (initial_magcof b2 b3 b4) = Returns (Value (scalar mlt), Some saved') /\
  exists c, dipole_coefficients (2000 + 0 / 365.25) c /\ magnetic_local_time (dipole_pole c) lat lon 10 mlt.
Proof.
  intros b2 b3 b4 any junk.
  assert (F : forall A (v : A), full (scalar v)) by (intros; reflexivity).
  assert (D : forall A (v : A), at_most_1d (scalar v)) by (intros; unfold at_most_1d; cbn; lia).
  assert (C : forall A (v : A), countable (scalar v)) by (intros; unfold countable; cbn; lia).
  destruct (py_mlt b2 b3 b4 [] [] (initial_magcof b2 b3 b4) any junk junk (scalar 10) (scalar 0) eq_refl
    (F _ _) (F _ _) (D _ _) eq_refl (C _ _)) as [_ H].
  assert (In0 : forall i t, element (scalar 0) i t -> -36525 <= t < 36890).
  { intros [|[|i]] t X; unfold element in X; cbn in X; try discriminate. injection X as <-. lra. }
  destruct (H In0) as (mlts & saved' & lat & lon & E1 & (F1 & S1) & E2 & G).
  destruct (py_subsol junk (scalar 0) (F _ _) (D _ _) (C _ _)) as [_ Hs].
  destruct Hs as (lat' & lon' & E3 & (F2 & S2) & (F3 & S3) & _).
  { intros i t X. specialize (In0 i t X). lra. }
  rewrite E2 in E3. injection E3 as <- <-.
  assert (X : forall A (a : ndarray A), full a -> nd_shape a = [] -> exists v, a = scalar v).
  { intros A [s l] Fa Sa. cbn in Sa. subst s. unfold full in Fa. cbn in Fa. destruct l as [|v [|]]; try discriminate. exists v. reflexivity. }
  destruct (X _ mlts F1 S1) as [mlt ->]. destruct (X _ lat F2 S2) as [la ->]. destruct (X _ lon F3 S3) as [lo ->].
  exists la, lo, mlt, saved'. split; [exact E2|]. split; [exact E1|].
  destruct (G 0%nat 10 0 la lo mlt) as (j & t' & c & Hj & Ht & _ & Hc & Hm); try reflexivity.
  assert (j = 0%nat) by lia. subst j. unfold element in Ht. cbn in Ht. injection Ht as <-.
  exists c. auto.
Qed.
