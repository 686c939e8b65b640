(** The ranges of the degrees of the parsed WMM and IGRF files. *)

From Coq Require Import List ZArith Reals.
From Verif Require Import TextModel ShcModel WmmModel IgrfModel MioParseProofs.
Import ListNotations.

Lemma wmm_degrees to_int to_float file p : parse_wmm_file to_int to_float file = Parsed p ->
  In (wmm_degree_min p) (map fst (wmm_nm p)) /\ In (wmm_degree_max p) (map fst (wmm_nm p)) /\
  (forall n, In n (map fst (wmm_nm p)) -> wmm_degree_min p <= n <= wmm_degree_max p)%Z.
Proof.
  unfold parse_wmm_file. destruct file as [|line lines]; [discriminate|].
  destruct (parse_wmm_header _ line) as [[[epoch name] version]|e]; cbn [pbind]; [|discriminate].
  destruct (parse_wmm_coefficients _ _ epoch lines) as [[[nm gh] t]|e]; cbn [pbind]; [|discriminate].
  destruct (map fst nm) as [|n rest] eqn:E; [discriminate|]. intros H.
  pose proof (fold_min_max rest n) as F. cbv zeta in F. rewrite <- E in F.
  assert (E1 : wmm_nm p = nm /\ wmm_degree_min p = fold_left Z.min rest n /\ wmm_degree_max p = fold_left Z.max rest n)
    by (injection H as <-; auto).
  destruct E1 as (-> & -> & ->). exact F.
Qed.

Lemma igrf_degrees to_int to_float file p : parse_igrf_file to_int to_float file = Parsed p ->
  In (igrf_degree_min p) (map fst (igrf_nm p)) /\ In (igrf_degree_max p) (map fst (igrf_nm p)) /\
  (forall n, In n (map fst (igrf_nm p)) -> igrf_degree_min p <= n <= igrf_degree_max p)%Z.
Proof.
  unfold parse_igrf_file. destruct (strip_shc_comments file) as [|header [|times lines]]; [discriminate..|].
  destruct (parse_igrf_times _ times) as [t|e]; cbn [pbind]; [|discriminate].
  destruct (parse_igrf_coefficients _ _ lines) as [[nm gh]|e]; cbn [pbind]; [|discriminate].
  destruct (map fst nm) as [|n rest] eqn:E; [discriminate|]. intros H.
  pose proof (fold_min_max rest n) as F. cbv zeta in F. rewrite <- E in F.
  assert (E1 : igrf_nm p = nm /\ igrf_degree_min p = fold_left Z.min rest n /\ igrf_degree_max p = fold_left Z.max rest n)
    by (injection H as <-; auto).
  destruct E1 as (-> & -> & ->). exact F.
Qed.
