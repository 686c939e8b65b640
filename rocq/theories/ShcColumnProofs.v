(** Which SHC files are loaded. *)
From Coq Require Import List ZArith Reals Lia Bool Ascii.
From Coquelicot Require Import Rbar.
From Verif Require Import Ord ROrd RbarOrd TextModel ShcModel ShcSpec ShcProofs SparseModel SparseSpec SeriesModel YearSetModel TimeModel ShcLoadModel ShcLoadSpec
  ShcExamples WmmExamples ShcLoadExamples.
Import ListNotations.

Lemma index_pairs_rows nm p : index_pairs nm = Parsed p -> forall row, In row nm -> exists n m, row = [n; m].
Proof.
  revert p. induction nm as [|row nm IH]; intros p H row' I; [destruct I|].
  destruct row as [|n [|m [|x row]]]; cbn in H; try discriminate.
  destruct (index_pairs nm) as [q|e] eqn:E; [|discriminate]. destruct I as [<-|I]; [now exists n, m|]. now apply (IH q).
Qed.

Lemma first_column_rows gh p : first_column gh = Parsed p -> forall c, In c gh -> (1 <= length c)%nat.
Proof.
  unfold first_column. revert p. induction gh as [|c gh IH]; intros p H c' I; [destruct I|].
  destruct c as [|v c]; cbn in H; [discriminate|].
  destruct (pmap _ gh) as [q|e] eqn:E in H; [|discriminate]. destruct I as [<-|I]; [cbn; lia|]. now apply (IH q).
Qed.

Lemma mk_td_rows {T V} (O : TOrd T) nm (gh : list (list V)) times k vs ve f td : mk_time_dependent nm gh times k vs ve f = Some td ->
  nm <> [] /\ forall c, In c gh -> length c = length times.
Proof.
  unfold mk_time_dependent. destruct (_ && _) eqn:E; [|discriminate]. apply andb_true_iff in E as [E1 E2]. intros H. split.
  - intros ->. destruct gather as [[|? ?]|]; try discriminate; destruct all_some; try discriminate. 
  - intros c I. rewrite forallb_forall in E2. apply Nat.eqb_eq. now apply E2.
Qed.

Lemma loaded_files to_int to_float years vstart vend file set :
  load_coeff_shc to_int to_float years vstart vend file = Parsed set ->
  exists d, shc_file to_int to_float file d /\ shc_nm d <> [] /\ (forall row, In row (shc_nm d) -> exists n m, row = [n; m]) /\
    (forall c, In c (shc_gh d) -> (1 <= length c)%nat) /\
    (length (shc_t d) <> 1%nat -> forall c, In c (shc_gh d) -> length c = length (shc_t d)).
Proof.
  unfold load_coeff_shc. destruct (parse_shc_file to_int to_float file) as [d|e] eqn:P; cbn [pbind]; [|discriminate].
  destruct (index_pairs (shc_nm d)) as [nm|e] eqn:I; cbn [pbind]; [|discriminate]. intros H. exists d.
  split; [now apply parse_sound|]. 
  assert (L : nm <> [] -> shc_nm d <> []) by (intros N E; rewrite E in I; injection I as <-; now apply N).
  split; [|split; [now apply (index_pairs_rows _ nm)|]].
  - apply L. destruct (Nat.eqb_spec (length (shc_t d)) 1) as [E|E].
    + destruct (first_column (shc_gh d)); cbn [pbind] in H; [|discriminate]. destruct (mk_constant _ _ _ _ _) eqn:M in H; [|discriminate].
      unfold mk_constant in M. now apply mk_td_rows in M.
    + destruct years.
      * destruct (mk_year_set _ _ _ _ _ _ _) eqn:M in H; [|discriminate]. unfold mk_year_set in M.
        destruct (mk_time_dependent _ _ _ _ _ _ _) eqn:M' in M; [|discriminate]. now apply mk_td_rows in M'.
      * destruct (mk_time_dependent _ _ _ _ _ _ _) eqn:M in H; [|discriminate]. now apply mk_td_rows in M.
  - destruct (Nat.eqb_spec (length (shc_t d)) 1) as [E|E].
    + destruct (first_column (shc_gh d)) eqn:F; cbn [pbind] in H; [|discriminate]. split; [now apply (first_column_rows _ a)|easy].
    + assert (A : forall c, In c (shc_gh d) -> length c = length (shc_t d)).
      { destruct years.
        * destruct (mk_year_set _ _ _ _ _ _ _) eqn:M in H; [|discriminate]. unfold mk_year_set in M.
          destruct (mk_time_dependent _ _ _ _ _ _ _) eqn:M' in M; [|discriminate]. now apply mk_td_rows in M'.
        * destruct (mk_time_dependent _ _ _ _ _ _ _) eqn:M in H; [|discriminate]. now apply mk_td_rows in M. }
      split; [|now intros _]. intros c C. rewrite (A c C).
      assert (length (shc_t d) <> 0%nat); [|lia]. intros Z. apply length_zero_iff_nil in Z. rewrite Z in H.
      destruct years; unfold mk_year_set, mk_time_dependent in H; destruct (_ && _) in H; try discriminate; cbn in H;
        destruct (all_some _) in H; discriminate.
Qed.
