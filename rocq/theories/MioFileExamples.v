(** Examples of MIO files. *)

From Coq Require Import Bool List Ascii String NArith ZArith Reals Lia Lra.
From Verif Require Import Ord ROrd TextModel TextSpec TextProofs ShcModel ShcSpec ShcProofs ShcExamples MioParseModel MioParseSpec MioParseProofs.
Import ListNotations.
Open Scope list_scope.

Definition ex_real (s : text) : option R := option_map IZR (ex_int s).

(** two pairs of the degree and order, the seasonal degrees -1 and 0, the diurnal degrees 0 to 2 *)
Definition ex_mio_header_line : text := t_ "2 1 0 2 -1 0 10 290 110 2 # header".
Definition ex_mio_rows : list text :=
  [t_ "1 0  1 2 3 4 5 6  7 8 9 10 11 12"; t_ "2 -1 -1 2 -3 4 -5 6  -7 8 -9 10 -11 12";
   t_ "1 0  21 22 23 24 25 26  27 28 29 30 31 32"; t_ "2 -1 0 0 0 0 0 1  0 0 0 0 5 0"].
Definition ex_mio_file : list text := [t_ "# MIO"; t_ " "] ++ ex_mio_header_line :: ex_mio_rows.
Definition ex_mio_h : mio_header := {|
  mh_nmax := 2; mh_mmax := 1; mh_pmin := 0; mh_pmax := 2; mh_smin := -1; mh_smax := 0;
  mh_theta_ngp := 10; mh_phi_ngp := 290; mh_lat_ngp := 80; mh_lon_ngp := -70; mh_height := 110; mh_wolf_ratio := 2 |}.
Definition ex_mio_qs : list (list R) := map (map IZR) [[1; 2; 3; 4; 5; 6; 7; 8; 9; 10; 11; 12]; [-1; 2; -3; 4; -5; 6; -7; 8; -9; 10; -11; 12]]%Z.
Definition ex_mio_gh : list (list R) := map (map IZR) [[21; 22; 23; 24; 25; 26; 27; 28; 29; 30; 31; 32]; [0; 0; 0; 0; 0; 1; 0; 0; 0; 0; 5; 0]]%Z.
Definition ex_mio_nm : list (Z * Z) := [(1, 0); (2, -1)]%Z.

Lemma ex_mio_contents : mio_contents ex_int ex_real ex_mio_file ex_mio_h ex_mio_nm ex_mio_qs ex_mio_gh.
Proof.
  split; [|split; [|split; [|split; [|split; [|split]]]]].
  - exists [t_ "# MIO"; t_ " "], ex_mio_header_line, (before_hash ex_mio_header_line), (split (before_hash ex_mio_header_line)), ex_mio_rows.
    split; [reflexivity|]. split; [repeat constructor; apply comment_spec; reflexivity|].
    split; [now apply before_hash_spec|]. split; [now apply split_spec|]. split.
    + exists (t_ "2"), (t_ "1"), (t_ "0"), (t_ "2"), (t_ "-1"), (t_ "0"), (t_ "10"), (t_ "290"), (t_ "110"), (t_ "2"), [].
      split; [vm_compute; reflexivity|]. repeat split; reflexivity.
    + apply (next_row ex_int ex_real); [apply row_line; reflexivity|]. apply (next_row ex_int ex_real); [apply row_line; reflexivity|].
      apply (next_row ex_int ex_real); [apply row_line; reflexivity|]. apply (next_row ex_int ex_real); [apply row_line; reflexivity|].
      apply no_rows.
  - unfold mio_pole, ex_mio_h. cbn [mh_lat_ngp mh_lon_ngp mh_theta_ngp mh_phi_ngp]. split; [lra|]. split; [lra|]. exists (-1)%Z. lra.
  - discriminate.
  - reflexivity.
  - reflexivity.
  - cbn [ex_mio_h mh_smin mh_smax mh_pmin mh_pmax]. lia.
  - cbn [ex_mio_h mh_smin mh_smax mh_pmin mh_pmax]. intros v [<-|[<-|[<-|[<-|[]]]]]; reflexivity.
Qed.

(** three rows of the same degree and order *)
Definition ex_odd_file : list text := [t_ "1 0 0 0 0 0 10 290 110 2"; t_ "1 0 1 2"; t_ "1 0 3 4"; t_ "1 0 5 6"].
Lemma ex_odd : exists p, parse_mio_file ex_int ex_real ex_odd_file = Parsed p /\
  (mh_smin (mp_header p) <= mh_smax (mp_header p))%Z /\ (mh_pmin (mp_header p) <= mh_pmax (mp_header p))%Z /\
  ~ mio_file ex_int ex_real ex_odd_file p.
Proof.
  eexists {| mp_header := _; mp_nm := [[1; 0]]%Z;
             mp_qs := map (reshaped_item (map IZR [1; 2; 3; 4; 5; 6]%Z) 2) [0%nat];
             mp_gh := map (reshaped_item (map IZR [1; 2; 3; 4; 5; 6]%Z) 2) [1%nat; 2%nat]; mp_degree_min := 1; mp_degree_max := 1 |}.
  split.
  { assert (Eh : parse_mio_header ex_int ex_real (t_ "1 0 0 0 0 0 10 290 110 2") = Parsed {|
      mh_nmax := 1; mh_mmax := 0; mh_pmin := 0; mh_pmax := 0; mh_smin := 0; mh_smax := 0;
      mh_theta_ngp := 10; mh_phi_ngp := 290; mh_lat_ngp := (90 - 10)%R; mh_lon_ngp := (180 - py_mod (180 - 290) 360)%R; mh_height := 110; mh_wolf_ratio := 2 |}) by reflexivity.
    assert (Es : strip_shc_comments ex_odd_file = ex_odd_file) by (vm_compute; reflexivity).
    unfold parse_mio_file. rewrite Es. unfold ex_odd_file. cbv iota beta.
    rewrite Eh. cbn [pbind]. reflexivity. }
  cbn [mp_header mh_smin mh_smax mh_pmin mh_pmax]. split; [lia|split; [lia|]].
  intros (nm & qs & gh & C & En & Hq & Hg & _). destruct C as (_ & _ & _ & L1 & L2 & _).
  apply forall2_length in Hq, Hg. cbn [mp_qs mp_gh map List.length] in Hq, Hg. lia.
Qed.
