(** Specification of the MIO files. *)

From Coq Require Import List Ascii ZArith Reals.
From Verif Require Import TextModel TextSpec ShcModel ShcSpec ShEvalModel FourierSpec MioParseModel.
Import ListNotations.

Section Spec.
Variables (to_int : text -> option Z) (to_float : text -> option R).

(** The header: six integers and four numbers; further fields are ignored. *)
Definition mio_header_fields (fs : list text) (h : mio_header) : Prop :=
  exists f0 f1 f2 f3 f4 f5 f6 f7 f8 f9 rest,
    fs = f0 :: f1 :: f2 :: f3 :: f4 :: f5 :: f6 :: f7 :: f8 :: f9 :: rest /\
    to_int f0 = Some (mh_nmax h) /\ to_int f1 = Some (mh_mmax h) /\
    to_int f2 = Some (mh_pmin h) /\ to_int f3 = Some (mh_pmax h) /\
    to_int f4 = Some (mh_smin h) /\ to_int f5 = Some (mh_smax h) /\
    to_float f6 = Some (mh_theta_ngp h) /\ to_float f7 = Some (mh_phi_ngp h) /\
    to_float f8 = Some (mh_height h) /\ to_float f9 = Some (mh_wolf_ratio h).

(** The latitude and the longitude of the pole: 90 degrees minus the colatitude; the longitude by a
    number of full turns, in the range above -180 up to 180 degrees *)
Definition mio_pole (h : mio_header) : Prop :=
  (mh_lat_ngp h = 90 - mh_theta_ngp h /\ -180 < mh_lon_ngp h <= 180 /\
   exists k : Z, mh_lon_ngp h = mh_phi_ngp h + 360 * IZR k)%R.

(** [values] are the pairs of the series, followed by anything *)
Definition pairs_of (values : list R) (c : coefs) : Prop :=
  forall j, (2 * j + 1 < length values)%nat -> c j = (nth (2 * j) values 0%R, nth (2 * j + 1) values 0%R).

(** The contents of a file: comments and blank lines, the header, the rows of the external coefficients
    [qs] and the rows of the internal coefficients [gh] for the same degrees and orders [nm].  A row has
    one pair of values for each of the seasonal and diurnal degrees. *)
Definition mio_contents (file : list text) (h : mio_header) (nm : list (Z * Z)) (qs gh : list (list R)) : Prop :=
  let indices := map (fun p => [fst p; snd p]) nm in
  (exists comments header hd fs rows,
    file = comments ++ header :: rows /\ Forall comment_line comments /\ without_comment header hd /\
    has_fields hd fs /\ mio_header_fields fs h /\
    rows_of to_int to_float rows (indices ++ indices) (qs ++ gh)) /\
  mio_pole h /\ nm <> [] /\ length qs = length nm /\ length gh = length nm /\
  (mh_smin h <= mh_smax h /\ mh_pmin h <= mh_pmax h)%Z /\
  (forall v, In v (qs ++ gh) ->
     Z.of_nat (length v) = (mh_smax h - mh_smin h + 1) * (mh_pmax h - mh_pmin h + 1) * 2)%Z.

(** The parsed data of a file *)
Definition mio_file (file : list text) (p : mio_parsed) : Prop :=
  exists nm qs gh,
    mio_contents file (mp_header p) nm qs gh /\
    mp_nm p = map (fun p => [fst p; snd p]) nm /\
    Forall2 pairs_of qs (mp_qs p) /\ Forall2 pairs_of gh (mp_gh p) /\
    In (mp_degree_min p) (map fst nm) /\ In (mp_degree_max p) (map fst nm) /\
    (forall n, In n (map fst nm) -> mp_degree_min p <= n <= mp_degree_max p)%Z.
End Spec.

(** The 2D Fourier series of a row: the sum over the seasonal degrees s and the diurnal degrees p of
    a cos(2 pi (s season + p hours / 24)) + b sin(2 pi (s season + p hours / 24)) *)
Definition mio_series_value (h : mio_header) (values : list R) (season hours : R) : R :=
  let ns := Z.to_nat (mh_smax h - mh_smin h + 1) in
  let np := Z.to_nat (mh_pmax h - mh_pmin h + 1) in
  fsum ns (fun i => fsum np (fun j =>
    let s := IZR (mh_smin h + Z.of_nat i) in
    let p := IZR (mh_pmin h + Z.of_nat j) in
    let arg := (2 * PI * (s * season + p * hours / 24))%R in
    let k := (2 * (i * np + j))%nat in
    (nth k values 0 * cos arg + nth (k + 1) values 0 * sin arg)%R)).
