(** Proofs about the field of the MIO models. *)
From Coq Require Import Bool List Arith ZArith Reals Lia Lra.
From Coquelicot Require Import Coquelicot.
From Verif Require Import Ord CoefModel ArrModel LegendreModel LegendreSpec GeoModel ShEvalModel ShEvalSpec ShEvalProofs ShEvalExamples ShEvalLinProofs SparseSpec FourierModel FourierSpec FourierProofs
  CoordModel CoordSpec FrameProofs ShFrameProofs ComposedModel ComposedSpec TextModel MioModel MioSpec MioProofs MioLoadModel MioLoadProofs MioParseModel MioParseSpec MioParseProofs MioFileProofs
  FieldSpec GradientProofs FieldProofs MmaFieldSpec PositionProofs MmaFieldProofs CoordFieldSpec MioFieldSpec.
Import ListNotations.
Open Scope R_scope.
Set Bullet Behavior "Strict Subproofs".

Section Element.
Context {T : Type} {OT : TOrd T}.

(** the model [m] has the series of the rows *)
Definition has_rows (m : @mio T) (h : mio_header) (nm : list (Z * Z)) (rows : list (list R)) (factor : Z -> R) (internal : bool)
  (year_fraction : T -> R) (subsol : T -> R * R) (validity : T * T) : Prop :=
  mio_north_pole m = (mh_lat_ngp h, mh_lon_ngp h) /\ mio_wolf_ratio m = mh_wolf_ratio h /\ mio_internal m = internal /\
  mio_validity m = validity /\ mio_year_fraction m = year_fraction /\ mio_subsol m = subsol /\
  fs_nm (mio_set m) = nm /\ length (fs_ab (mio_set m)) = length nm /\
  (forall k n o row, nth_error nm k = Some (n, o) -> nth_error rows k = Some row -> exists ab, nth_error (fs_ab (mio_set m)) k = Some ab /\
    forall season hours, series_value (mio_set m) ab season hours = factor n * mio_series_value h row season hours) /\
  fs_size1 (mio_set m) = Z.to_nat (mh_smax h - mh_smin h + 1) /\ fs_size2 (mio_set m) = Z.to_nat (mh_pmax h - mh_pmin h + 1) /\
  fs_min1 (mio_set m) = mh_smin h /\ fs_min2 (mio_set m) = mh_pmin h.

Lemma rows_distinct m h nm rows factor internal yf ss v N : has_rows m h nm rows factor internal yf ss v -> proper_nm nm N -> proper_bounds h ->
  distinct_series (mio_set m) (Z.of_nat N).
Proof.
  intros (_ & _ & _ & _ & _ & _ & En & El & _ & S1 & S2 & M1 & M2) (P1 & P2 & P3 & P4) B. unfold distinct_series, usable_2dfs. rewrite En, S1, S2, M1, M2.
  split; [|split; [|split]].
  - split; [exact El|]. split; [intros n o I; exact (proj1 (P1 n o I))|exact B].
  - intros i j p Hi Hj. assert (Li : (i < length nm)%nat) by (apply nth_error_Some; congruence). apply (NoDup_nth_error nm); [exact P2|exact Li|congruence].
  - split; [intros n o I; exact (proj2 (P1 n o I))|right; exact P3].
  - exact P4.
Qed.

Lemma element_field m h nm rows factor internal yf ss v N t x ci co s f107 lat_sol lon_sol o :
  has_rows m h nm rows factor internal yf ss v -> proper_nm nm N -> length rows = length nm ->
  mio_element m (Z.of_nat N) t x ci co s f107 lat_sol lon_sol o ->
  mio_field v h internal (row_coefficient h nm rows factor) yf ss N t x ci co s f107 lat_sol lon_sol o.
Proof.
  intros (Ep & Ew & Ei & Ev & Ey & Es & En & El & Hs & _) (P1 & P2 & P3 & P4) Lr He. unfold mio_field. cbv zeta. split.
  - intros [->|H]; [destruct t; exact He|]. destruct t as [u|].
    + destruct f107 as [[f|]|]; [|exact He|]; apply (proj1 He); rewrite Ev; intro K; apply H; now exists u.
    + destruct f107 as [[f|]|]; exact He.
  - intros u f lat lon gh d0 d1 d2 -> V Hf Hsun U Pd Tb.
    assert (He' : exists c w lat lon csize,
         match lat_sol, lon_sol with
         | Some a, Some b => lat = a /\ lon = b
         | _, _ => (lat, lon) = mio_subsol m u
         end /\
         series_at (mio_set m) (mio_year_fraction m u)
           (magnetic_universal_time (fst (mio_north_pole m)) (snd (mio_north_pole m)) lat lon) c /\
         (2 * csize = (Z.of_nat N + 1) * (Z.of_nat N + 2))%Z /\
         (forall mem, sheval_dipole x csize c (fst (mio_north_pole m)) (snd (mio_north_pole m)) ci co SM_GRADIENT
            (mio_internal m) (-1) 1 (match s with Some s => s | None => (1, 1, 1) end) mem = Ok (None, Some w)) /\
         o = Some (scale (- (1 + mio_wolf_ratio m * f)) w)).
    { unfold mio_element in He. rewrite Ev in He. destruct Hf as [->|[-> ->]]; destruct He as [_ He].
      - exact (He V).
      - destruct (He V) as (c & w & la & lo & cs & A & B & C & D & ->). exists c, w, la, lo, cs. repeat (split; [assumption|]).
        f_equal. f_equal. ring. }
    clear He. destruct He' as (c & w & lat' & lon' & csize & Hsun' & Hser & Hcs & Hw & ->). rewrite Ep, Ei, Ey, Es in *. cbn [fst snd] in *.
    assert (lat' = lat /\ lon' = lon) as [-> ->] by (destruct lat_sol, lon_sol; [destruct Hsun, Hsun'; split; congruence|split; congruence..]).
    assert (Cs : (1 <= csize < 2 ^ 50)%Z) by (destruct (degree_csize (Z.of_nat N)) as (cs & E & B); lia).
    assert (Ex : expansion_degree csize (-1) N) by (exists N; split; [nia|reflexivity]).
    assert (Inf : forall n : nat, within_bounds (-1) (-1) (Z.of_nat n)) by (intro n; unfold within_bounds; lia).
    (* the coefficients *)
    assert (Val : forall n o v', valid_nm n o -> row_coefficient h nm rows factor (yf u) (magnetic_universal_time (mh_lat_ngp h) (mh_lon_ngp h) lat lon) n o v' -> coef_nm c n o = v').
    { intros n o v' Vn [(k & row & Hk & Hr & ->)|[Ni ->]].
      - destruct (Hs k n o row Hk Hr) as (ab & Hab & E). rewrite <- E. apply (proj1 Hser k); [rewrite En; exact Hk|exact Hab].
      - apply (proj2 Hser); [exact Vn|rewrite En; exact Ni]. }
    assert (Row : forall n o, (o <= n)%nat -> (n <= N)%nat -> fst (c (n * (n + 1) / 2 + o)%nat) = fst (gh n o) /\ ((0 < o)%nat -> snd (c (n * (n + 1) / 2 + o)%nat) = snd (gh n o))).
    { intros n o Ho _. destruct (Tb n o Ho) as [T1 _]. destruct (T1 (Inf n)) as [A1 A2].
      destruct (coef_row c n o) as [C1 C2]. change (n * (n + 1) / 2 + o)%nat with (nm_index n o). split.
      - rewrite <- C1. apply Val; [unfold valid_nm; lia|exact A1].
      - intro Po. rewrite <- (C2 Po). apply Val; [unfold valid_nm; lia|exact (A2 Po)]. }
    assert (Zero : forall n o v', (Z.of_nat N < n)%Z -> row_coefficient h nm rows factor (yf u) (magnetic_universal_time (mh_lat_ngp h) (mh_lon_ngp h) lat lon) n o v' -> v' = 0).
    { intros n o v' Ln [(k & row & Hk & _ & _)|[_ ->]]; [|reflexivity]. apply nth_error_In in Hk. apply P1 in Hk as [_ Hk]. lia. }
    assert (Above : forall n o, (o <= n)%nat -> (N < n)%nat -> fst (gh n o) = 0 /\ ((0 < o)%nat -> snd (gh n o) = 0)).
    { intros n o Ho Ln. destruct (Tb n o Ho) as [T1 _]. destruct (T1 (Inf n)) as [A1 A2].
      split; [|intro Po]; (eapply Zero; [|first [exact A1|exact (A2 Po)]]); lia. }
    set (mem := ((((((fun _ => 0), (fun _ => 0)), (fun _ => (0, 0))), (fun _ => 0)), (fun _ => 0)), (fun _ => 0)) : arr * arr * coefs * arr * arr * arr).
    destruct (dipole_coordinates x _ _ ci (d0, d1, d2) U Pd) as [U' P'].
    specialize (Hw mem). unfold sheval_dipole in Hw. cbv zeta in Hw. unfold vec in *.
    destruct (convert_to_dipole x (mh_lat_ngp h) (mh_lon_ngp h) ci) as [[e0 e1] e2].
    destruct (sheval_field csize (-1) N c internal e0 e1 e2 mem Cs Ex (proj1 U') ltac:(pose proof (proj2 U'); lra)) as (north & east & up & Eg & Mg).
    apply (field_of_ext internal _ gh N N e0 e1 e2 _ Row Above Above) in Mg.
    destruct (field_exists internal gh N d0 d1 d2 (proj1 U) ltac:(pose proof (proj2 U); lra)) as [g Gg].
    change {| dims := []; get := fun _ : list nat => (e0, e1, e2) |} with (nd0 (e0, e1, e2)) in Hw.
    change {| dims := []; get := fun _ : list nat => c |} with (nd0 c) in Hw. unfold vec in *.
    match type of Hw with bind ?e _ = _ => assert (E' : e = Ok ([], [(None, Some (north, east, up))])) by exact Eg; rewrite E' in Hw end.
    cbn [bind snd] in Hw.
    assert (Hw2 : vmul (rotate_vectors_from_dipole (north, east, up) (mh_lat_ngp h) (mh_lon_ngp h) (e0, e1, e2) x ci co)
      (match s with Some s => s | None => (1, 1, 1) end) = w) by (injection Hw as Hw; exact Hw).
    exists g, (rotate_vectors_from_dipole (scale (- (1)) (north, east, up)) (mh_lat_ngp h) (mh_lon_ngp h) (e0, e1, e2) x ci co).
    split; [exact Gg|]. split.
    + rewrite rotated_in_space. f_equal. rewrite <- (field_position internal gh N _ _ _ _ _ _ _ _ U' U P' Mg Gg).
      f_equal. cbn [scale]. apply triple; ring.
    + rewrite <- Hw2, Ew, rotate_smul. f_equal. clear. destruct (rotate_vectors_from_dipole (north, east, up) _ _ _ _ _ _) as [[w0 w1] w2].
      destruct s as [[[s0 s1] s2]|]; cbn [vmul scale scaled]; apply triple; ring.
Qed.
End Element.

Section Load.
Context {T : Type} {OT : TOrd T}.
Variables (to_int : text -> option Z) (to_float : text -> option R).
Variables (year_fraction : T -> R) (subsol : T -> R * R) (validity : T * T).

Definition file_set (m : @mio T) (h : mio_header) : Prop :=
  mio_validity m = validity /\ mio_year_fraction m = year_fraction /\ mio_subsol m = subsol /\
  fs_size1 (mio_set m) = Z.to_nat (mh_smax h - mh_smin h + 1) /\ fs_size2 (mio_set m) = Z.to_nat (mh_pmax h - mh_pmin h + 1) /\
  fs_min1 (mio_set m) = mh_smin h /\ fs_min2 (mio_set m) = mh_pmin h.

Lemma bounds_false h : (mh_smin h <= mh_smax h)%Z -> (mh_pmin h <= mh_pmax h)%Z -> (mh_pmax h <? mh_pmin h)%Z || (mh_smax h <? mh_smin h)%Z = false.
Proof. intros Hs Hp. rewrite (proj2 (Z.ltb_ge _ _) Hs), (proj2 (Z.ltb_ge _ _) Hp). reflexivity. Qed.

Lemma internal_set file h nm qs gh m : mio_contents to_int to_float file h nm qs gh ->
  load_internal_file to_int to_float year_fraction subsol validity file = Parsed m -> file_set m h.
Proof.
  intros C E. destruct (mio_complete _ _ _ _ _ _ _ C) as (p & Ep & Eh & En & _). destruct C as (_ & _ & _ & _ & _ & [Hs Hp] & _).
  unfold load_internal_file in E. rewrite Ep in E. cbn [pbind] in E. unfold mio_data_of in E. rewrite En, nm_pairs_map in E. cbv zeta in E. rewrite Eh in E.
  unfold load_internal, mio_series in E. cbn [d_gh d_pmax d_pmin d_smax d_smin] in E. rewrite (bounds_false h Hs Hp) in E. cbn [bind] in E.
  injection E as <-. repeat split.
Qed.

Lemma external_set file h nm qs gh below above height : mio_contents to_int to_float file h nm qs gh ->
  load_external_file to_int to_float year_fraction subsol validity file = Parsed (below, above, height) -> file_set below h /\ file_set above h.
Proof.
  intros C E. destruct (mio_complete _ _ _ _ _ _ _ C) as (p & Ep & Eh & En & _). destruct C as (_ & _ & _ & _ & _ & [Hs Hp] & _).
  unfold load_external_file in E. rewrite Ep in E. cbn [pbind] in E. unfold mio_data_of in E. rewrite En, nm_pairs_map in E. cbv zeta in E. rewrite Eh in E.
  unfold load_external, get_coeff_external in E. cbn [d_qs d_pmax d_pmin d_smax d_smin d_nm d_height d_degree_max] in E.
  destruct (convert_external_mio_coeff _ _ _ _) as [l|e]; unfold mio_series in E; cbn [d_pmax d_pmin d_smax d_smin bind] in E;
    rewrite (bounds_false h Hs Hp) in E; cbn [bind] in E; [injection E as <- <- <-; repeat split|destruct e; discriminate].
Qed.

Lemma internal_field file h nm qs gh (N : nat) : mio_contents to_int to_float file h nm qs gh -> proper_nm nm N -> proper_bounds h ->
  exists m, load_internal_file to_int to_float year_fraction subsol validity file = Parsed m /\
  forall time location ci co s f107 lat_sol lon_sol mem,
  prefix (dims time) (dims location) -> option_fits f107 (dims location) -> option_fits lat_sol (dims location) -> option_fits lon_sol (dims location) ->
  ~ f107_without_times f107 time ->
  exists r, mio_eval m time location ci co s f107 lat_sol lon_sol mem = Ok r /\ dims r = dims location /\
    forall ix, In ix (indices (dims location)) ->
      mio_field validity h true (row_coefficient h nm gh (fun _ => 1)) year_fraction subsol N
        (at_index time ix) (get location ix) ci co s (option_at f107 ix) (option_at lat_sol ix) (option_at lon_sol ix) (get r ix).
Proof.
  intros C P B. destruct (internal_file to_int to_float year_fraction subsol validity file h nm qs gh C) as (m & E & M1 & M2 & M3 & M4 & M5 & M6 & M7).
  exists m. split; [exact E|]. intros time location ci co s f107 lat_sol lon_sol mem A1 A2 A3 A4 A5.
  destruct (internal_set file h nm qs gh m C E) as (_ & S1 & S2 & S3 & S4 & S5 & S6).
  assert (R : has_rows m h nm gh (fun _ => 1) true year_fraction subsol validity).
  { repeat (split; [assumption|]). split; [|repeat (split; [assumption|]); assumption].
    intros k n o row _ Hr. destruct (M7 k row Hr) as (ab & Hab & V). exists ab. split; [exact Hab|]. intros. now rewrite Rmult_1_l. }
  destruct (mio_value m (Z.of_nat N) time location ci co s f107 lat_sol lon_sol mem (rows_distinct m h nm gh _ _ _ _ _ N R P B) A1 A2 A3 A4 A5) as (r & Er & Dr & Hr).
  exists r. split; [exact Er|split; [exact Dr|]]. intros ix I. apply (element_field m); [exact R|exact P|destruct C as (_ & _ & _ & _ & Lg & _); exact Lg|exact (Hr ix I)].
Qed.

Lemma external_field file h nm qs gh (N : nat) : mio_contents to_int to_float file h nm qs gh -> proper_nm nm N -> proper_bounds h ->
  exists below above height, load_external_file to_int to_float year_fraction subsol validity file = Parsed (below, above, height) /\
  forall (time : nd (option T)) location ci co s f107 lat_sol lon_sol mem mem' empty,
  scalar_or_full time (dims location) -> option_fits f107 (dims location) -> option_fits lat_sol (dims location) -> option_fits lon_sol (dims location) ->
  ~ f107_without_times f107 time ->
  exists r, primary_eval (fun time location ci co s f107 lat_sol lon_sol => mio_eval below time location ci co s f107 lat_sol lon_sol mem)
      (fun time location ci co s f107 lat_sol lon_sol => mio_eval above time location ci co s f107 lat_sol lon_sol mem')
      height MIO_EARTH_RADIUS empty time location ci co s f107 lat_sol lon_sol = Ok r /\ dims r = dims location /\
    forall ix, In ix (indices (dims location)) ->
      let x := convert (get location ix) ci CT_GEOCENTRIC_SPHERICAL in
      let value internal factor := mio_field validity h internal (row_coefficient h nm qs factor) year_fraction subsol N
        (at_index time ix) x CT_GEOCENTRIC_SPHERICAL co s (option_at f107 ix) (option_at lat_sol ix) (option_at lon_sol ix) (get r ix) in
      (snd x <= 6371.2 + mh_height h -> value false (fun _ => 1)) /\ (6371.2 + mh_height h < snd x -> value true (above_factor h)).
Proof.
  intros C P B. assert (Hn : forall n m, In (n, m) nm -> (0 <= n)%Z) by (intros n m I; destruct P as [P _]; destruct (P n m I) as [V _]; unfold valid_nm in V; lia).
  destruct (external_file to_int to_float year_fraction subsol validity file h nm qs gh C Hn)
    as (below & above & E & B1 & B2 & B3 & A1 & A2 & A3 & B4 & B5 & A4 & A5 & V).
  exists below, above, (mh_height h). split; [exact E|]. intros time location ci co s f107 lat_sol lon_sol mem mem' empty H1 H2 H3 H4 H5.
  destruct (external_set file h nm qs gh below above (mh_height h) C E) as [(U0 & U1 & U2 & U3 & U4 & U5 & U6) (W0 & W1 & W2 & W3 & W4 & W5 & W6)].
  assert (Lq : length qs = length nm) by (destruct C as (_ & _ & _ & Lq & _); exact Lq).
  assert (Rb : has_rows below h nm qs (fun _ => 1) false year_fraction subsol validity).
  { repeat (split; [assumption|]). split; [|repeat (split; [assumption|]); assumption].
    intros k n o row Hk Hr. destruct (V k n o row Hk Hr) as [(ab & Hab & K) _]. exists ab. split; [exact Hab|]. intros. now rewrite Rmult_1_l. }
  assert (Ra : has_rows above h nm qs (above_factor h) true year_fraction subsol validity).
  { repeat (split; [assumption|]). split; [|repeat (split; [assumption|]); assumption].
    intros k n o row Hk Hr. exact (proj2 (V k n o row Hk Hr)). }
  destruct (primary_value _ _ _ _ (mh_height h) MIO_EARTH_RADIUS empty time location ci co s f107 lat_sol lon_sol
    (mio_pointwise below (Z.of_nat N) mem (rows_distinct _ _ _ _ _ _ _ _ _ _ Rb P B)) (mio_pointwise above (Z.of_nat N) mem' (rows_distinct _ _ _ _ _ _ _ _ _ _ Ra P B))
    H1 H2 H3 H4 H5) as (r & Er & Dr & Hr).
  exists r. split; [exact Er|split; [exact Dr|]]. intros ix I. cbv zeta. specialize (Hr ix I). cbv zeta in Hr. unfold MIO_EARTH_RADIUS in Hr. destruct Hr as [Hb Ha]. split; intro L.
  - exact (element_field below _ _ _ _ _ _ _ _ _ _ _ _ _ _ _ _ _ _ Rb P Lq (Hb L)).
  - exact (element_field above _ _ _ _ _ _ _ _ _ _ _ _ _ _ _ _ _ _ Ra P Lq (Ha L)).
Qed.
End Load.
