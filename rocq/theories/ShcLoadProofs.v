(** Proofs about the loading of the SHC files. *)

From Coq Require Import Bool List ZArith Reals Lra Lia Permutation.
From Coquelicot Require Import Rbar.
From Verif Require Import Ord ROrd RbarOrd TextModel TextSpec TextProofs ShcModel ShcSpec ShcProofs SparseModel SparseSpec InterpSpec SnapshotProofs
  SeriesModel SeriesProofs SeriesSpec SeriesLineProofs TimeModel TimeSpec TimeProofs DecimalProofs YearSetModel CombineModel CombineProofs EmmProofs ShcLoadModel ShcLoadSpec.
Import ListNotations.
Open Scope list_scope.
Open Scope R_scope.

Lemma year_in_range y : -4715 <= y -> IZR first_day <= decimal_year_to_mjd2k y.
Proof.
  intro H. unfold decimal_year_to_mjd2k. set (w := floor y). destruct (floor_spec y) as [F1 F2]. fold w in F1, F2.
  assert (Hw : (-4715 <= w)%Z) by (apply floor_ge; exact H).
  destruct (days_pos w) as [D _]. apply IZR_le in D.
  assert (0 <= (y - IZR w) * IZR (days_per_year w)) by (apply Rmult_le_pos; lra).
  apply Rle_trans with (IZR (mjd2k_year_start w)); [|lra]. apply IZR_le.
  pose proof (year_start_mono (-4715) w ltac:(lia) Hw) as M. change (mjd2k_year_start (-4715)) with (-2452640)%Z in M.
  unfold first_day. lia.
Qed.
Lemma year_increasing a b : regular_year a -> regular_year b -> a < b -> decimal_year_to_mjd2k a < decimal_year_to_mjd2k b.
Proof.
  intros [A1 A2] [B1 B2] L. pose proof (decimal_round_trip a A1 A2) as Ra. pose proof (decimal_round_trip b B1 B2) as Rb.
  destruct (Rtotal_order (decimal_year_to_mjd2k a) (decimal_year_to_mjd2k b)) as [H|[H|H]]; [exact H| |]; exfalso.
  - rewrite H in Ra. lra.
  - apply decimal_increasing in H; [lra|]. now apply year_in_range.
Qed.

Lemma index_pairs_ok nm : (forall i row, nth_error nm i = Some row -> exists n m, row = [n; m] /\ valid_nm n m) ->
  exists ps, index_pairs nm = Parsed ps /\ nm = map (fun p => [fst p; snd p]) ps.
Proof.
  induction nm as [|row nm IH]; intro H; [now exists []|].
  destruct IH as (ps & E & ->); [intros i r Hi; exact (H (S i) r Hi)|].
  destruct (H 0%nat row eq_refl) as (n & m & -> & _). exists ((n, m) :: ps). cbn [index_pairs]. rewrite E. now split.
Qed.

Section Load.
Variables (to_int : text -> option Z) (to_float : text -> option R).

Lemma pairs_nth ps i n m : nth_error (map (fun p : Z * Z => [fst p; snd p]) ps) i = Some [n; m] <-> nth_error ps i = Some (n, m).
Proof.
  rewrite nth_error_map. destruct (nth_error ps i) as [[a b]|]; cbn; split; intro H; try discriminate; now injection H as -> ->.
Qed.
Lemma pairs_in ps n m : In [n; m] (map (fun p : Z * Z => [fst p; snd p]) ps) <-> In (n, m) ps.
Proof.
  rewrite in_map_iff. split; [intros ([a b] & E & H); cbn in E; now injection E as -> ->|]. intro H. now exists (n, m).
Qed.

(** the rows of a file: as many degrees and orders as rows of values *)
Lemma rows_length rows nm gh : rows_of to_int to_float rows nm gh -> length nm = length gh.
Proof. induction 1; cbn; lia. Qed.

(** the parsed file, and what is needed of it *)
Lemma shc_parsed file d : shc_file to_int to_float file d -> proper_shc d -> exists d' ps,
  parse_shc_file to_int to_float file = Parsed d' /\ shc_t d' = shc_t d /\ shc_gh d' = shc_gh d /\
  index_pairs (shc_nm d') = Parsed ps /\ shc_nm d = map (fun p => [fst p; snd p]) ps /\ ps <> [] /\ length ps = length (shc_gh d) /\
  (forall i n m, nth_error ps i = Some (n, m) -> valid_nm n m) /\
  (forall i j p, nth_error ps i = Some p -> nth_error ps j = Some p -> i = j) /\
  match h_validity (shc_head d) with
  | Some (x, y) => shc_validity_start d' = Some x /\ shc_validity_end d' = Some y
  | None => ((length (shc_t d) <= 1)%nat -> shc_validity_start d' = None /\ shc_validity_end d' = None) /\
      ((2 <= length (shc_t d))%nat -> exists x y, shc_validity_start d' = Some x /\ shc_validity_end d' = Some y /\
         In x (shc_t d) /\ first_time (shc_t d) x /\ In y (shc_t d) /\ last_time (shc_t d) y)
  end.
Proof.
  intros Hf (P1 & P2 & P3 & P4). destruct (parse_complete to_int to_float file d Hf) as (d' & E & H1 & H2 & H3 & H4).
  pose proof (parse_sound to_int to_float file d' E) as Hf'.
  destruct (index_pairs_ok (shc_nm d) P2) as (ps & Ep & En).
  exists d', ps. rewrite H3. split; [exact E|]. split; [exact H2|]. split; [exact H4|]. split; [exact Ep|]. split; [exact En|].
  split; [intros ->; now apply P1|].
  split. { destruct Hf as (cs & header & hd & times & rows & _ & _ & _ & _ & _ & _ & Hr & _). apply rows_length in Hr. rewrite En, map_length in Hr. exact Hr. }
  split. { intros i n m Hi. destruct (P2 i [n; m]) as (n' & m' & Hnm & V); [rewrite En; now apply pairs_nth|]. now injection Hnm as -> ->. }
  split. { intros i j [n m] Hi Hj. apply (P3 i j [n; m]); rewrite En; now apply pairs_nth. }
  destruct Hf' as (cs & header & hd & times & rows & _ & _ & _ & _ & _ & Hv & _). unfold validity_of in Hv. rewrite H1, H2 in Hv.
  destruct (h_validity (shc_head d)) as [[x y]|]; [exact Hv|]. split; intro L.
  - destruct Hv as [(_ & Hv)|(L2 & _)]; [exact Hv|lia].
  - destruct Hv as [(L1 & _)|(_ & x & y & Hx & Hy & [Lx Gx] & [Ly Gy])]; [lia|]. exists x, y. split; [exact Hx|split; [exact Hy|]].
    split; [exact Lx|]. split; [intros z Hz; apply le_R; now apply Gx|]. split; [exact Ly|]. intros z Hz. apply le_R. now apply Gy.
Qed.

Lemma first_unique times x y : In x times -> In y times -> first_time times x -> first_time times y -> x = y.
Proof. intros Hx Hy Fx Fy. apply Rle_antisym; auto. Qed.
Lemma last_unique times x y : In x times -> In y times -> last_time times x -> last_time times y -> x = y.
Proof. intros Hx Hy Fx Fy. apply Rle_antisym; auto. Qed.

(** the validity which is passed to the constructor *)
Lemma shc_years d d' vs ve a b : (2 <= length (shc_t d))%nat ->
  match h_validity (shc_head d) with
  | Some (x, y) => shc_validity_start d' = Some x /\ shc_validity_end d' = Some y
  | None => ((length (shc_t d) <= 1)%nat -> shc_validity_start d' = None /\ shc_validity_end d' = None) /\
      ((2 <= length (shc_t d))%nat -> exists x y, shc_validity_start d' = Some x /\ shc_validity_end d' = Some y /\
         In x (shc_t d) /\ first_time (shc_t d) x /\ In y (shc_t d) /\ last_time (shc_t d) y)
  end -> start_year vs d a -> end_year ve d b ->
  match vs with Some x => Some x | None => shc_validity_start d' end = Some a /\
  match ve with Some x => Some x | None => shc_validity_end d' end = Some b.
Proof.
  intros L V Ha Hb. unfold start_year in Ha. unfold end_year in Hb.
  destruct (h_validity (shc_head d)) as [[x y]|].
  - destruct V as [V1 V2]. destruct vs, ve; subst; now split.
  - destruct V as [_ V]. destruct (V L) as (x & y & V1 & V2 & I1 & F1 & I2 & L2). rewrite V1, V2. destruct vs, ve; subst; split; try reflexivity; f_equal.
    + destruct Hb. now apply (last_unique (shc_t d)).
    + destruct Ha. now apply (first_unique (shc_t d)).
    + destruct Ha. now apply (first_unique (shc_t d)).
    + destruct Hb. now apply (last_unique (shc_t d)).
Qed.

(** the values of a series *)
Lemma series_values d ps (f g : R -> R) td t lo hi n m v r :
  shc_nm d = map (fun p => [fst p; snd p]) ps -> (forall i j p, nth_error ps i = Some p -> nth_error ps j = Some p -> i = j) -> valid_nm n m ->
  td_call td g (Some t) lo hi = Some r ->
  (forall i n m c k l ta ca tb cb, nth_error ps i = Some (n, m) -> nth_error (shc_gh d) i = Some c ->
       nth_error (shc_t d) k = Some ta -> nth_error c k = Some ca -> nth_error (shc_t d) l = Some tb -> nth_error c l = Some cb ->
       neighbours (shc_t d) ta tb -> (f ta <= g t \/ first_time (shc_t d) ta) -> (g t <= f tb \/ last_time (shc_t d) tb) ->
       bounded_coefficient lo hi r n m (line (f ta) ca (f tb) cb (g t))) ->
  (forall n m, valid_nm n m -> ~ In (n, m) ps -> coefficient r n m 0) ->
  shc_coefficient d f n m (g t) v -> bounded_coefficient lo hi r n m v.
Proof.
  intros En Hd V Er A Z0 [(ta & ca & tb & cb & (i & c & k & Hi & Hc & Hk & Hck) & (j & c' & l & Hj & Hc' & Hl & Hcl) & Nb & H1 & H2 & ->)|(Hno & ->)].
  - rewrite En in Hi, Hj. apply pairs_nth in Hi, Hj. assert (j = i) as -> by (now apply (Hd _ _ (n, m))). assert (c' = c) as -> by congruence.
    apply (A i n m c k l ta ca tb cb); assumption.
  - apply coefficient_bounded, Z0; [exact V|]. intro H. apply Hno. unfold file_lists. rewrite En. now apply pairs_in.
Qed.

Lemma shc_load years vs ve file d a b : shc_file to_int to_float file d -> proper_shc d -> (2 <= length (shc_t d))%nat -> distinct_times (shc_t d) ->
  (years = false -> forall y, In y (shc_t d) -> regular_year y) -> start_year vs d a -> end_year ve d b ->
  exists set, load_coeff_shc to_int to_float years vs ve file = Parsed set /\
    shc_validity set = (Finite (decimal_year_to_mjd2k a), Finite (decimal_year_to_mjd2k b)) /\
    forall t lo hi, exists result, shc_call set t lo hi = Some result /\ sized result /\
      forall n m v, valid_nm n m ->
        (if years then shc_coefficient d (fun y => y) n m (mjd2k_to_decimal_year t) v else shc_coefficient d decimal_year_to_mjd2k n m t v) ->
        bounded_coefficient lo hi result n m v.
Proof.
  intros Hf P L Dt Ry Ha Hb. destruct (shc_parsed file d Hf P) as (d' & ps & E & Et & Eg & Ep & En & Nn & Lp & Hv & Hd & V).
  destruct (shc_years d d' vs ve a b L V Ha Hb) as [Es Ee]. destruct P as (_ & _ & _ & P4).
  unfold load_coeff_shc. rewrite E. cbn [pbind]. cbv zeta. rewrite Ep. cbn [pbind]. rewrite Et, Eg, Es, Ee.
  destruct (Nat.eqb_spec (length (shc_t d)) 1) as [L1|_]; [lia|].
  assert (Tn : shc_t d <> []) by (intro K; rewrite K in L; cbn in L; lia).
  destruct years.
  - destruct (mk_time_dependent_ok ps (shc_gh d) (shc_t d) (Some a) (Some b) (fun x => x) Nn Lp P4 Tn) as [td Etd].
    unfold mk_year_set. rewrite Etd. eexists. split; [reflexivity|].
    destruct (snapshot_sorted _ _ _ _ _ _ _ td Etd) as (_ & _ & _ & _ & _ & _ & H1 & H2 & _).
    split; [cbn [shc_validity td_validity fst snd]; now rewrite (H1 a eq_refl), (H2 b eq_refl)|].
    intros t lo hi. destruct (series_array ps (shc_gh d) (shc_t d) (Some a) (Some b) (fun x => x) mjd2k_to_decimal_year td t lo hi Hv Hd Dt ltac:(auto) L Etd) as (r & Er & Sz & A & Z0).
    exists r. split; [exact Er|split; [exact Sz|]]. intros n m v Vnm. now apply (series_values d ps (fun x => x) mjd2k_to_decimal_year td t).
  - destruct (mk_time_dependent_ok ps (shc_gh d) (shc_t d) (Some a) (Some b) decimal_year_to_mjd2k Nn Lp P4 Tn) as [td Etd].
    rewrite Etd. eexists. split; [reflexivity|].
    destruct (snapshot_sorted _ _ _ _ _ _ _ td Etd) as (_ & _ & _ & _ & _ & _ & H1 & H2 & _).
    split; [cbn [shc_validity]; now rewrite (H1 a eq_refl), (H2 b eq_refl)|].
    intros t lo hi. destruct (series_array ps (shc_gh d) (shc_t d) (Some a) (Some b) decimal_year_to_mjd2k (fun x => x) td t lo hi Hv Hd Dt) as (r & Er & Sz & A & Z0); [|exact L|exact Etd|].
    + intros x y Hx Hy. apply year_increasing; now apply Ry.
    + exists r. split; [exact Er|split; [exact Sz|]]. intros n m v Vnm. now apply (series_values d ps decimal_year_to_mjd2k (fun x => x) td t).
Qed.

Lemma first_column_ok gh : (forall c, In c gh -> length c = 1%nat) -> exists cs, first_column gh = Parsed cs /\ gh = map (fun v => [v]) cs.
Proof.
  induction gh as [|c gh IH]; intro H; [now exists []|]. destruct IH as (cs & E & ->); [intros; apply H; now right|].
  specialize (H c (or_introl eq_refl)). destruct c as [|v [|? ?]]; try discriminate. exists (v :: cs). unfold first_column in *. cbn [pmap]. cbn [field nth_error pbind].
  rewrite E. now split.
Qed.

Definition bound (default : Rbar) (arg header : option R) : Rbar :=
  match arg, header with
  | Some x, _ | None, Some x => Finite (decimal_year_to_mjd2k x)
  | None, None => default
  end.

Lemma shc_load_constant years vs ve file d : shc_file to_int to_float file d -> proper_shc d -> length (shc_t d) = 1%nat ->
  exists set, load_coeff_shc to_int to_float years vs ve file = Parsed set /\
    shc_validity set = (bound m_infty vs (option_map fst (h_validity (shc_head d))), bound p_infty ve (option_map snd (h_validity (shc_head d)))) /\
    forall t lo hi, exists result, shc_call set t lo hi = Some result /\ sized result /\
      forall n m v, valid_nm n m -> shc_constant d n m v -> bounded_coefficient lo hi result n m v.
Proof.
  intros Hf P L. destruct (shc_parsed file d Hf P) as (d' & ps & E & Et & Eg & Ep & En & Nn & Lp & Hv & Hd & V).
  destruct P as (_ & _ & _ & P4). rewrite L in P4. destruct (first_column_ok _ P4) as (cs & Ec & Eh).
  unfold load_coeff_shc. rewrite E. cbn [pbind]. cbv zeta. rewrite Ep. cbn [pbind]. rewrite Et, Eg, L, Nat.eqb_refl, Ec. cbn [pbind].
  set (s := option_map Finite _). set (e := option_map Finite match ve with Some x => _ | None => _ end).
  destruct (mk_constant_ok (OI := TInf_Rbar) ps (map Some cs) s e decimal_year_to_mjd2k_bar Nn) as [td Etd].
  { rewrite map_length, Lp, Eh, map_length. reflexivity. }
  rewrite Etd. eexists. split; [reflexivity|]. split.
  - destruct (snapshot_sorted _ _ _ _ _ _ _ td Etd) as (_ & _ & _ & _ & _ & _ & H1 & H2 & _).
    cbn [shc_validity]. specialize (H1 _ eq_refl). specialize (H2 _ eq_refl). destruct (td_validity td) as [v1 v2]. cbn [fst snd] in *. subst v1 v2.
    unfold s, e, bound. destruct (h_validity (shc_head d)) as [[x y]|]; cbn [option_map fst snd].
    + destruct V as [-> ->]. destruct vs, ve; reflexivity.
    + destruct V as [V _]. rewrite L in V. destruct (V (le_n 1)) as [-> ->]. destruct vs, ve; reflexivity.
  - intros t lo hi. destruct (constant_array (OI := TInf_Rbar) ps cs s e decimal_year_to_mjd2k_bar td (Some (Finite t)) lo hi Hv Hd Etd) as (r & Er & Sz & A & Z0).
    exists r. split; [exact Er|split; [exact Sz|]]. intros n m v Vnm [(y & i & c & k & Hi & Hc & Hk & Hck)|(Hno & ->)].
    + rewrite En in Hi. apply pairs_nth in Hi. apply (A i n m v Hi). rewrite Eh, nth_error_map in Hc.
      destruct (nth_error cs i) as [x|]; [|discriminate]. cbn in Hc. injection Hc as <-. destruct k as [|k]; [exact Hck|destruct k; discriminate].
    + apply coefficient_bounded, Z0; [exact Vnm|]. intro H. apply Hno. unfold file_lists. rewrite En. now apply pairs_in.
Qed.

Lemma shc_load_values years vs ve file d : shc_file to_int to_float file d -> proper_shc d -> proper_times years (shc_t d) ->
  exists set, load_coeff_shc to_int to_float years vs ve file = Parsed set /\
    forall t lo hi, exists result, shc_call set t lo hi = Some result /\ sized result /\
      forall n m v, valid_nm n m -> shc_value years d n m t v -> bounded_coefficient lo hi result n m v.
Proof.
  intros Hf P (T1 & T2 & T3). destruct (Nat.eq_dec (length (shc_t d)) 1) as [L|L].
  - destruct (shc_load_constant years vs ve file d Hf P L) as (set & E & _ & A). exists set. split; [exact E|]. intros t lo hi.
    destruct (A t lo hi) as (r & Er & Sz & B). exists r. split; [exact Er|split; [exact Sz|]]. intros n m v V [[_ H]|[H _]]; [now apply B|lia].
  - assert (L2 : (2 <= length (shc_t d))%nat) by (destruct (shc_t d); [contradiction|]; cbn in *; lia).
    assert (exists a b, start_year vs d a /\ end_year ve d b) as (a & b & Ha & Hb).
    { destruct (shc_parsed file d Hf P) as (d' & ps & _ & _ & _ & _ & _ & _ & _ & _ & _ & V). unfold start_year, end_year.
      destruct (h_validity (shc_head d)) as [[x y]|].
      - destruct vs as [x'|], ve as [y'|]; eexists; eexists; split; reflexivity.
      - destruct V as [_ V]. destruct (V L2) as (x & y & _ & _ & H1 & H2 & H3 & H4).
        exists (match vs with Some z => z | None => x end), (match ve with Some z => z | None => y end). destruct vs, ve; split; try reflexivity; now split. }
    destruct (shc_load years vs ve file d a b Hf P L2 T2 (fun Hy => T3 Hy L2) Ha Hb) as (set & E & _ & A).
    exists set. split; [exact E|]. intros t lo hi. destruct (A t lo hi) as (r & Er & Sz & B). exists r. split; [exact Er|split; [exact Sz|]].
    intros n m v V [[H _]|[_ H]]; [lia|now apply B].
Qed.

(** the public forms *)
Lemma shc_values years vs ve file d : shc_file to_int to_float file d -> proper_shc d -> proper_times years (shc_t d) ->
  exists set, load_coeff_shc to_int to_float years vs ve file = Parsed set /\
    forall t lo hi, exists result, shc_call set t lo hi = Some result /\
      forall n m v, valid_nm n m -> shc_value years d n m t v -> bounded_coefficient lo hi result n m v.
Proof.
  intros Hf P T. destruct (shc_load_values years vs ve file d Hf P T) as (set & E & A). exists set. split; [exact E|].
  intros t lo hi. destruct (A t lo hi) as (r & Er & _ & B). now exists r.
Qed.

Lemma shc_series_validity years vs ve file d a b set : shc_file to_int to_float file d -> proper_shc d -> proper_times years (shc_t d) ->
  (2 <= length (shc_t d))%nat -> start_year vs d a -> end_year ve d b -> load_coeff_shc to_int to_float years vs ve file = Parsed set ->
  shc_validity set = (Finite (decimal_year_to_mjd2k a), Finite (decimal_year_to_mjd2k b)).
Proof.
  intros Hf P (T1 & T2 & T3) L Ha Hb E. destruct (shc_load years vs ve file d a b Hf P L T2 (fun Hy => T3 Hy L) Ha Hb) as (set' & E' & V & _). congruence.
Qed.
Lemma shc_constant_validity years vs ve file d set : shc_file to_int to_float file d -> proper_shc d -> length (shc_t d) = 1%nat ->
  load_coeff_shc to_int to_float years vs ve file = Parsed set ->
  shc_validity set = (bound m_infty vs (option_map fst (h_validity (shc_head d))), bound p_infty ve (option_map snd (h_validity (shc_head d)))).
Proof. intros Hf P L E. destruct (shc_load_constant years vs ve file d Hf P L) as (set' & E' & V & _). congruence. Qed.
Lemma shc_constant_bounds years vs ve file d set : shc_file to_int to_float file d -> proper_shc d -> length (shc_t d) = 1%nat ->
  load_coeff_shc to_int to_float years vs ve file = Parsed set ->
  shc_validity set =
    (match vs, h_validity (shc_head d) with
     | Some x, _ | None, Some (x, _) => Finite (decimal_year_to_mjd2k x)
     | None, None => m_infty
     end,
     match ve, h_validity (shc_head d) with
     | Some x, _ | None, Some (_, x) => Finite (decimal_year_to_mjd2k x)
     | None, None => p_infty
     end).
Proof.
  intros Hf P L E. rewrite (shc_constant_validity _ _ _ _ _ _ Hf P L E). unfold bound.
  destruct vs, ve, (h_validity (shc_head d)) as [[x y]|]; reflexivity.
Qed.

Lemma shc_combined years files ds : Forall2 (shc_file to_int to_float) files ds -> List.Forall proper_shc ds ->
  List.Forall (fun d => proper_times years (shc_t d)) ds ->
  exists sets, pmap (load_coeff_shc to_int to_float years None None) files = Parsed sets /\
    forall t lo hi, exists result, combined_shc_call sets t lo hi = Some result /\
      forall n m vs, valid_nm n m -> Forall2 (fun d v => shc_value years d n m t v) ds vs -> bounded_coefficient lo hi result n m (sum vs).
Proof.
  intros Hf P T.
  assert (exists sets, pmap (load_coeff_shc to_int to_float years None None) files = Parsed sets /\
    forall t lo hi, exists results, all_some (map (fun s => shc_call s t lo hi) sets) = Some results /\ List.Forall sized results /\
      forall n m vs, valid_nm n m -> Forall2 (fun d v => shc_value years d n m t v) ds vs -> Forall2 (fun r v => bounded_coefficient lo hi r n m v) results vs) as (sets & E & A).
  { induction Hf as [|file d files ds Hf Hfs IH].
    - exists []. split; [reflexivity|]. intros t lo hi. exists []. split; [reflexivity|split; [constructor|]]. intros n m vs _ H. inversion H. constructor.
    - inversion P as [|? ? Pd Ps]; inversion T as [|? ? Td Ts]; subst. destruct (IH Ps Ts) as (sets & E & A).
      destruct (shc_load_values years None None file d Hf Pd Td) as (s & Es & B).
      exists (s :: sets). split; [cbn [pmap]; now rewrite Es, E|]. intros t lo hi.
      destruct (A t lo hi) as (rs & Er & Sz & C). destruct (B t lo hi) as (r & Er' & Sz' & C').
      exists (r :: rs). split; [cbn [map all_some]; now rewrite Er', Er|]. split; [now constructor|]. intros n m vs V H. inversion H; subst. constructor; auto. }
  exists sets. split; [exact E|]. intros t lo hi. destruct (A t lo hi) as (rs & Er & Sz & C). exists (combine_cells rs).
  unfold combined_shc_call. rewrite Er. split; [reflexivity|]. intros n m vs V H. apply combine_bounded; auto.
Qed.
End Load.

Lemma combined_validity sets t : (le (fst (combined_shc_validity sets)) t /\ le t (snd (combined_shc_validity sets))) <->
  forall s, In s sets -> le (fst (shc_validity s)) t /\ le t (snd (shc_validity s)).
Proof.
  unfold combined_shc_validity. set (f := fun (v : Rbar * Rbar) s => _).
  assert (H : forall v, (le (fst (fold_left f sets v)) t /\ le t (snd (fold_left f sets v))) <->
    (le (fst v) t /\ le t (snd v)) /\ forall s, In s sets -> le (fst (shc_validity s)) t /\ le t (snd (shc_validity s))).
  { induction sets as [|s sets IH]; intro v; cbn [fold_left In]; [tauto|]. rewrite IH. unfold f at 1 2. cbn [fst snd]. rewrite le_tmax, tmin_le.
    split; [intros [[[H1 H2] [H3 H4]] H5]|intros [[H1 H2] H3]].
    - split; [tauto|]. intros s' [<-|Hs]; [tauto|now apply H5].
    - split; [|intros; apply H3; now right]. specialize (H3 s (or_introl eq_refl)). tauto. }
  rewrite H. cbn [fst snd]. split; [tauto|]. intro H'. split; [|exact H']. split; apply leb_le; [reflexivity|destruct t; reflexivity].
Qed.

Lemma coefficient_unique result n m a b : coefficient result n m a -> coefficient result n m b -> a = b.
Proof.
  destruct result as [full degree]. intros [(Ha & r1 & c1 & A1 & A2 & A3)|(Ha & ->)] [(Hb & r2 & c2 & B1 & B2 & B3)|(Hb & ->)]; try lia; [|reflexivity].
  unfold packed_row, packed_col in *. assert (r2 = r1) as -> by lia. assert (c2 = c1) as -> by lia. congruence.
Qed.
