(** The truncation error of the field of a model. *)
From Coq Require Import Bool List Arith ZArith Reals Lia Lra FunctionalExtensionality.
From Coquelicot Require Import Coquelicot.
From Verif Require Import Ord ROrd RbarOrd ArrModel CoefModel GeoModel ShEvalModel ShEvalSpec ShEvalDeriv TextModel ShcModel ShcSpec SparseSpec TimeModel ShcLoadModel ShcLoadSpec
  InterpSpec YearSetModel WmmModel WmmSpec IgrfModel IgrfSpec EmmModel EmmSpec
  FieldModel FieldSpec FieldProofs FileFieldSpec FileFieldProofs TruncationSpec FieldSizeSpec FieldSizeProofs FieldTruncSpec.
Import ListNotations.
Open Scope R_scope.

Definition cut (K : nat) (gh : nat -> nat -> R * R) (n m : nat) : R * R := if Nat.leb n K then gh n m else (0, 0).

Lemma table_cut value lo K K' gh : (K <= K')%nat -> coefficient_table value lo (Z.of_nat K') gh ->
  coefficient_table value lo (Z.of_nat K) (cut K gh).
Proof.
  intros L H n m Hm. destruct (H n m Hm) as [H1 H2]. unfold cut, within_bounds in *. destruct (Nat.leb_spec n K) as [A|A]; split; intros W; try reflexivity.
  - apply H1. split; [apply W|lia].
  - apply H2. intros [W1 W2]. apply W. split; [exact W1|lia].
  - lia.
Qed.

Lemma table_zero value lo K gh n m : coefficient_table value lo (Z.of_nat K) gh -> (K < n)%nat -> (m <= n)%nat -> gh n m = (0, 0).
Proof. intros H A B. apply (H n m B). unfold within_bounds. lia. Qed.

Lemma potential_cut internal gh gh' N K : (K <= N)%nat -> (forall n m, (n <= K)%nat -> (m <= n)%nat -> gh n m = gh' n m) ->
  (forall n m, (K < n)%nat -> (m <= n)%nat -> gh n m = (0, 0)) ->
  potential internal 6371.2 gh N = potential internal 6371.2 gh' K.
Proof.
  intros L E Z. extensionality r. extensionality t. extensionality p. unfold potential. f_equal.
  replace N with (K + (N - K))%nat by lia. rewrite sum_zeros.
  - apply sum_ext. intros n Hn. f_equal. apply sum_ext. intros m Hm. now rewrite (E n m Hn Hm).
  - intros n Hn. rewrite (sum_ext _ (fun _ => 0 * 0)); [rewrite sum_scal; ring|]. intros m Hm. rewrite (Z n m Hn Hm). cbn [fst snd]. ring.
Qed.

Lemma field_cut internal gh gh' N K lat lon rad f : (K <= N)%nat -> (forall n m, (n <= K)%nat -> (m <= n)%nat -> gh n m = gh' n m) ->
  (forall n m, (K < n)%nat -> (m <= n)%nat -> gh n m = (0, 0)) ->
  field_of internal gh N lat lon rad f -> field_of internal gh' K lat lon rad f.
Proof.
  intros L E Z. unfold field_of. destruct f as [[north east] up]. cbv zeta.
  rewrite (potential_cut internal gh gh' N K L E Z), (potential_cut internal (low_orders gh) (low_orders gh') N K L); [easy| |];
    intros n m A B; unfold low_orders; destruct (Nat.leb m 1); auto.
Qed.

Lemma tables_truncation internal value lo K K' N gh gh' lat lon rad f f' : (K <= K' <= N)%nat -> -90 <= lat <= 90 -> rad <> 0 ->
  coefficient_table value lo (Z.of_nat K') gh' -> gh = cut K gh' ->
  field_of internal gh N lat lon rad f -> field_of internal gh' N lat lon rad f' ->
  vector_length (vector_minus f' f) <= remaining_field internal gh' K K' rad.
Proof.
  intros L A R T -> F F'. apply (field_truncation internal gh' K K' lat lon rad f f'); try assumption; try lia.
  - apply (field_cut internal (cut K gh') gh' N); [lia| | |exact F]; intros n m B C; unfold cut; destruct (Nat.leb_spec n K); try reflexivity; lia.
  - apply (field_cut internal gh' gh' N); [lia|reflexivity| |exact F']. intros n m. now apply (table_zero value lo).
Qed.

Lemma same_lengths {A B} (P : A -> B -> Prop) l l' : Forall2 P l l' -> length l = length l'.
Proof. induction 1; cbn; congruence. Qed.

Lemma results_truncated validity value internal lo K K' N txs out out' : (K <= K' <= N)%nat ->
  Forall2 (field_result validity value internal lo (Z.of_nat K) N) txs out -> Forall2 (field_result validity value internal lo (Z.of_nat K') N) txs out' ->
  truncated validity value internal lo K K' txs out out'.
Proof.
  intros L H H'. split; [symmetry; eapply same_lengths; eassumption|split; [symmetry; eapply same_lengths; eassumption|]].
  intros i t lat lon rad o o' I O O'.
  assert (G : forall hi out o, Forall2 (field_result validity value internal lo hi N) txs out -> nth_error out i = Some o ->
    field_result validity value internal lo hi N (t, (lat, lon, rad)) o).
  { clear - I. intros hi out o H. revert i I. induction H as [|tx o0 txs out R H IH]; intros [|i] I O; try discriminate.
    - injection I as ->. injection O as ->. exact R.
    - exact (IH i I O). }
  destruct (G _ _ _ H O) as [G1 G2]. destruct (G _ _ _ H' O') as [G1' G2']. split; [auto|].
  intros u gh -> V A R T.
  destruct (G2 u (cut K gh) eq_refl V A R (table_cut (value u) lo K K' gh (proj1 L) T)) as (f & -> & F).
  destruct (G2' u gh eq_refl V A R T) as (f' & -> & F').
  exists f, f'. split; [reflexivity|split; [reflexivity|]].
  now apply (tables_truncation internal (value u) lo K K' N (cut K gh) gh lat lon rad).
Qed.

Lemma shc_truncated to_int to_float years vstart vend file d N internal lo K K' mem mem' txs :
  shc_file to_int to_float file d -> proper_shc d -> proper_times years (shc_t d) -> degrees_up_to d N -> (Z.of_nat N < 2 ^ 24)%Z ->
  (K <= K')%nat -> (Z.of_nat K' < 2 ^ 24)%Z ->
  exists set out out', load_coeff_shc to_int to_float years vstart vend file = Parsed set /\
    model_eval_array (shc_validity set) [shc_leaf set] internal lo (Z.of_nat K) CT_GEOCENTRIC_SPHERICAL CT_GEOCENTRIC_SPHERICAL (1, 1, 1) mem txs = Ok out /\
    model_eval_array (shc_validity set) [shc_leaf set] internal lo (Z.of_nat K') CT_GEOCENTRIC_SPHERICAL CT_GEOCENTRIC_SPHERICAL (1, 1, 1) mem' txs = Ok out' /\
    truncated (shc_validity set) (fun u n m v => shc_value years d n m u v) internal lo K K' txs out out'.
Proof.
  intros F P T D B L B'. set (M := Nat.max N K').
  assert (D' : degrees_up_to d M) by (intros n m H; specialize (D n m H); unfold M; lia).
  assert (BM : (Z.of_nat M < 2 ^ 24)%Z) by (unfold M; lia).
  destruct (array_field to_int to_float years vstart vend file d M internal lo (Z.of_nat K) mem txs F P T D' BM) as (set & out & E1 & E2 & E3 & H).
  destruct (array_field to_int to_float years vstart vend file d M internal lo (Z.of_nat K') mem' txs F P T D' BM) as (set' & out' & E1' & E2' & E3' & H').
  rewrite E1 in E1'. injection E1' as <-. exists set, out, out'. repeat (split; [assumption|]).
  assert (Z : forall hi out, length out = length txs ->
    (forall i t lat lon rad o, nth_error txs i = Some (t, (lat, lon, rad)) -> nth_error out i = Some o ->
      (~ in_validity (shc_validity set) t -> o = None) /\
      (forall u gh, t = Some u -> in_validity (shc_validity set) t -> -90 <= lat <= 90 -> rad <> 0 ->
         file_coefficients years d lo hi u gh -> exists field, o = Some field /\ field_of internal gh M lat lon rad field)) ->
    Forall2 (field_result (shc_validity set) (fun u n m v => shc_value years d n m u v) internal lo hi M) txs out).
  { clear. induction txs as [|[t [[lat lon] rad]] txs IH]; intros hi [|o out] L H; try discriminate; constructor.
    - exact (H 0%nat t lat lon rad o eq_refl eq_refl).
    - apply IH; [now injection L|]. intros i. exact (H (S i)). }
  apply (results_truncated _ _ _ _ _ _ M); [unfold M; lia| |]; apply Z; assumption.
Qed.

Lemma wmm_truncated to_int to_float file epoch rows N internal lo K K' mem mem' txs :
  wmm_file to_int to_float file epoch rows -> proper_rows rows -> some_nonzero rows ->
  (forall r, In r rows -> (w_n r <= Z.of_nat N)%Z) -> (Z.of_nat N < 2 ^ 24)%Z -> (K <= K')%nat -> (Z.of_nat K' < 2 ^ 24)%Z ->
  exists td out out', load_coeff_wmm to_int to_float file = Parsed td /\
    model_eval_array (year_validity td) [year_leaf td] internal lo (Z.of_nat K) CT_GEOCENTRIC_SPHERICAL CT_GEOCENTRIC_SPHERICAL (1, 1, 1) mem txs = Ok out /\
    model_eval_array (year_validity td) [year_leaf td] internal lo (Z.of_nat K') CT_GEOCENTRIC_SPHERICAL CT_GEOCENTRIC_SPHERICAL (1, 1, 1) mem' txs = Ok out' /\
    truncated (Finite (decimal_year_to_mjd2k epoch), Finite (decimal_year_to_mjd2k (epoch + 5)))
      (fun u n m v => wmm_coefficient epoch rows n m (mjd2k_to_decimal_year u) v) internal lo K K' txs out out'.
Proof.
  intros F P S D B L B'. set (M := Nat.max N K').
  assert (D' : forall r, In r rows -> (w_n r <= Z.of_nat M)%Z) by (intros r H; specialize (D r H); unfold M; lia).
  assert (BM : (Z.of_nat M < 2 ^ 24)%Z) by (unfold M; lia).
  destruct (wmm_field to_int to_float file epoch rows M internal lo (Z.of_nat K) mem F P S D' BM) as (td & E & H & _).
  destruct (wmm_field to_int to_float file epoch rows M internal lo (Z.of_nat K') mem' F P S D' BM) as (td' & E' & H' & _).
  rewrite E in E'. injection E' as <-. destruct (H txs) as (out & O & R). destruct (H' txs) as (out' & O' & R').
  exists td, out, out'. repeat (split; [assumption|]). apply (results_truncated _ _ _ _ _ _ M); [unfold M; lia|exact R|exact R'].
Qed.

Lemma igrf_truncated to_int to_float file times rows t1 t2 N internal lo K K' mem mem' txs :
  igrf_file to_int to_float file times rows -> increasing times -> proper_igrf times rows ->
  nth_error times 0 = Some t1 -> nth_error times (length times - 1) = Some t2 ->
  (forall r, In r rows -> (i_n r <= Z.of_nat N)%Z) -> (Z.of_nat N < 2 ^ 24)%Z -> (K <= K')%nat -> (Z.of_nat K' < 2 ^ 24)%Z ->
  exists td out out', load_coeff_igrf to_int to_float file = Parsed td /\
    model_eval_array (year_validity td) [year_leaf td] internal lo (Z.of_nat K) CT_GEOCENTRIC_SPHERICAL CT_GEOCENTRIC_SPHERICAL (1, 1, 1) mem txs = Ok out /\
    model_eval_array (year_validity td) [year_leaf td] internal lo (Z.of_nat K') CT_GEOCENTRIC_SPHERICAL CT_GEOCENTRIC_SPHERICAL (1, 1, 1) mem' txs = Ok out' /\
    truncated (Finite (decimal_year_to_mjd2k t1), Finite (decimal_year_to_mjd2k (t2 + 5)))
      (fun u n m v => igrf_coefficient times rows n m (mjd2k_to_decimal_year u) v) internal lo K K' txs out out'.
Proof.
  intros F I P T1 T2 D B L B'. set (M := Nat.max N K').
  assert (D' : forall r, In r rows -> (i_n r <= Z.of_nat M)%Z) by (intros r H; specialize (D r H); unfold M; lia).
  assert (BM : (Z.of_nat M < 2 ^ 24)%Z) by (unfold M; lia).
  destruct (igrf_field to_int to_float file times rows t1 t2 M internal lo (Z.of_nat K) mem F I P T1 T2 D' BM) as (td & E & H & _).
  destruct (igrf_field to_int to_float file times rows t1 t2 M internal lo (Z.of_nat K') mem' F I P T1 T2 D' BM) as (td' & E' & H' & _).
  rewrite E in E'. injection E' as <-. destruct (H txs) as (out & O & R). destruct (H' txs) as (out' & O' & R').
  exists td, out, out'. repeat (split; [assumption|]). apply (results_truncated _ _ _ _ _ _ M); [unfold M; lia|exact R|exact R'].
Qed.

Lemma emm_truncated to_int to_float file_static file_secvar epoch variable constant secvar N internal lo K K' mem mem' txs :
  emm_file to_int to_float file_static epoch (variable ++ constant) -> emm_file to_int to_float file_secvar epoch secvar ->
  same_rows variable secvar -> proper_emm (variable ++ constant) -> secvar <> [] -> nonzero_rows constant ->
  (forall r, In r (variable ++ constant) -> (m_n r <= Z.of_nat N)%Z) -> (Z.of_nat N < 2 ^ 24)%Z -> (K <= K')%nat -> (Z.of_nat K' < 2 ^ 24)%Z ->
  exists emm out out', load_coeff_emm to_int to_float file_static file_secvar = Parsed emm /\
    model_eval_array (emm_validity emm) (emm_items emm) internal lo (Z.of_nat K) CT_GEOCENTRIC_SPHERICAL CT_GEOCENTRIC_SPHERICAL (1, 1, 1) mem txs = Ok out /\
    model_eval_array (emm_validity emm) (emm_items emm) internal lo (Z.of_nat K') CT_GEOCENTRIC_SPHERICAL CT_GEOCENTRIC_SPHERICAL (1, 1, 1) mem' txs = Ok out' /\
    truncated (Finite (decimal_year_to_mjd2k epoch), Finite (decimal_year_to_mjd2k (epoch + 5)))
      (fun u n m v => emm_coefficient epoch variable constant secvar n m (mjd2k_to_decimal_year u) v) internal lo K K' txs out out'.
Proof.
  intros F F' S P Z C D B L B'. set (M := Nat.max N K').
  assert (D' : forall r, In r (variable ++ constant) -> (m_n r <= Z.of_nat M)%Z) by (intros r H; specialize (D r H); unfold M; lia).
  assert (BM : (Z.of_nat M < 2 ^ 24)%Z) by (unfold M; lia).
  destruct (emm_field to_int to_float file_static file_secvar epoch variable constant secvar M internal lo (Z.of_nat K) mem F F' S P Z C D' BM) as (td & E & H & _).
  destruct (emm_field to_int to_float file_static file_secvar epoch variable constant secvar M internal lo (Z.of_nat K') mem' F F' S P Z C D' BM) as (td' & E' & H' & _).
  rewrite E in E'. injection E' as <-. destruct (H txs) as (out & O & R). destruct (H' txs) as (out' & O' & R').
  exists td, out, out'. repeat (split; [assumption|]). apply (results_truncated _ _ _ _ _ _ M); [unfold M; lia|exact R|exact R'].
Qed.
