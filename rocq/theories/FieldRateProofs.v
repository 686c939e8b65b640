(** The change of the field of a WMM file with the time. *)
From Coq Require Import Bool List Arith ZArith Reals Lia Lra.
From Coquelicot Require Import Coquelicot.
From Verif Require Import Ord ROrd RbarOrd ArrModel GeoModel CoefModel ShEvalModel ShEvalSpec TextModel SparseSpec InterpSpec TimeModel YearSetModel WmmModel WmmSpec FieldModel FieldSpec FieldProofs FileFieldSpec FileFieldProofs
  FieldSizeSpec FieldStableSpec FieldStableProofs FieldRateSpec WmmExamples FileFieldExamples TruncationExamples FieldSizeExamples.
Import ListNotations.
Open Scope R_scope.

Lemma same_row rows a b : proper_rows rows -> In a rows -> In b rows -> w_n a = w_n b -> w_m a = w_m b -> a = b.
Proof.
  intros [_ P] A B E F. apply In_nth_error in A as [i A]. apply In_nth_error in B as [j B]. pose proof (P i j a b A B E F) as <-. congruence.
Qed.

Lemma rate_change epoch rows n m y y' v s : proper_rows rows -> wmm_coefficient epoch rows n m y v -> wmm_rate rows n m s ->
  wmm_coefficient epoch rows n m y' (v - (y - y') * s).
Proof.
  intros P [(r & I & N & M & V)|[Z ->]] [(q & J & N' & M' & W)|[Z' ->]].
  - assert (q = r) as -> by (apply (same_row rows); try assumption; congruence). left. exists r. repeat (split; [assumption|]).
    destruct V as [[A ->]|[A ->]], W as [[B ->]|[B ->]]; try lia; [left|right]; (split; [assumption|ring]).
  - exfalso. exact (Z' r I (conj N M)).
  - exfalso. exact (Z q J (conj N' M')).
  - right. split; [exact Z|ring].
Qed.

Lemma table_change epoch rows lo hi y y' gh sv : proper_rows rows ->
  coefficient_table (fun n m v => wmm_coefficient epoch rows n m y v) lo hi gh -> coefficient_table (wmm_rate rows) lo hi sv ->
  coefficient_table (fun n m v => wmm_coefficient epoch rows n m y' v) lo hi
    (fun n m => (fst (gh n m) - (y - y') * fst (sv n m), snd (gh n m) - (y - y') * snd (sv n m))).
Proof.
  intros P T S n m Hm. destruct (T n m Hm) as [T1 T2], (S n m Hm) as [S1 S2]. split; intros W.
  - destruct (T1 W) as [A B], (S1 W) as [C D]. cbn [fst snd]. split; [|intros Pm]; apply rate_change; auto.
  - rewrite (T2 W), (S2 W). cbn [fst snd]. f_equal; ring.
Qed.

Lemma result_of validity value internal lo hi N txs out i tx o : Forall2 (field_result validity value internal lo hi N) txs out ->
  nth_error txs i = Some tx -> nth_error out i = Some o -> field_result validity value internal lo hi N tx o.
Proof.
  intros R. revert i. induction R as [|tx0 o0 txs out R0 R IH]; intros [|i] I O; try discriminate.
  - injection I as ->. injection O as ->. exact R0.
  - exact (IH i I O).
Qed.

Lemma valid_result validity value internal lo hi N u x f : field_result validity value internal lo hi N (Some u, x) (Some f) -> in_validity validity (Some u).
Proof.
  destruct x as [[lat lon] rad], validity as [a b]. intros [G _].
  destruct (Rbar_le_dec a (Finite u)) as [V1|V1]; [destruct (Rbar_le_dec (Finite u) b) as [V2|V2]|].
  - exists u. auto.
  - exfalso. assert (K : Some f = None) by (apply G; intros (x & [= <-] & _ & X); now apply V2). discriminate K.
  - exfalso. assert (K : Some f = None) by (apply G; intros (x & [= <-] & X & _); now apply V1). discriminate K.
Qed.

Lemma wmm_change to_int to_float file epoch rows N internal lo hi mem txs :
  wmm_file to_int to_float file epoch rows -> proper_rows rows -> some_nonzero rows ->
  (forall r, In r rows -> (w_n r <= Z.of_nat N)%Z) -> (Z.of_nat N < 2 ^ 24)%Z ->
  exists td out, load_coeff_wmm to_int to_float file = Parsed td /\
    model_eval_array (year_validity td) [year_leaf td] internal lo hi CT_GEOCENTRIC_SPHERICAL CT_GEOCENTRIC_SPHERICAL (1, 1, 1) mem txs = Ok out /\
    forall i j u u' lat lon rad f f' sv, nth_error txs i = Some (Some u, (lat, lon, rad)) -> nth_error txs j = Some (Some u', (lat, lon, rad)) ->
      nth_error out i = Some (Some f) -> nth_error out j = Some (Some f') -> -90 <= lat <= 90 -> rad <> 0 ->
      coefficient_table (wmm_rate rows) lo hi sv ->
      vector_length (vector_minus f f') <= Rabs (mjd2k_to_decimal_year u - mjd2k_to_decimal_year u') * whole_field internal sv N rad.
Proof.
  intros F P S D B.
  destruct (wmm_field to_int to_float file epoch rows N internal lo hi mem F P S D B) as (td & E & H & _).
  destruct (H txs) as (out & O & R). exists td, out. split; [exact E|split; [exact O|]].
  intros i j u u' lat lon rad f f' sv I J Oi Oj A Hr T.
  pose proof (result_of _ _ _ _ _ _ _ _ i _ _ R I Oi) as Gi. pose proof (result_of _ _ _ _ _ _ _ _ j _ _ R J Oj) as Gj.
  pose proof (valid_result _ _ _ _ _ _ _ _ _ Gi) as Vi. pose proof (valid_result _ _ _ _ _ _ _ _ _ Gj) as Vj.
  destruct (wmm_table epoch rows N lo hi u D) as [gh Tg].
  pose proof (table_change epoch rows lo hi _ (mjd2k_to_decimal_year u') gh sv P Tg T) as Tg'.
  destruct (proj2 Gi u gh eq_refl Vi A Hr Tg) as (x & [= <-] & Fi). destruct (proj2 Gj u' _ eq_refl Vj A Hr Tg') as (x & [= <-] & Fj).
  refine (field_rate internal gh _ sv _ N lat lon rad f f' A Hr _ Fi Fj). intros n m _. cbn [fst snd]. split; [|intros _]; ring.
Qed.

Lemma wmm_rate_exists rows n m : exists v, wmm_rate rows n m v.
Proof.
  destruct (in_dec (fun x y : Z * Z => ltac:(decide equality; apply Z.eq_dec)) (n, Z.abs m) (map (fun r => (w_n r, w_m r)) rows)) as [I|I].
  - apply in_map_iff in I as (r & E & Hr). injection E as E1 E2. destruct (Z_lt_le_dec m 0) as [L|L].
    + exists (w_dh r). left. exists r. split; [exact Hr|]. split; [exact E1|split; [exact E2|right; now split]].
    + exists (w_dg r). left. exists r. split; [exact Hr|]. split; [exact E1|split; [exact E2|left; now split]].
  - exists 0. right. split; [|reflexivity]. intros r Hr [E1 E2]. apply I. apply in_map_iff. exists r. split; [congruence|exact Hr].
Qed.

Lemma rates_exist rows N lo hi : (forall r, In r rows -> (w_n r <= Z.of_nat N)%Z) -> exists sv, coefficient_table (wmm_rate rows) lo hi sv.
Proof.
  intros H. refine (table_exists (fun (_ : R) n m v => wmm_rate rows n m v) N _ _ lo hi 0).
  - intros _ n m _. apply wmm_rate_exists.
  - intros _ n m v L [(r & Hr & E & _)|[_ E]]; [|exact E]. specialize (H r Hr). lia.
Qed.

Lemma ex_rate : wmm_rate ex_wmm_rows 1 (-1) (-25) /\ wmm_rate ex_wmm_rows 1 0 6.
Proof.
  split; left.
  - eexists. split; [right; left; reflexivity|]. cbn. repeat split. right. split; [lia|reflexivity].
  - eexists. split; [left; reflexivity|]. cbn. repeat split. left. split; [lia|reflexivity].
Qed.

Lemma ex_stable : whole_field true (coefficient_difference (fun n m => g10 (n * (n + 1) / 2 + m)%nat) (fun _ _ => (0, 0))) 1 6371.2 = 2.
Proof.
  rewrite <- (proj2 (proj2 ex_field_size)). unfold whole_field. f_equal. apply ShEvalDeriv.sum_ext. intros n _. f_equal.
  unfold TruncationSpec.degree_size. f_equal. apply ShEvalDeriv.sum_ext. intros m _. unfold coefficient_difference. cbn [fst snd]. now rewrite !Rminus_0_r.
Qed.
