(** The change of the field of an EMM model with the time. *)
From Coq Require Import Bool List Arith ZArith Reals Lia Lra.
From Coquelicot Require Import Coquelicot.
From Verif Require Import Ord ROrd RbarOrd ArrModel GeoModel CoefModel ShEvalModel ShEvalSpec TextModel SparseSpec InterpSpec TimeModel YearSetModel EmmModel EmmSpec FieldModel FieldSpec FieldProofs FileFieldSpec FileFieldProofs
  FieldSizeSpec FieldStableSpec FieldStableProofs FieldRateProofs IgrfRateSpec IgrfRateProofs EmmExamples.
Import ListNotations.
Open Scope R_scope.

Lemma variable_row vs sec i w : same_rows vs sec -> nth_error sec i = Some w -> exists s, nth_error vs i = Some s /\ m_n s = m_n w /\ m_m s = m_m w.
Proof.
  intros S. revert i. induction S as [|s0 w0 vs sec H S IH]; intros [|i] E; try discriminate.
  - injection E as <-. exists s0. now split.
  - exact (IH i E).
Qed.

Lemma emm_rate_change epoch vs cs sec n m y y' v s : same_rows vs sec -> proper_emm (vs ++ cs) -> emm_coefficient epoch vs cs sec n m y v -> emm_rate sec n m s ->
  emm_coefficient epoch vs cs sec n m y' (v - (y - y') * s).
Proof.
  intros Q [_ P] [(i & s0 & w & a & b & I & J & O & O' & ->)|[(s0 & I & O)|[Z ->]]] [(w' & K & W)|[Z' ->]].
  - apply In_nth_error in K as [j K]. destruct (variable_row vs sec j w' Q K) as (s' & I' & E1 & E2).
    destruct O as (N & M & O), W as (N' & M' & W), O' as (N2 & M2 & O').
    assert (i = j) as <-.
    { apply (P i j s0 s'); try congruence; (rewrite nth_error_app1; [assumption|apply nth_error_Some; congruence]). }
    assert (w' = w) as -> by congruence. left. exists i, s0, w, a, b. repeat (split; [first [assumption|repeat split; assumption]|]).
    destruct W as [[A ->]|[A ->]], O' as [[B ->]|[B ->]]; try lia; ring.
  - exfalso. destruct O' as (N & M & _). exact (Z' w (nth_error_In _ _ J) (conj N M)).
  - exfalso. apply In_nth_error in K as [j K]. destruct (variable_row vs sec j w' Q K) as (s' & I' & E1 & E2).
    apply In_nth_error in I as [i I]. destruct O as (N & M & _), W as (N' & M' & _).
    assert (L : (j < length vs)%nat) by (apply nth_error_Some; congruence).
    assert (j = (length vs + i)%nat).
    { apply (P j (length vs + i)%nat s' s0); try congruence; [rewrite nth_error_app1; assumption|].
      rewrite nth_error_app2 by lia. now replace (length vs + i - length vs)%nat with i by lia. }
    lia.
  - right. left. exists s0. split; [exact I|]. now replace (v - (y - y') * 0) with v by ring.
  - exfalso. apply In_nth_error in K as [j K]. destruct (variable_row vs sec j w' Q K) as (s' & I' & E1 & E2). destruct W as (N & M & _).
    apply (Z s'); [apply in_or_app; left; exact (nth_error_In _ _ I')|]. split; congruence.
  - right. right. split; [exact Z|ring].
Qed.

Lemma emm_table_change epoch vs cs sec lo hi y y' gh sv : same_rows vs sec -> proper_emm (vs ++ cs) ->
  coefficient_table (fun n m v => emm_coefficient epoch vs cs sec n m y v) lo hi gh -> coefficient_table (emm_rate sec) lo hi sv ->
  coefficient_table (fun n m v => emm_coefficient epoch vs cs sec n m y' v) lo hi
    (fun n m => (fst (gh n m) - (y - y') * fst (sv n m), snd (gh n m) - (y - y') * snd (sv n m))).
Proof.
  intros Q P T S n m Hm. destruct (T n m Hm) as [T1 T2], (S n m Hm) as [S1 S2]. split; intros W.
  - destruct (T1 W) as [A B], (S1 W) as [C D]. cbn [fst snd]. split; [|intros Pm]; apply emm_rate_change; auto.
  - rewrite (T2 W), (S2 W). cbn [fst snd]. f_equal; ring.
Qed.

Lemma emm_change to_int to_float file_static file_secvar epoch variable constant secvar N internal lo hi mem txs :
  emm_file to_int to_float file_static epoch (variable ++ constant) -> emm_file to_int to_float file_secvar epoch secvar ->
  same_rows variable secvar -> proper_emm (variable ++ constant) -> secvar <> [] -> nonzero_rows constant ->
  (forall r, In r (variable ++ constant) -> (m_n r <= Z.of_nat N)%Z) -> (Z.of_nat N < 2 ^ 24)%Z ->
  exists emm out, load_coeff_emm to_int to_float file_static file_secvar = Parsed emm /\
    model_eval_array (emm_validity emm) (emm_items emm) internal lo hi CT_GEOCENTRIC_SPHERICAL CT_GEOCENTRIC_SPHERICAL (1, 1, 1) mem txs = Ok out /\
    forall i j u u' lat lon rad f f' sv, nth_error txs i = Some (Some u, (lat, lon, rad)) -> nth_error txs j = Some (Some u', (lat, lon, rad)) ->
      nth_error out i = Some (Some f) -> nth_error out j = Some (Some f') -> -90 <= lat <= 90 -> rad <> 0 ->
      coefficient_table (emm_rate secvar) lo hi sv ->
      vector_length (vector_minus f f') <= Rabs (mjd2k_to_decimal_year u - mjd2k_to_decimal_year u') * whole_field internal sv N rad.
Proof.
  intros F F' Q P S0 S1 D B.
  destruct (emm_field to_int to_float file_static file_secvar epoch variable constant secvar N internal lo hi mem F F' Q P S0 S1 D B) as (emm & E & H & _).
  destruct (H txs) as (out & O & R). exists emm, out. split; [exact E|split; [exact O|]].
  intros i j u u' lat lon rad f f' sv I J Oi Oj A Hr T.
  pose proof (result_of _ _ _ _ _ _ _ _ i _ _ R I Oi) as Gi. pose proof (result_of _ _ _ _ _ _ _ _ j _ _ R J Oj) as Gj.
  pose proof (valid_result _ _ _ _ _ _ _ _ _ Gi) as Vi. pose proof (valid_result _ _ _ _ _ _ _ _ _ Gj) as Vj.
  destruct (emm_table epoch variable constant secvar N lo hi u Q D) as [gh Tg].
  pose proof (emm_table_change epoch variable constant secvar lo hi _ (mjd2k_to_decimal_year u') gh sv Q P Tg T) as Tg'.
  destruct (proj2 Gi u gh eq_refl Vi A Hr Tg) as (x & [= <-] & Fi). destruct (proj2 Gj u' _ eq_refl Vj A Hr Tg') as (x & [= <-] & Fj).
  refine (field_rate internal gh _ sv _ N lat lon rad f f' A Hr _ Fi Fj). intros n m _. cbn [fst snd]. split; [|intros _]; ring.
Qed.

Lemma emm_rates_exist secvar N lo hi : (forall r, In r secvar -> (m_n r <= Z.of_nat N)%Z) -> exists sv, coefficient_table (emm_rate secvar) lo hi sv.
Proof.
  intros H. refine (table_exists (fun (_ : R) n m v => emm_rate secvar n m v) N _ _ lo hi 0).
  - intros _ n m _.
    destruct (in_dec (fun x y : Z * Z => ltac:(decide equality; apply Z.eq_dec)) (n, Z.abs m) (map (fun r => (m_n r, m_m r)) secvar)) as [I|I].
    + apply in_map_iff in I as (r & E & Hr). injection E as E1 E2. destruct (Z_lt_le_dec m 0) as [L|L].
      * exists (m_h r). left. exists r. split; [exact Hr|]. split; [exact E1|split; [exact E2|right; now split]].
      * exists (m_g r). left. exists r. split; [exact Hr|]. split; [exact E1|split; [exact E2|left; now split]].
    + exists 0. right. split; [|reflexivity]. intros r Hr [E1 E2]. apply I. apply in_map_iff. exists r. split; [congruence|exact Hr].
  - intros _ n m v L [(r & Hr & E & _)|[_ E]]; [|exact E]. specialize (H r Hr). lia.
Qed.

Lemma ex_emm_rate : emm_rate ex_emm_rates 1 (-1) (-30) /\ emm_rate ex_emm_rates 2 0 0.
Proof.
  split.
  - left. eexists. split; [right; left; reflexivity|]. cbn. split; [reflexivity|split; [reflexivity|right; split; [lia|reflexivity]]].
  - right. split; [|reflexivity]. intros w [<-|[<-|[]]] [E _]; discriminate E.
Qed.
