(** The change of the field of an IGRF file with the time. *)
From Coq Require Import Bool List Arith ZArith Reals Lia Lra.
From Coquelicot Require Import Coquelicot.
From Verif Require Import Ord ROrd RbarOrd ArrModel GeoModel CoefModel ShEvalModel ShEvalSpec TextModel SparseSpec InterpSpec TimeModel YearSetModel IgrfModel IgrfSpec FieldModel FieldSpec FieldProofs FileFieldSpec FileFieldProofs
  FieldSizeSpec FieldStableSpec FieldStableProofs FieldRateProofs IgrfRateSpec IgrfExamples.
Import ListNotations.
Open Scope R_scope.

(** The values at the [k]-th time *)
Definition igrf_node (rows : list igrf_row) (k : nat) (n m : Z) (v : R) : Prop :=
  (exists r, In r rows /\ i_n r = n /\ i_m r = m /\ nth_error (i_values r) k = Some v) \/
  (forall r, In r rows -> ~ (i_n r = n /\ i_m r = m)) /\ v = 0.

Lemma same_igrf times rows a b : proper_igrf times rows -> In a rows -> In b rows -> i_n a = i_n b -> i_m a = i_m b -> a = b.
Proof.
  intros (_ & _ & P) A B E F. apply In_nth_error in A as [i A]. apply In_nth_error in B as [j B]. pose proof (P i j a b A B E F) as <-. congruence.
Qed.

Lemma node_value times rows k ta n m y c s : proper_igrf times rows -> nth_error times k = Some ta -> in_span times k y ->
  igrf_node rows k n m c -> igrf_rate times rows k n m s -> igrf_coefficient times rows n m y (c + (y - ta) * s).
Proof.
  intros P Ta [(ta' & Ta' & L) U] C S. rewrite Ta in Ta'. injection Ta' as <-.
  destruct C as [(r & I & N & M & V)|[Z ->]], S as [(q & J & N' & M' & W)|[Z' ->]].
  - assert (q = r) as -> by (apply (same_igrf times rows); try assumption; congruence). left. exists r. repeat (split; [assumption|]).
    destruct W as [(ta' & ca & tb & cb & G & ->)|[E ->]].
    + left. exists k, ta', ca, tb, cb. destruct G as (G1 & G2 & G3 & G4). rewrite Ta in G1. injection G1 as <-. rewrite V in G2. injection G2 as <-.
      split; [repeat split; assumption|]. split; [left; exact L|]. split; [exact (U tb G3)|reflexivity].
    + right. exists k, ta, c. repeat (split; [assumption|]). split; [left; exact L|ring].
  - exfalso. exact (Z' r I (conj N M)).
  - exfalso. exact (Z q J (conj N' M')).
  - right. split; [exact Z|ring].
Qed.

Lemma node_table times rows k ta lo hi y gh sv : proper_igrf times rows -> nth_error times k = Some ta -> in_span times k y ->
  coefficient_table (igrf_node rows k) lo hi gh -> coefficient_table (igrf_rate times rows k) lo hi sv ->
  coefficient_table (fun n m v => igrf_coefficient times rows n m y v) lo hi
    (fun n m => (fst (gh n m) + (y - ta) * fst (sv n m), snd (gh n m) + (y - ta) * snd (sv n m))).
Proof.
  intros P K Y T S n m Hm. destruct (T n m Hm) as [T1 T2], (S n m Hm) as [S1 S2]. split; intros W.
  - destruct (T1 W) as [A B], (S1 W) as [C D]. cbn [fst snd]. split; [|intros Pm]; apply (node_value times rows k); auto.
  - rewrite (T2 W), (S2 W). cbn [fst snd]. f_equal; ring.
Qed.

Lemma row_or_not rows n m : (exists r, In r rows /\ i_n r = n /\ i_m r = m) \/ (forall r, In r rows -> ~ (i_n r = n /\ i_m r = m)).
Proof.
  destruct (in_dec (fun x y : Z * Z => ltac:(decide equality; apply Z.eq_dec)) (n, m) (map (fun r => (i_n r, i_m r)) rows)) as [I|I].
  - apply in_map_iff in I as (r & E & Hr). injection E as E1 E2. left. now exists r.
  - right. intros r Hr [E1 E2]. apply I. apply in_map_iff. exists r. split; [congruence|exact Hr].
Qed.

Lemma nth_in {A} (l : list A) k : (k < length l)%nat -> exists v, nth_error l k = Some v.
Proof. intros L. destruct (nth_error l k) as [v|] eqn:E; [now exists v|]. apply nth_error_None in E. lia. Qed.

Lemma nodes_exist times rows k N lo hi : proper_igrf times rows -> (k < length times)%nat -> (forall r, In r rows -> (i_n r <= Z.of_nat N)%Z) ->
  exists gh, coefficient_table (igrf_node rows k) lo hi gh.
Proof.
  intros (_ & P & _) K H. refine (table_exists (fun (_ : R) n m v => igrf_node rows k n m v) N _ _ lo hi 0).
  - intros _ n m _. destruct (row_or_not rows n m) as [(r & Hr & E1 & E2)|Z].
    + destruct (nth_in (i_values r) k) as [v V]; [now rewrite (proj2 (P r Hr))|]. exists v. left. now exists r.
    + exists 0. right. now split.
  - intros _ n m v L [(r & Hr & E & _)|[_ E]]; [|exact E]. specialize (H r Hr). lia.
Qed.

Lemma igrf_rates_exist times rows k N lo hi : proper_igrf times rows -> (k < length times)%nat -> (forall r, In r rows -> (i_n r <= Z.of_nat N)%Z) ->
  exists sv, coefficient_table (igrf_rate times rows k) lo hi sv.
Proof.
  intros (_ & P & _) K H. refine (table_exists (fun (_ : R) n m v => igrf_rate times rows k n m v) N _ _ lo hi 0).
  - intros _ n m _. destruct (row_or_not rows n m) as [(r & Hr & E1 & E2)|Z].
    + destruct (Nat.eq_dec (S k) (length times)) as [E|E].
      * exists (i_rate r). left. exists r. repeat (split; [assumption|]). right. now split.
      * pose proof (proj2 (P r Hr)) as Q.
        destruct (nth_in times k) as [ta A]; [lia|]. destruct (nth_in times (S k)) as [tb B]; [lia|].
        destruct (nth_in (i_values r) k) as [ca C]; [lia|]. destruct (nth_in (i_values r) (S k)) as [cb D]; [lia|].
        eexists. left. exists r. repeat (split; [assumption|]). left. exists ta, ca, tb, cb. split; [repeat split; assumption|reflexivity].
    + exists 0. right. now split.
  - intros _ n m v L [(r & Hr & E & _)|[_ E]]; [|exact E]. specialize (H r Hr). lia.
Qed.

Lemma igrf_change to_int to_float file times rows t1 t2 N internal lo hi mem txs :
  igrf_file to_int to_float file times rows -> increasing times -> proper_igrf times rows ->
  nth_error times 0 = Some t1 -> nth_error times (length times - 1) = Some t2 ->
  (forall r, In r rows -> (i_n r <= Z.of_nat N)%Z) -> (Z.of_nat N < 2 ^ 24)%Z ->
  exists td out, load_coeff_igrf to_int to_float file = Parsed td /\
    model_eval_array (year_validity td) [year_leaf td] internal lo hi CT_GEOCENTRIC_SPHERICAL CT_GEOCENTRIC_SPHERICAL (1, 1, 1) mem txs = Ok out /\
    forall i j u u' lat lon rad f f' k sv, nth_error txs i = Some (Some u, (lat, lon, rad)) -> nth_error txs j = Some (Some u', (lat, lon, rad)) ->
      nth_error out i = Some (Some f) -> nth_error out j = Some (Some f') -> -90 <= lat <= 90 -> rad <> 0 ->
      in_span times k (mjd2k_to_decimal_year u) -> in_span times k (mjd2k_to_decimal_year u') ->
      coefficient_table (igrf_rate times rows k) lo hi sv ->
      vector_length (vector_minus f f') <= Rabs (mjd2k_to_decimal_year u - mjd2k_to_decimal_year u') * whole_field internal sv N rad.
Proof.
  intros F Inc P T1 T2 D B.
  destruct (igrf_field to_int to_float file times rows t1 t2 N internal lo hi mem F Inc P T1 T2 D B) as (td & E & H & _).
  destruct (H txs) as (out & O & R). exists td, out. split; [exact E|split; [exact O|]].
  intros i j u u' lat lon rad f f' k sv I J Oi Oj A Hr Y Y' T.
  pose proof (result_of _ _ _ _ _ _ _ _ i _ _ R I Oi) as Gi. pose proof (result_of _ _ _ _ _ _ _ _ j _ _ R J Oj) as Gj.
  pose proof (valid_result _ _ _ _ _ _ _ _ _ Gi) as Vi. pose proof (valid_result _ _ _ _ _ _ _ _ _ Gj) as Vj.
  pose proof Y as [(ta & K & _) _].
  destruct (nodes_exist times rows k N lo hi P) as [gh Tg]; [apply nth_error_Some; congruence|exact D|].
  destruct (proj2 Gi u _ eq_refl Vi A Hr (node_table times rows k ta lo hi _ gh sv P K Y Tg T)) as (x & [= <-] & Fi).
  destruct (proj2 Gj u' _ eq_refl Vj A Hr (node_table times rows k ta lo hi _ gh sv P K Y' Tg T)) as (x & [= <-] & Fj).
  refine (field_rate internal _ _ sv _ N lat lon rad f f' A Hr _ Fi Fj). intros n m _. cbn [fst snd]. split; [|intros _]; ring.
Qed.

Lemma ex_igrf_rate : in_span [2010; 2015] 0 2011 /\ in_span [2010; 2015] 0 2015 /\ in_span [2010; 2015] 1 2018 /\
  igrf_rate [2010; 2015] ex_igrf_rows 0 1 (-1) ((4797 - 4944) / (2015 - 2010)) /\ igrf_rate [2010; 2015] ex_igrf_rows 1 1 (-1) (-26).
Proof.
  assert (X : exists r, In r ex_igrf_rows /\ i_n r = 1%Z /\ i_m r = (-1)%Z /\ i_values r = [4944; 4797] /\ i_rate r = -26).
  { unfold ex_igrf_rows. eexists. split; [right; right; left; reflexivity|]. now repeat split. }
  destruct X as (r & I & N & M & V & W).
  split; [split; [exists 2010; split; [reflexivity|lra]|intros tb [= <-]; lra]|].
  split; [split; [exists 2010; split; [reflexivity|lra]|intros tb [= <-]; lra]|].
  split; [split; [exists 2015; split; [reflexivity|lra]|intros tb X; discriminate X]|].
  split; left; exists r; repeat (split; [assumption|]).
  - left. exists 2010, 4944, 2015, 4797. rewrite V. now repeat split.
  - right. now split.
Qed.
