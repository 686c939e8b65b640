(** The change of the field of a SHC file with the time. *)
From Coq Require Import Bool List Arith ZArith Reals Lia Lra.
From Coquelicot Require Import Coquelicot.
From Verif Require Import Ord ROrd RbarOrd ArrModel GeoModel CoefModel ShEvalModel ShEvalSpec TextModel SparseSpec InterpSpec SeriesSpec TimeModel YearSetModel ShcModel ShcSpec ShcLoadModel ShcLoadSpec
  ShcLoadProofs FieldModel FieldSpec FieldProofs FileFieldSpec FileFieldProofs
  FieldSizeSpec FieldStableSpec FieldStableProofs FieldRateProofs IgrfRateProofs ShcRateSpec WmmExamples ShcLoadExamples FieldExamples.
Import ListNotations.
Open Scope R_scope.

Definition shc_node (d : @shc_data R) (ta : R) (n m : Z) (v : R) : Prop := file_value d n m ta v \/ ~ file_lists d n m /\ v = 0.

Lemma one_value d years n m t v w : proper_shc d -> proper_times years (shc_t d) -> file_value d n m t v -> file_value d n m t w -> v = w.
Proof.
  intros (_ & _ & P & _) (_ & T & _) (i & c & k & A & B & C & D) (i' & c' & k' & A' & B' & C' & D').
  assert (i' = i) as -> by exact (P i' i _ A' A). assert (k' = k) as ->; [|congruence].
  destruct (Nat.eq_dec k' k) as [E|E]; [exact E|]. pose proof (T k' k t t E C' C) as X.
  exfalso. destruct (leb_total t t) as [Y|Y], X as [X|X]; change (leb t t = false) in X; congruence.
Qed.

Lemma listed d n m t v : file_value d n m t v -> file_lists d n m.
Proof. intros (i & c & k & A & _). exact (nth_error_In _ _ A). Qed.

Lemma column_value years d ta tb n m u c s : proper_shc d -> proper_times years (shc_t d) -> two_columns d ta tb -> in_columns years d ta tb u ->
  shc_node d ta n m c -> shc_rate years d ta tb n m s ->
  shc_value years d n m u (c + (scale_time years u - column_time years ta) * s).
Proof.
  intros P T (Ia & Ib & Nb) [L U] C S. right.
  split.
  { destruct (shc_t d) as [|x [|y l]]; cbn; try lia; [destruct Ia|]. destruct Nb as [Nb _]. destruct Ia as [<-|[]], Ib as [<-|[]]. lra. }
  assert (G : shc_coefficient d (column_time years) n m (scale_time years u) (c + (scale_time years u - column_time years ta) * s)).
  { destruct C as [C|[Z ->]], S as [(ca & cb & A & B & ->)|[Z' ->]].
    - left. exists ta, c, tb, cb. rewrite (one_value d years n m ta ca c P T A C). repeat (split; [assumption|]). reflexivity.
    - exfalso. exact (Z' (listed _ _ _ _ _ C)).
    - exfalso. exact (Z (listed _ _ _ _ _ A)).
    - right. split; [exact Z|ring]. }
  destruct years; exact G.
Qed.

Lemma column_table years d ta tb lo hi u gh sv : proper_shc d -> proper_times years (shc_t d) -> two_columns d ta tb -> in_columns years d ta tb u ->
  coefficient_table (shc_node d ta) lo hi gh -> coefficient_table (shc_rate years d ta tb) lo hi sv ->
  file_coefficients years d lo hi u
    (fun n m => (fst (gh n m) + (scale_time years u - column_time years ta) * fst (sv n m), snd (gh n m) + (scale_time years u - column_time years ta) * snd (sv n m))).
Proof.
  intros P Q K Y T S n m Hm. destruct (T n m Hm) as [T1 T2], (S n m Hm) as [S1 S2]. split; intros W.
  - destruct (T1 W) as [A B], (S1 W) as [C D]. cbn [fst snd]. split; [|intros Pm]; apply (column_value years d ta tb); auto.
  - rewrite (T2 W), (S2 W). cbn [fst snd]. f_equal; ring.
Qed.

Lemma value_listed to_int to_float file d n m t : shc_file to_int to_float file d -> proper_shc d -> In t (shc_t d) -> file_lists d n m -> exists v, file_value d n m t v.
Proof.
  intros (cm & h & hd & ts & rows & _ & _ & _ & _ & _ & _ & Rw & _) (_ & _ & _ & P) I L.
  pose proof (rows_length to_int to_float _ _ _ Rw) as E.
  apply In_nth_error in I as [k I]. apply In_nth_error in L as [i L].
  destruct (nth_in (shc_gh d) i) as [c C]; [rewrite <- E; apply nth_error_Some; congruence|].
  destruct (nth_in c k) as [v V]; [rewrite (P c (nth_error_In _ _ C)); apply nth_error_Some; congruence|].
  exists v, i, c, k. now repeat split.
Qed.

Lemma listed_or_not (d : @shc_data R) n m : file_lists d n m \/ ~ file_lists d n m.
Proof. unfold file_lists. destruct (in_dec (list_eq_dec Z.eq_dec) [n; m] (shc_nm d)); auto. Qed.

Lemma columns_exist to_int to_float file d ta N lo hi : shc_file to_int to_float file d -> proper_shc d -> degrees_up_to d N -> In ta (shc_t d) ->
  exists gh, coefficient_table (shc_node d ta) lo hi gh.
Proof.
  intros F P D I. refine (table_exists (fun (_ : R) n m v => shc_node d ta n m v) N _ _ lo hi 0).
  - intros _ n m _. destruct (listed_or_not d n m) as [L|L].
    + destruct (value_listed to_int to_float file d n m ta F P I L) as [v V]. exists v. now left.
    + exists 0. right. now split.
  - intros _ n m v L [V|[_ E]]; [|exact E]. specialize (D n m (listed _ _ _ _ _ V)). lia.
Qed.

Lemma shc_rates_exist to_int to_float file years d ta tb N lo hi : shc_file to_int to_float file d -> proper_shc d -> degrees_up_to d N -> two_columns d ta tb ->
  exists sv, coefficient_table (shc_rate years d ta tb) lo hi sv.
Proof.
  intros F P D (Ia & Ib & _). refine (table_exists (fun (_ : R) n m v => shc_rate years d ta tb n m v) N _ _ lo hi 0).
  - intros _ n m _. destruct (listed_or_not d n m) as [L|L].
    + destruct (value_listed to_int to_float file d n m ta F P Ia L) as [v V]. destruct (value_listed to_int to_float file d n m tb F P Ib L) as [w W].
      eexists. left. exists v, w. split; [exact V|split; [exact W|reflexivity]].
    + exists 0. right. now split.
  - intros _ n m v L [(a & b & V & _)|[_ E]]; [|exact E]. specialize (D n m (listed _ _ _ _ _ V)). lia.
Qed.

Lemma shc_change to_int to_float years vstart vend file d N internal lo hi mem txs :
  shc_file to_int to_float file d -> proper_shc d -> proper_times years (shc_t d) -> degrees_up_to d N -> (Z.of_nat N < 2 ^ 24)%Z ->
  exists set out, load_coeff_shc to_int to_float years vstart vend file = Parsed set /\
    model_eval_array (shc_validity set) [shc_leaf set] internal lo hi CT_GEOCENTRIC_SPHERICAL CT_GEOCENTRIC_SPHERICAL (1, 1, 1) mem txs = Ok out /\
    forall i j u u' lat lon rad f f' ta tb sv, nth_error txs i = Some (Some u, (lat, lon, rad)) -> nth_error txs j = Some (Some u', (lat, lon, rad)) ->
      nth_error out i = Some (Some f) -> nth_error out j = Some (Some f') -> -90 <= lat <= 90 -> rad <> 0 ->
      two_columns d ta tb -> in_columns years d ta tb u -> in_columns years d ta tb u' ->
      coefficient_table (shc_rate years d ta tb) lo hi sv ->
      vector_length (vector_minus f f') <= Rabs (scale_time years u - scale_time years u') * whole_field internal sv N rad.
Proof.
  intros F P T D B.
  destruct (array_field to_int to_float years vstart vend file d N internal lo hi mem txs F P T D B) as (set & out & E1 & E2 & E3 & H).
  exists set, out. split; [exact E1|split; [exact E2|]].
  intros i j u u' lat lon rad f f' ta tb sv I J Oi Oj A Hr K Y Y' S.
  pose proof (H i _ _ _ _ _ I Oi) as Gi. pose proof (H j _ _ _ _ _ J Oj) as Gj.
  pose proof (valid_result (shc_validity set) (fun u n m v => shc_value years d n m u v) internal lo hi N u (lat, lon, rad) f Gi) as Vi.
  pose proof (valid_result (shc_validity set) (fun u n m v => shc_value years d n m u v) internal lo hi N u' (lat, lon, rad) f' Gj) as Vj.
  destruct (columns_exist to_int to_float file d ta N lo hi F P D (proj1 K)) as [gh Tg].
  destruct (proj2 Gi u _ eq_refl Vi A Hr (column_table years d ta tb lo hi _ gh sv P T K Y Tg S)) as (x & [= <-] & Fi).
  destruct (proj2 Gj u' _ eq_refl Vj A Hr (column_table years d ta tb lo hi _ gh sv P T K Y' Tg S)) as (x & [= <-] & Fj).
  refine (field_rate internal _ _ sv _ N lat lon rad f f' A Hr _ Fi Fj). intros n m _. cbn [fst snd]. split; [|intros _]; ring.
Qed.

Lemma ex_shc_rate : two_columns ex_load_shc 2000 2010 /\ (forall years t, in_columns years ex_load_shc 2000 2010 t) /\
  shc_rate true ex_load_shc 2000 2010 1 0 ((3 - 1) / (2010 - 2000)).
Proof.
  split; [|split].
  - split; [right; now left|split; [now left|]]. split; [lra|]. intros x [<-|[<-|[]]]; lra.
  - intros years t. split; right; intros x [<-|[<-|[]]]; lra.
  - left. exists 1, 3. split; [|split; [|reflexivity]].
    + exists 0%nat, [3; 1], 1%nat. now repeat split.
    + exists 0%nat, [3; 1], 0%nat. now repeat split.
Qed.
