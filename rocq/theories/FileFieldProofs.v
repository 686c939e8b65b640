(** Proofs about the field of the models loaded from WMM, IGRF and EMM files. *)
From Coq Require Import Bool List Arith ZArith Reals Lia Lra.
From Coquelicot Require Import Coquelicot.
From Verif Require Import Ord ROrd RbarOrd BisectModel InterpModel InterpSpec SnapshotProofs ArrModel CoefModel LegendreModel LegendreSpec GeoModel ShEvalModel ShEvalSpec
  SparseModel SparseSpec SparseProofs SeriesModel SeriesSpec SeriesProofs SeriesLineProofs TimeModel TempModel TempSpec TempProofs TempEquivProofs YearSetModel
  TextModel TextSpec TextProofs ShcModel ShcProofs WmmModel WmmSpec WmmProofs IgrfModel IgrfSpec IgrfProofs EmmModel EmmSpec EmmProofs FieldModel FieldSpec FieldProofs FileFieldSpec.
Import ListNotations.
Open Scope R_scope.
Set Bullet Behavior "Strict Subproofs".

(** ** Both ways of the evaluation *)
Definition evaluates (validity : Rbar * Rbar) (items : list leaf_set) (result : option R * vec3 -> option vec3 -> Prop) internal lo hi mem : Prop :=
  (forall txs, exists out, model_eval_array validity items internal lo hi CT_GEOCENTRIC_SPHERICAL CT_GEOCENTRIC_SPHERICAL (1, 1, 1) mem txs = Ok out /\
     Forall2 result txs out) /\
  (forall t location, exists out, model_eval_scalar validity items internal lo hi CT_GEOCENTRIC_SPHERICAL CT_GEOCENTRIC_SPHERICAL (1, 1, 1) mem t location
       = Ok (dims location, out) /\
     Forall2 result (map (fun ix => (t, at_index location ix)) (indices (dims location))) out).

Lemma evaluates_set items validity (value : R -> Z -> Z -> R -> Prop) N internal lo hi mem :
  (1 <= length items <= 16)%nat -> List.Forall built_set items -> disjoint_sets items ->
  (forall t lo hi n m v, valid_nm n m -> value t n m v -> exists vs, v = fold_right Rplus 0 vs /\
     Forall2 (fun (l : leaf_set) w => exists result, td_call (fst l) (apply_convert (first_convert items)) (Some t) lo hi = Some result /\
                bounded_coefficient lo hi result n m w) items vs) ->
  (forall t n m, valid_nm n m -> exists v, value t n m v) ->
  (forall t n m v, (Z.of_nat N < n)%Z -> value t n m v -> v = 0) ->
  evaluates validity items (field_result validity value internal lo hi N) internal lo hi mem.
Proof.
  intros HL Hb Hd Hcall Hex Habove. split.
  - intro txs. destruct (array_set items validity value N HL Hb Hd Hcall Hex Habove internal lo hi mem txs) as (out & E & L & H).
    exists out. split; [exact E|]. apply forall2_nth; [now symmetry|]. intros k [t [[lat lon] rad]] Hk.
    destruct (nth_error out k) as [o|] eqn:Ho; [|apply nth_error_None in Ho; assert (nth_error txs k <> None) by congruence; apply nth_error_Some in H0; lia].
    exists o. split; [reflexivity|]. exact (H k t lat lon rad o Hk Ho).
  - intros t location. destruct (scalar_set items validity value N HL Hb Hd Hcall Hex Habove internal lo hi mem t location) as (out & E & L & H).
    exists out. split; [exact E|]. apply forall2_nth; [rewrite map_length; now symmetry|]. intros k tx Hk.
    apply nth_map_some in Hk as (ix & Hix & ->). destruct (at_index location ix) as [[lat lon] rad] eqn:Ex.
    destruct (nth_error out k) as [o|] eqn:Ho; [|apply nth_error_None in Ho; assert (nth_error (indices (dims location)) k <> None) by congruence; apply nth_error_Some in H0; lia].
    exists o. split; [reflexivity|]. exact (H k ix lat lon rad o Hix Ex Ho).
Qed.

(** ** WMM files *)
Section Files.
Variables (to_int : text -> option Z) (to_float : text -> option R).

Lemma kept_small rows N n m ab : (forall r, In r rows -> (w_n r <= N)%Z) -> In ((n, m), ab) (flat_map kept rows) -> (n <= N)%Z.
Proof. destruct ab as [a b]. intros H K. apply kept_in in K as (r & Hr & <- & _). now apply H. Qed.

Lemma year_set_built indices coefficients times s e conv td : mk_year_set indices coefficients times 2 s e conv = Some td ->
  (forall i n m, nth_error indices i = Some (n, m) -> valid_nm n m /\ (n < 2 ^ 24)%Z) ->
  (forall i j p, nth_error indices i = Some p -> nth_error indices j = Some p -> i = j) -> (2 <= length times)%nat ->
  built_set (year_leaf td).
Proof.
  unfold mk_year_set. intros E Hv Hd L. destruct (mk_time_dependent indices coefficients times 2 s e (fun x => x)) as [td0|] eqn:E0; [|discriminate].
  injection E as <-. do 8 eexists. split; [exact E0|]. cbn [year_leaf fst td_sparse td_times td_order].
  split; [reflexivity|split; [reflexivity|split; [reflexivity|split; [exact Hv|split; [exact Hd|intros _; exact L]]]]].
Qed.

Lemma nodup_index {A} (l : list A) : NoDup l -> forall i j p, nth_error l i = Some p -> nth_error l j = Some p -> i = j.
Proof. intros H i j p H1 H2. apply (proj1 (NoDup_nth_error _) H); [apply nth_error_Some; congruence|congruence]. Qed.

Lemma wmm_coefficient_exists epoch rows n m year : exists v, wmm_coefficient epoch rows n m year v.
Proof.
  destruct (in_dec (fun x y : Z * Z => ltac:(decide equality; apply Z.eq_dec)) (n, Z.abs m) (map (fun r => (w_n r, w_m r)) rows)) as [I|I].
  - apply in_map_iff in I as (r & E & Hr). injection E as E1 E2. destruct (Z_lt_le_dec m 0) as [L|L].
    + exists (w_h r + w_dh r * (year - epoch)). left. exists r. split; [exact Hr|]. split; [exact E1|split; [exact E2|right; now split]].
    + exists (w_g r + w_dg r * (year - epoch)). left. exists r. split; [exact Hr|]. split; [exact E1|split; [exact E2|left; now split]].
  - exists 0. right. split; [|reflexivity]. intros r Hr [E1 E2]. apply I. apply in_map_iff. exists r. split; [congruence|exact Hr].
Qed.
Lemma wmm_coefficient_above epoch rows N n m year v : (forall r, In r rows -> (w_n r <= Z.of_nat N)%Z) -> (Z.of_nat N < n)%Z ->
  wmm_coefficient epoch rows n m year v -> v = 0.
Proof. intros H L [(r & Hr & E & _)|[_ E]]; [|exact E]. specialize (H r Hr). lia. Qed.

Lemma wmm_field file epoch rows N internal lo hi mem :
  wmm_file to_int to_float file epoch rows -> proper_rows rows -> some_nonzero rows ->
  (forall r, In r rows -> (w_n r <= Z.of_nat N)%Z) -> (Z.of_nat N < 2 ^ 24)%Z ->
  exists td, load_coeff_wmm to_int to_float file = Parsed td /\
    evaluates (year_validity td) [year_leaf td]
      (field_result (Finite (decimal_year_to_mjd2k epoch), Finite (decimal_year_to_mjd2k (epoch + 5)))
         (fun u n m v => wmm_coefficient epoch rows n m (mjd2k_to_decimal_year u) v) internal lo hi N) internal lo hi mem.
Proof.
  intros Hf P Hz Hn HN. destruct (wmm_load to_int to_float file epoch rows Hf P Hz) as (td & El & Ev & A). exists td. split; [exact El|].
  assert (Eva : year_validity td = (Finite (decimal_year_to_mjd2k epoch), Finite (decimal_year_to_mjd2k (epoch + 5)))) by (unfold year_validity; now rewrite Ev).
  rewrite Eva. apply evaluates_set.
  - apply single_length.
  - constructor; [|constructor].
    destruct Hf as (header & lines & rest & e & name & version & more & -> & Hh & He & Hl & Hr).
    pose proof (rows_complete to_int to_float lines rest rows Hl Hr) as Ep.
    unfold load_coeff_wmm, parse_wmm_file, parse_wmm_header in El. apply split_spec in Hh. rewrite Hh in El. cbn [field nth_error pbind] in El.
    unfold number at 1 in El. rewrite He in El. cbn [pbind] in El. unfold parse_wmm_coefficients in El. rewrite Ep in El. cbn [pbind] in El.
    destruct (flat_map kept rows) as [|k ks] eqn:Ek; [discriminate|]. cbn [pbind map] in El. cbn [wmm_nm wmm_gh wmm_t] in El.
    destruct (mk_year_set _ _ _ _ _ _ _) as [td'|] eqn:Em; [|discriminate]. injection El as ->.
    eapply year_set_built; [exact Em| | |cbn; lia].
    + change (fst k :: map fst ks) with (map fst (k :: ks)). rewrite <- Ek. intros i n m Hi. apply nth_error_In, in_map_iff in Hi as ([[n' m'] [a b]] & E & Hi).
      cbn [fst] in E. injection E as -> ->. pose proof (kept_small rows (Z.of_nat N) n m (a, b) Hn Hi) as Ln.
      apply kept_in in Hi as (r & Hin & En & _ & H). pose proof (proj1 P r Hin). split; [unfold valid_nm; lia|lia].
    + change (fst k :: map fst ks) with (map fst (k :: ks)). rewrite <- Ek. apply nodup_index. now apply kept_nodup.
  - apply single_disjoint.
  - apply single_call. intros t lo' hi'. exact (A t lo' hi').
  - intros t n m _. apply wmm_coefficient_exists.
  - intros t n m v L. now apply (wmm_coefficient_above epoch rows N).
Qed.

Lemma wmm_table epoch rows N lo hi u : (forall r, In r rows -> (w_n r <= Z.of_nat N)%Z) ->
  exists gh, coefficient_table (fun n m v => wmm_coefficient epoch rows n m (mjd2k_to_decimal_year u) v) lo hi gh.
Proof.
  intros H. apply (table_exists (fun u n m v => wmm_coefficient epoch rows n m (mjd2k_to_decimal_year u) v) N).
  - intros t n m _. apply wmm_coefficient_exists.
  - intros t n m v L. now apply (wmm_coefficient_above epoch rows N).
Qed.

(** ** IGRF files *)
Lemma between (times : list R) year : (2 <= length times)%nat -> year <= last times 0 ->
  exists k ta tb, nth_error times k = Some ta /\ nth_error times (S k) = Some tb /\ (ta <= year \/ k = O) /\ year <= tb.
Proof.
  induction times as [|x times IH]; intros L H; [cbn in L; lia|]. destruct times as [|y times]; [cbn in L; lia|].
  destruct (Rle_dec year y) as [D|D]; [exists 0%nat, x, y; repeat split; auto|].
  destruct times as [|z times]; [cbn in H; lra|]. destruct IH as (k & ta & tb & H1 & H2 & H3 & H4); [cbn [length]; lia|exact H|].
  exists (S k), ta, tb. split; [exact H1|split; [exact H2|split; [|exact H4]]]. left. destruct H3 as [H3| ->]; [exact H3|]. injection H1 as <-. lra.
Qed.

Lemma igrf_value_exists times r year : times <> [] -> length (i_values r) = length times -> exists v, igrf_value times r year v.
Proof.
  intros Ht L.
  assert (At : forall k, (k < length times)%nat -> exists t c, nth_error times k = Some t /\ nth_error (i_values r) k = Some c).
  { intros k Hk. destruct (nth_error times k) as [t|] eqn:E1; [|apply nth_error_None in E1; lia].
    destruct (nth_error (i_values r) k) as [c|] eqn:E2; [|apply nth_error_None in E2; lia]. now exists t, c. }
  assert (Lp : (0 < length times)%nat) by (destruct times; [contradiction|cbn; lia]).
  destruct (At (length times - 1)%nat) as (t & c & H1 & H2); [lia|].
  destruct (Nat.eq_dec (length times) 1) as [L1|L1].
  { exists (c + i_rate r * (year - t)). right. exists (length times - 1)%nat, t, c. repeat split; try assumption; [lia|right; lia]. }
  destruct (Rle_dec t year) as [D|D].
  { exists (c + i_rate r * (year - t)). right. exists (length times - 1)%nat, t, c. repeat split; try assumption; [lia|now left]. }
  rewrite (last_nth times 0 Ht) in H1. injection H1 as H1.
  destruct (between times year) as (k & ta & tb & K1 & K2 & K3 & K4); [lia|rewrite H1; lra|].
  assert (Lk : (S k < length times)%nat) by (apply nth_error_Some; congruence).
  destruct (At k ltac:(lia)) as (ta' & ca & A1 & A2). destruct (At (S k) Lk) as (tb' & cb & B1 & B2).
  rewrite K1 in A1. injection A1 as <-. rewrite K2 in B1. injection B1 as <-.
  exists (line ta ca tb cb year). left. exists k, ta, ca, tb, cb. split; [repeat split; assumption|]. repeat split; assumption.
Qed.

Lemma igrf_coefficient_exists times rows n m year : times <> [] -> proper_igrf times rows -> exists v, igrf_coefficient times rows n m year v.
Proof.
  intros Ht (_ & Hv & _).
  destruct (in_dec (fun x y : Z * Z => ltac:(decide equality; apply Z.eq_dec)) (n, m) (map (fun r => (i_n r, i_m r)) rows)) as [I|I].
  - apply in_map_iff in I as (r & E & Hr). injection E as E1 E2. destruct (igrf_value_exists times r year Ht (proj2 (Hv r Hr))) as [v Hw].
    exists v. left. now exists r.
  - exists 0. right. split; [|reflexivity]. intros r Hr [E1 E2]. apply I. apply in_map_iff. exists r. split; [congruence|exact Hr].
Qed.
Lemma igrf_coefficient_above times rows N n m year v : (forall r, In r rows -> (i_n r <= Z.of_nat N)%Z) -> (Z.of_nat N < n)%Z ->
  igrf_coefficient times rows n m year v -> v = 0.
Proof. intros H L [(r & Hr & E & _)|[_ E]]; [|exact E]. specialize (H r Hr). lia. Qed.

Lemma igrf_field file times rows t1 t2 N internal lo hi mem :
  igrf_file to_int to_float file times rows -> increasing times -> proper_igrf times rows ->
  nth_error times 0 = Some t1 -> nth_error times (length times - 1) = Some t2 ->
  (forall r, In r rows -> (i_n r <= Z.of_nat N)%Z) -> (Z.of_nat N < 2 ^ 24)%Z ->
  exists td, load_coeff_igrf to_int to_float file = Parsed td /\
    evaluates (year_validity td) [year_leaf td]
      (field_result (Finite (decimal_year_to_mjd2k t1), Finite (decimal_year_to_mjd2k (t2 + 5)))
         (fun u n m v => igrf_coefficient times rows n m (mjd2k_to_decimal_year u) v) internal lo hi N) internal lo hi mem.
Proof.
  intros Hf I P H1 H2 Hn HN. assert (Ht : times <> []) by (intros ->; discriminate).
  destruct (igrf_load to_int to_float file times rows Hf Ht I P) as (td & El & Ev & A). exists td. split; [exact El|].
  assert (Eva : year_validity td = (Finite (decimal_year_to_mjd2k t1), Finite (decimal_year_to_mjd2k (t2 + 5)))) by (unfold year_validity; now rewrite (Ev t1 t2 H1 H2)).
  rewrite Eva. apply evaluates_set.
  - apply single_length.
  - constructor; [|constructor]. destruct P as (Hne & Hv & Hd).
    unfold load_coeff_igrf in El. apply pbind_parsed in El as (data & Ed & El). destruct (mk_year_set _ _ _ _ _ _ _) as [td'|] eqn:Em; [|discriminate]. injection El as ->.
    destruct Hf as (comments & header & line & l1 & l2 & l3 & ts & l4 & lines & -> & Hc & Hh & Hfl & Hnu & Hl).
    unfold parse_igrf_file in Ed. rewrite strip_comments_app in Ed by exact Hc. cbn [strip_shc_comments map] in Ed.
    destruct (strip (before_hash header)) as [|c s] eqn:Eh; [exfalso; apply Hh; now apply comment_spec|].
    rewrite (times_complete to_float _ _ _ _ _ _ _ Hfl Hnu Ht) in Ed. cbn [pbind] in Ed. unfold parse_igrf_coefficients in Ed.
    rewrite (igrf_rows_complete to_int to_float _ _ Hl) in Ed. cbn [pbind] in Ed.
    apply pbind_parsed in Ed as ([nm gh] & Ec & Ed). apply pbind_parsed in Ec as (coeff & _ & Ec). destruct coeff as [|c0 coeff]; [discriminate|].
    apply pbind_parsed in Ec as (gh' & _ & Ec). injection Ec as <- <-.
    match type of Ed with match ?l with _ => _ end = _ => destruct l as [|n0 ns]; [discriminate Ed|] end. injection Ed as <-. cbn [igrf_nm igrf_gh igrf_t] in Em.
    eapply year_set_built; [exact Em| | |].
    + intros i n m Hi. rewrite map_map in Hi. apply nth_map_some in Hi as (r & Hr & E). unfold data_row in E; cbn [fst] in E. injection E as -> ->. apply nth_error_In in Hr. specialize (Hn r Hr). split; [now apply Hv|lia].
    + intros i j p Hi Hj. rewrite map_map in Hi, Hj. apply nth_map_some in Hi as (a & Ha & ->). apply nth_map_some in Hj as (b & Hb & E). unfold data_row in E; cbn [fst] in E. injection E as E1 E2. exact (Hd i j a b Ha Hb E1 E2).
    + rewrite app_length. destruct times; [contradiction|cbn; lia].
  - apply single_disjoint.
  - apply single_call. intros t lo' hi'. destruct (A t lo' hi') as (result & Er & B & Z0). exists result. split; [exact Er|].
    intros n m v V [(r & Hr & <- & <- & Hw)|[Hno ->]]; [now apply B|]. now apply coefficient_bounded, Z0.
  - intros t n m _. now apply igrf_coefficient_exists.
  - intros t n m v L. now apply (igrf_coefficient_above times rows N).
Qed.

Lemma igrf_table times rows N lo hi u : times <> [] -> proper_igrf times rows -> (forall r, In r rows -> (i_n r <= Z.of_nat N)%Z) ->
  exists gh, coefficient_table (fun n m v => igrf_coefficient times rows n m (mjd2k_to_decimal_year u) v) lo hi gh.
Proof.
  intros Ht P H. apply (table_exists (fun u n m v => igrf_coefficient times rows n m (mjd2k_to_decimal_year u) v) N).
  - intros t n m _. now apply igrf_coefficient_exists.
  - intros t n m v L. now apply (igrf_coefficient_above times rows N).
Qed.

(** ** EMM files *)
Lemma emm_coefficient_exists epoch variable constant secvar n m year : same_rows variable secvar ->
  exists v, emm_coefficient epoch variable constant secvar n m year v.
Proof.
  intros Hs.
  assert (Ord : forall r, m_n r = n -> m_m r = Z.abs m -> exists v, of_order r n m v).
  { intros r E1 E2. destruct (Z_lt_le_dec m 0) as [L|L]; [exists (m_h r)|exists (m_g r)]; (split; [exact E1|split; [exact E2|]]); [right|left]; now split. }
  assert (Dec : forall rows : list emm_row, (exists i r, nth_error rows i = Some r /\ m_n r = n /\ m_m r = Z.abs m) \/ forall r, In r rows -> ~ (m_n r = n /\ m_m r = Z.abs m)).
  { induction rows as [|r rows IH]; [right; intros r []|]. destruct (Z.eq_dec (m_n r) n) as [E1|E1], (Z.eq_dec (m_m r) (Z.abs m)) as [E2|E2];
      try (destruct IH as [(i & r' & H)|H]; [left; exists (S i), r'; exact H|right; intros r' [<-|H']; [tauto|now apply H]]).
    left. exists 0%nat, r. now repeat split. }
  destruct (Dec variable) as [(i & s & Hi & E1 & E2)|Nv].
  - assert (Hw : exists w, nth_error secvar i = Some w /\ m_n s = m_n w /\ m_m s = m_m w).
    { clear - Hs Hi. revert i Hi. induction Hs as [|a b l1 l2 H F IH]; intros [|i] Hi; try discriminate; [injection Hi as <-; now exists b|]. now apply IH. }
    destruct Hw as (w & Hw & W1 & W2). destruct (Ord s E1 E2) as [a Ha]. destruct (Ord w) as [b Hb]; [congruence|congruence|].
    exists (a + b * (year - epoch)). left. exists i, s, w, a, b. auto.
  - destruct (Dec constant) as [(i & s & Hi & E1 & E2)|Nc].
    + destruct (Ord s E1 E2) as [a Ha]. exists a. right. left. exists s. split; [eapply nth_error_In; eauto|exact Ha].
    + exists 0. right. right. split; [|reflexivity]. intros s Hin. apply in_app_iff in Hin as [Hin|Hin]; auto.
Qed.
Lemma emm_coefficient_above epoch variable constant secvar N n m year v :
  (forall r, In r (variable ++ constant) -> (m_n r <= Z.of_nat N)%Z) -> (Z.of_nat N < n)%Z ->
  emm_coefficient epoch variable constant secvar n m year v -> v = 0.
Proof.
  intros H L [(i & s & w & a & b & Hi & _ & (E & _) & _)|[(s & Hs & E & _)|[_ E]]]; [| |exact E].
  - specialize (H s (in_or_app _ _ _ (or_introl (nth_error_In _ _ Hi)))). lia.
  - specialize (H s (in_or_app _ _ _ (or_intror Hs))). lia.
Qed.

(** the degrees and orders of a set *)
Lemma some_inj {A} (x y : A) : Some x = Some y -> x = y. Proof. now injection 1. Qed.
Lemma nil_none {A} i (a : A) : nth_error [] i = Some a -> False. Proof. now destruct i. Qed.
Lemma built_nms indices coefficients times order s e conv td nm :
  mk_time_dependent indices coefficients times order s e conv = Some td ->
  (forall i n m, nth_error indices i = Some (n, m) -> valid_nm n m) ->
  (forall i j p, nth_error indices i = Some p -> nth_error indices j = Some p -> i = j) ->
  In nm (map (fun en => (e_n en, e_m en)) (s_entries (td_sparse (td : @time_dependent R R)))) -> In nm indices.
Proof.
  intros E Hv Hd H. destruct (indices_entries indices coefficients times order s e conv td Hv Hd E) as (_ & _ & _ & _ & _ & cs & _ & Ee).
  rewrite Ee, map_map in H. apply in_map_iff in H as ([[n m] c] & <- & H). cbn [e_n e_m fst snd]. exact (in_combine_l _ _ _ _ H).
Qed.
Lemma year_set_nms indices coefficients times order s e conv td nm :
  mk_year_set indices coefficients times order s e conv = Some td ->
  (forall i n m, nth_error indices i = Some (n, m) -> valid_nm n m) ->
  (forall i j p, nth_error indices i = Some p -> nth_error indices j = Some p -> i = j) ->
  In nm (leaf_nms (year_leaf td)) -> In nm indices.
Proof.
  unfold mk_year_set. intros E Hv Hd. destruct (mk_time_dependent _ _ _ _ _ _ _) as [td0|] eqn:E0; [|discriminate]. injection E as <-.
  exact (built_nms _ _ _ _ _ _ _ _ nm E0 Hv Hd).
Qed.
Lemma constant_nms ps cs s e conv td nm f : mk_constant (OI := TInf_Rbar) ps (map Some cs) s e conv = Some td ->
  (forall i n m, nth_error ps i = Some (n, m) -> valid_nm n m) ->
  (forall i j p, nth_error ps i = Some p -> nth_error ps j = Some p -> i = j) ->
  In nm (leaf_nms (constant_leaf td, f)) -> In nm ps.
Proof.
  intros E Hv Hd. destruct (constant_sets ps cs _ _ _ td E) as (td0 & E0 & E1 & _). unfold leaf_nms. cbn [fst]. rewrite E1.
  exact (built_nms _ _ _ _ _ _ _ _ nm E0 Hv Hd).
Qed.
Lemma constant_built ps cs s e conv td f : mk_constant (OI := TInf_Rbar) ps (map Some cs) s e conv = Some td ->
  (forall i n m, nth_error ps i = Some (n, m) -> valid_nm n m /\ (n < 2 ^ 24)%Z) ->
  (forall i j p, nth_error ps i = Some p -> nth_error ps j = Some p -> i = j) ->
  built_set (constant_leaf td, f).
Proof.
  intros E Hv Hd. destruct (constant_sets ps cs _ _ _ td E) as (td0 & E0 & E1 & E2 & E3).
  exists ps, (map (fun v => [v]) cs), [0], 1%Z, None, None, (fun x => x), td0.
  split; [exact E0|]. cbn [fst]. repeat split; try assumption; try (apply (Hv _ _ _ H)). discriminate.
Qed.

Lemma emm_field file_static file_secvar epoch vs cs sec N internal lo hi mem :
  emm_file to_int to_float file_static epoch (vs ++ cs) -> emm_file to_int to_float file_secvar epoch sec ->
  same_rows vs sec -> proper_emm (vs ++ cs) -> sec <> [] -> nonzero_rows cs ->
  (forall r, In r (vs ++ cs) -> (m_n r <= Z.of_nat N)%Z) -> (Z.of_nat N < 2 ^ 24)%Z ->
  exists emm, load_coeff_emm to_int to_float file_static file_secvar = Parsed emm /\
    evaluates (emm_validity emm) (emm_items emm)
      (field_result (Finite (decimal_year_to_mjd2k epoch), Finite (decimal_year_to_mjd2k (epoch + 5)))
         (fun u n m v => emm_coefficient epoch vs cs sec n m (mjd2k_to_decimal_year u) v) internal lo hi N) internal lo hi mem.
Proof.
  intros Fs Fv Hsame P Hsec (r0 & Hr0 & Hz) HnN HN.
  assert (Hvs : vs ++ cs <> []).
  { inversion Hsame as [|? ? ? ? ? ? K1 K2]; subst; [contradiction|discriminate]. }
  pose proof (emm_file_complete to_int to_float _ _ _ Fs Hvs) as Es. pose proof (emm_file_complete to_int to_float _ _ _ Fv Hsec) as Ev.
  pose proof (emm_nodup _ P) as Nd. rewrite flat_map_app, map_app in Nd.
  pose proof (same_rows_entries _ _ Hsame) as Keys.
  set (ev := flat_map entries_of vs) in *. set (ec := flat_map entries_of cs) in *. set (es := flat_map entries_of sec) in *.
  assert (Len : length ev = length es) by (rewrite <- (map_length fst ev), Keys, map_length; reflexivity).
  destruct (nodup_app_l _ _ Nd) as [Nv Nc].
  assert (Hvalid : forall p, In p (map fst ev ++ map fst ec) -> valid_nm (fst p) (snd p) /\ (fst p < 2 ^ 24)%Z).
  { intros p H. rewrite <- map_app in H. unfold ev, ec in H. rewrite <- flat_map_app in H. apply in_map_iff in H as ([[n m] a] & <- & H).
    apply entries_in in H as (r & Hin & En & H). pose proof (proj1 P r Hin). specialize (HnN r Hin). cbn [fst snd]. split; [unfold valid_nm|]; lia. }
  set (kept := map (fun x : ((Z * Z) * R) * ((Z * Z) * R) => (fst (snd x), (snd (fst x), snd (snd x)))) (combine ev es)).
  assert (Kf : map fst kept = map fst es).
  { unfold kept. rewrite map_map. cbn [fst]. clear -Len. clearbody ev es. revert es Len. induction ev as [|x l IH]; intros [|y es] L; try discriminate; [reflexivity|].
    cbn [combine map fst snd]. f_equal. apply IH. now injection L. }
  assert (Kc : map (fun x => [fst (snd x); fst (snd x) + snd (snd x) * EMM_VALIDITY_PERIOD]) kept =
    map (fun x => [snd (fst x); snd (fst x) + snd (snd x) * EMM_VALIDITY_PERIOD]) (combine ev es)).
  { unfold kept. rewrite map_map. reflexivity. }
  assert (Kvalid : forall p, In p (map fst kept) -> valid_nm (fst p) (snd p) /\ (fst p < 2 ^ 24)%Z).
  { intros p H. rewrite Kf, <- Keys in H. apply Hvalid. apply in_or_app. now left. }
  assert (Knd : NoDup (map fst kept)) by (rewrite Kf, <- Keys; exact Nv).
  destruct (rate_set kept epoch EMM_VALIDITY_PERIOD decimal_year_to_mjd2k) as (td & Etd & Vtd & A).
  { unfold EMM_VALIDITY_PERIOD. lra. }
  { intro K. assert (Ke : map fst es = []) by (rewrite <- Kf, K; reflexivity). unfold es in Ke. destruct sec as [|w sec]; [contradiction|discriminate]. }
  { intros p H. now apply Kvalid. }
  { exact Knd. }
  set (kc := filter (fun x : (Z * Z) * R => nonzero (snd x)) ec).
  assert (Kn : kc <> []).
  { assert (exists x, In x kc) as [x Hx]; [|intro E; rewrite E in Hx; destruct Hx].
    destruct Hz as [Hz|[Hm Hz]].
    - exists ((m_n r0, m_m r0), m_g r0). apply filter_In. split; [apply entries_in; exists r0; tauto|now apply nonzero_spec].
    - exists ((m_n r0, (- m_m r0)%Z), m_h r0). apply filter_In. split; [apply entries_in; exists r0; tauto|now apply nonzero_spec]. }
  assert (Kin : forall x, In x kc -> In x ec) by (intros x H; apply filter_In in H; tauto).
  assert (Ncc : NoDup (map fst kc)) by (now apply nodup_filter_fst).
  destruct (mk_constant_ok (OI := TInf_Rbar) (map fst kc) (map Some (map snd kc)) None None (fun x => x)) as [tc Etc].
  { now destruct kc. }
  { now rewrite !map_length. }
  assert (Hvc : forall i n m, nth_error (map fst kc) i = Some (n, m) -> valid_nm n m /\ (n < 2 ^ 24)%Z).
  { intros i n m H. apply nth_error_In in H. apply in_map_iff in H as (x & E & H). apply Kin in H. apply (Hvalid (n, m)). apply in_or_app. right.
    rewrite <- E. now apply in_map. }
  pose proof (nodup_index _ Ncc) as Hdc. pose proof (nodup_index _ Knd) as Hdv.
  assert (Hvv : forall i n m, nth_error (map fst kept) i = Some (n, m) -> valid_nm n m /\ (n < 2 ^ 24)%Z).
  { intros i n m H. apply nth_error_In in H. exact (Kvalid _ H). }
  assert (Apart : forall nm, In nm (map fst kept) -> In nm (map fst kc) -> False).
  { intros nm H1 H2. rewrite Kf, <- Keys in H1. apply (nodup_app_disjoint _ _ nm Nd H1).
    apply in_map_iff in H2 as (x & E & H2). rewrite <- E. now apply in_map, Kin. }
  assert (Eva : emm_validity (td, tc) = (Finite (decimal_year_to_mjd2k epoch), Finite (decimal_year_to_mjd2k (epoch + 5)))).
  { unfold emm_validity. cbn [fst snd]. rewrite Vtd. rewrite (constant_validity _ _ tc Etc). reflexivity. }
  exists (td, tc). split.
  { unfold load_coeff_emm. rewrite Es, Ev. cbn [pbind]. unfold combine_emm_variable. cbn [snd]. rewrite flat_map_app. fold ev ec.
    rewrite <- Len, firstn_app, Nat.sub_diag, firstn_all, firstn_O, app_nil_r, Nat.eqb_refl. cbn [pbind].
    unfold extract_emm_constant. cbn [snd]. rewrite <- Len, skipn_app, Nat.sub_diag, skipn_all. cbn [app skipn].
    change (filter (fun x : Z * Z * R => nonzero (snd x)) ec) with kc.
    destruct kc as [|k0 ks]; [contradiction|]. cbn [pbind]. rewrite Kf, Kc in Etd. rewrite Etd, Etc. reflexivity. }
  rewrite Eva. apply evaluates_set.
  - cbn. lia.
  - unfold emm_items. cbn [fst snd]. constructor; [|constructor; [|constructor]].
    + eapply year_set_built; [exact Etd|exact Hvv|exact Hdv|cbn; lia].
    + eapply constant_built; [exact Etc|exact Hvc|exact Hdc].
  - assert (N1 : forall nm, In nm (leaf_nms (year_leaf td)) -> In nm (map fst kept)).
    { intros nm. apply (year_set_nms _ _ _ _ _ _ _ _ nm Etd (fun i n m H => proj1 (Hvv i n m H)) Hdv). }
    assert (N2 : forall nm, In nm (leaf_nms (constant_leaf tc, None)) -> In nm (map fst kc)).
    { intros nm. apply (constant_nms _ _ _ _ _ _ nm None Etc (fun i n m H => proj1 (Hvc i n m H)) Hdc). }
    intros i j a b nm Hi Hj Ha Hb. unfold emm_items in Hi, Hj. cbn [fst snd] in Hi, Hj.
    destruct i as [|[|i]], j as [|[|j]]; cbn [nth_error] in Hi, Hj; try reflexivity; try (now apply nil_none in Hi);
      try (now apply nil_none in Hj); apply some_inj in Hi as <-; apply some_inj in Hj as <-; exfalso; apply (Apart nm); auto.
  - change (first_convert (emm_items (td, tc))) with (Some mjd2k_to_decimal_year). cbn [apply_convert].
    intros t lo' hi' n m v V Hv. destruct (A t lo' hi') as (r1 & E1 & _ & B1 & Z1).
    destruct (constant_leaf_values (map fst kc) (map snd kc) _ _ _ tc mjd2k_to_decimal_year t lo' hi' Etc (fun i n m H => proj1 (Hvc i n m H)) Hdc) as (r2 & E2 & B2 & Z2).
    assert (Sum : forall v1 v2, v = v1 + v2 -> bounded_coefficient lo' hi' r1 n m v1 -> bounded_coefficient lo' hi' r2 n m v2 ->
      exists vs0, v = fold_right Rplus 0 vs0 /\
        Forall2 (fun (l : leaf_set) w => exists result, td_call (fst l) mjd2k_to_decimal_year (Some t) lo' hi' = Some result /\
                   bounded_coefficient lo' hi' result n m w) (emm_items (td, tc)) vs0).
    { intros v1 v2 -> H1 H2. exists [v1; v2]. split; [cbn [fold_right]; ring|]. constructor; [exists r1; split; [exact E1|exact H1]|].
      constructor; [exists r2; split; [exact E2|exact H2]|constructor]. }
    assert (Kz : ~ In (n, m) (map fst kept) -> bounded_coefficient lo' hi' r1 n m 0) by (intro H; apply coefficient_bounded; now apply Z1).
    assert (Cz : ~ In (n, m) (map fst kc) -> bounded_coefficient lo' hi' r2 n m 0) by (intro H; apply coefficient_bounded; now apply Z2).
    destruct Hv as [(i & s & w & a & b & Hi & Hw & Ha & Hb & ->)|[(s & Hs & Ho)|(Hno & ->)]].
    + assert (Hp : (0 <= m_m s)%Z) by (apply (proj1 P); apply in_or_app; left; eapply nth_error_In; eauto).
      pose proof (combine_entries _ _ _ _ _ _ _ _ _ Hsame Hi Hw Hp Ha Hb) as Hin. fold ev es in Hin.
      assert (Hk : In ((n, m), (a, b)) kept) by (unfold kept; apply in_map_iff; now exists (((n, m), a), ((n, m), b))).
      apply (Sum (a + b * (mjd2k_to_decimal_year t - epoch)) 0); [ring|now apply B1|].
      apply Cz. intro K. apply (Apart (n, m)); [now apply (in_map fst) in Hk|exact K].
    + assert (Hp : (0 <= m_m s)%Z) by (apply (proj1 P); apply in_or_app; now right).
      assert (Hin : In ((n, m), v) ec) by (unfold ec; apply in_flat_map; exists s; split; [exact Hs|now apply of_order_entry]).
      apply (Sum 0 v); [ring| |].
      * apply Kz. rewrite Kf, <- Keys. intro K. apply (nodup_app_disjoint _ _ (n, m) Nd K). now apply (in_map fst) in Hin.
      * destruct (Req_dec v 0) as [->|Nz].
        -- apply Cz. intro K. apply in_map_iff in K as ([k x] & E & K). cbn [fst] in E. subst k. pose proof K as K'. apply Kin in K.
           pose proof (nodup_value _ _ _ _ Nc Hin K) as <-. apply filter_In in K' as [_ K']. apply nonzero_spec in K'. now apply K'.
        -- assert (Hk : In ((n, m), v) kc) by (apply filter_In; split; [exact Hin|now apply nonzero_spec]).
           apply In_nth_error in Hk as [i Hi]. apply (B2 i n m v); [exact (map_nth_error fst _ _ Hi)|exact (map_nth_error snd _ _ Hi)].
    + assert (No : ~ In (n, m) (map fst ev ++ map fst ec)).
      { rewrite <- map_app. unfold ev, ec. rewrite <- flat_map_app. intro K. apply in_map_iff in K as ([k x] & E & K). cbn [fst] in E. subst k.
        apply entries_in in K as (r & Hin & En & K). apply (Hno r Hin). split; [exact En|]. pose proof (proj1 P r Hin). lia. }
      apply (Sum 0 0); [ring| |].
      * apply Kz. rewrite Kf, <- Keys. intro K. apply No, in_or_app. now left.
      * apply Cz. intro K. apply No, in_or_app. right. apply in_map_iff in K as (x & E & K). rewrite <- E. now apply in_map, Kin.
  - intros t n m _. now apply emm_coefficient_exists.
  - intros t n m v L. now apply (emm_coefficient_above epoch vs cs sec N).
Qed.

Lemma emm_table epoch vs cs sec N lo hi u : same_rows vs sec -> (forall r, In r (vs ++ cs) -> (m_n r <= Z.of_nat N)%Z) ->
  exists gh, coefficient_table (fun n m v => emm_coefficient epoch vs cs sec n m (mjd2k_to_decimal_year u) v) lo hi gh.
Proof.
  intros Hs H. apply (table_exists (fun u n m v => emm_coefficient epoch vs cs sec n m (mjd2k_to_decimal_year u) v) N).
  - intros t n m _. now apply emm_coefficient_exists.
  - intros t n m v L. now apply (emm_coefficient_above epoch vs cs sec N).
Qed.
End Files.
