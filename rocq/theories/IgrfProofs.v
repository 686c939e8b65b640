(** Proofs about the IGRF files. *)

From Coq Require Import Bool List Ascii ZArith Reals Lra Lia.
From Verif Require Import Ord ROrd TextModel TextSpec TextProofs ShcModel ShcProofs SparseModel SparseSpec InterpSpec SnapshotProofs
  SeriesModel SeriesSpec SeriesLineProofs TimeModel YearSetModel IgrfModel IgrfSpec.
Import ListNotations.
Open Scope R_scope.

Lemma text_eqb_spec a b : text_eqb a b = true <-> a = b.
Proof. unfold text_eqb. destruct (list_eq_dec ascii_dec a b); split; congruence. Qed.

Lemma strip_comments_first file first rest : strip_shc_comments file = first :: rest -> first <> [].
Proof.
  induction file as [|l file IH]; [discriminate|]. cbn [strip_shc_comments]. destruct (strip (before_hash l)) eqn:E; [exact IH|]. intro H. injection H as <- _. discriminate.
Qed.

Section Parse.
Variables (to_int : text -> option Z) (to_float : text -> option R).

Definition data_row (r : igrf_row) : (Z * Z) * list R := ((i_n r, i_m r), i_values r ++ [i_rate r]).

Lemma igrf_row_spec line r : parse_igrf_row to_int to_float line = Parsed (data_row r) <-> igrf_line to_int to_float line r.
Proof.
  unfold parse_igrf_row, igrf_line. cbv zeta. split.
  - intro E. apply pbind_parsed in E as (label & El & E). apply pbind_parsed in E as (n & En & E). apply pbind_parsed in E as (m & Em & E).
    apply pbind_parsed in E as (vs & Ev & E). apply field_number in En as (fa & Ha & En). apply field_number in Em as (fb & Hb & Em).
    unfold field in El. destruct (split line) as [|f0 [|f1 [|f2 fs]]] eqn:Es; try discriminate. cbn [nth_error skipn] in *.
    injection El as ->. injection Ha as ->. injection Hb as ->. unfold data_row in E. injection E as E1 E2 E3. subst vs. apply numbers_pmap in Ev.
    unfold numbers in Ev. apply Forall2_app_inv_r in Ev as (vs & rs & Hv & Hr & ->). inversion Hr as [|rate x rs' xs' Hx Hnil]; subst.
    inversion Hnil; subst. exists label, fa, fb, vs, rate, m. split; [now apply split_spec|split; [congruence|split; [exact Em|split; [|split; [exact Hv|exact Hx]]]]].
    rewrite <- E2. destruct (text_eqb label ["h"%char]) eqn:T.
    + apply text_eqb_spec in T. now left.
    + right. split; [|reflexivity]. intro K. apply text_eqb_spec in K. congruence.
  - intros (label & a & b & vs & rate & m & Hf & Ea & Eb & Hm & Hv & Hr). apply split_spec in Hf. rewrite Hf.
    cbn [field nth_error pbind skipn]. unfold number at 1. rewrite Ea. cbn [pbind]. unfold number at 1. rewrite Eb. cbn [pbind].
    assert (Hn : numbers to_float (vs ++ [rate]) (i_values r ++ [i_rate r])) by (apply Forall2_app; [exact Hv|now constructor]).
    apply numbers_pmap in Hn. rewrite Hn. cbn [pbind]. unfold data_row. f_equal. f_equal. f_equal.
    destruct Hm as [[-> ->]|[Hl ->]]; [reflexivity|].
    destruct (text_eqb label ["h"%char]) eqn:T; [apply text_eqb_spec in T; contradiction|reflexivity].
Qed.
Lemma igrf_row_strip line : parse_igrf_row to_int to_float (strip line) = parse_igrf_row to_int to_float line.
Proof. unfold parse_igrf_row. now rewrite split_strip. Qed.

Lemma igrf_rows_complete lines rows : Forall2 (igrf_line to_int to_float) lines rows ->
  pmap (parse_igrf_row to_int to_float) (map strip lines) = Parsed (map data_row rows).
Proof.
  induction 1 as [|l r lines rows Hl H IH]; [reflexivity|]. cbn [map pmap]. apply igrf_row_spec in Hl. rewrite igrf_row_strip, Hl. cbn [pbind]. now rewrite IH.
Qed.

Lemma extrapolate_snoc l x y : extrapolate_row (l ++ [x; y]) = Parsed (l ++ [x; x + y * IGRF_EXTRAPOLATION_PERIOD]).
Proof. unfold extrapolate_row. rewrite rev_app_distr. cbn [rev app]. now rewrite rev_involutive, <- app_assoc. Qed.

Lemma snoc_of {A} (l : list A) : l <> [] -> exists l' x, l = l' ++ [x].
Proof. intro H. destruct (exists_last H) as (l' & x & E). now exists l', x. Qed.

(** the last value of a row *)
Definition extended (r : igrf_row) : list R := i_values r ++ [last (i_values r) 0 + i_rate r * 5].

Lemma last_snoc {A} (l : list A) x d : last (l ++ [x]) d = x.
Proof. apply last_last. Qed.
Lemma extended_rows rows : (forall r, In r rows -> i_values r <> []) ->
  pmap extrapolate_row (map snd (map data_row rows)) = Parsed (map extended rows).
Proof.
  induction rows as [|r rows IH]; intro H; [reflexivity|]. cbn [map pmap data_row snd].
  destruct (snoc_of (i_values r)) as (l & x & E); [apply H; now left|].
  assert (Ee : extrapolate_row (i_values r ++ [i_rate r]) = Parsed (extended r)).
  { unfold extended. rewrite E, <- app_assoc. cbn [app]. rewrite extrapolate_snoc. rewrite last_snoc, <- app_assoc. reflexivity. }
  rewrite Ee. cbn [pbind]. rewrite IH; [reflexivity|]. intros; apply H; now right.
Qed.

Lemma times_complete line l1 l2 l3 ts l4 times : has_fields line (l1 :: l2 :: l3 :: ts ++ [l4]) -> numbers to_float ts times -> times <> [] ->
  parse_igrf_times to_float (strip line) = Parsed (times ++ [last times 0 + 5]).
Proof.
  intros Hf Hn Ht. unfold parse_igrf_times. rewrite split_strip. apply split_spec in Hf. rewrite Hf.
  change (l1 :: l2 :: l3 :: ts ++ [l4]) with ((l1 :: l2 :: l3 :: ts) ++ [l4]). rewrite removelast_last. cbn [skipn].
  apply numbers_pmap in Hn. rewrite Hn. cbn [pbind]. destruct (snoc_of times Ht) as (l & x & ->). rewrite rev_app_distr. cbn [rev app].
  rewrite last_snoc. reflexivity.
Qed.

Lemma last_nth {A} (l : list A) d : l <> [] -> nth_error l (length l - 1) = Some (last l d).
Proof.
  intro H. destruct (snoc_of l H) as (l' & x & ->). rewrite last_snoc, app_length. cbn [length].
  rewrite nth_error_app2 by lia. replace (length l' + 1 - 1 - length l')%nat with 0%nat by lia. reflexivity.
Qed.

Lemma igrf_load file times rows :
  igrf_file to_int to_float file times rows -> times <> [] -> increasing times -> proper_igrf times rows ->
  exists td, load_coeff_igrf to_int to_float file = Parsed td /\
    (forall t1 t2, nth_error times 0 = Some t1 -> nth_error times (length times - 1) = Some t2 ->
       td_validity td = (decimal_year_to_mjd2k t1, decimal_year_to_mjd2k (t2 + 5))) /\
    forall t lo hi, exists result, year_set_call td t lo hi = Some result /\
      (forall r v, In r rows -> igrf_value times r (mjd2k_to_decimal_year t) v -> bounded_coefficient lo hi result (i_n r) (i_m r) v) /\
      (forall n m, valid_nm n m -> (forall r, In r rows -> ~ (i_n r = n /\ i_m r = m)) -> coefficient result n m 0).
Proof.
  intros (comments & header & line & l1 & l2 & l3 & ts & l4 & lines & -> & Hc & Hh & Hf & Hn & Hl) Ht I (Hne & Hv & Hd).
  set (tl := last times 0). set (times' := times ++ [tl + 5]).
  pose proof (last_nth times 0 Ht) as Etl. fold tl in Etl.
  assert (I' : increasing times').
  { apply increasing_snoc; [exact I|]. intros x Hx. pose proof (increasing_last _ _ I Etl x Hx). lra. }
  assert (Hlen : forall r, In r rows -> length (i_values r) = length times) by (intros r Hr; apply Hv; exact Hr).
  assert (Hval : forall r, In r rows -> i_values r <> []).
  { intros r Hr E. apply Hlen in Hr. rewrite E in Hr. destruct times; [contradiction|discriminate]. }
  destruct (mk_time_dependent_ok (map (fun r => (i_n r, i_m r)) rows) (map extended rows) times' None None (fun x => x)) as [td E].
  { now destruct rows. }
  { now rewrite !map_length. }
  { intros c H. apply in_map_iff in H as (r & <- & Hr). unfold extended, times'. rewrite !app_length, (Hlen r Hr). reflexivity. }
  { unfold times'. now destruct times. }
  assert (N0 : nth_error times' (length times) = Some (tl + 5)).
  { unfold times'. rewrite nth_error_app2, Nat.sub_diag by lia. reflexivity. }
  exists {| td_sparse := td_sparse td; td_validity := (decimal_year_to_mjd2k (fst (td_validity td)), decimal_year_to_mjd2k (snd (td_validity td)));
            td_times := td_times td; td_order := td_order td |}. split; [|split].
  - unfold load_coeff_igrf, parse_igrf_file. rewrite strip_comments_app by exact Hc. cbn [strip_shc_comments map].
    destruct (strip (before_hash header)) as [|c s] eqn:Eh; [exfalso; apply Hh; now apply comment_spec|].
    rewrite (times_complete _ _ _ _ _ _ _ Hf Hn Ht). cbn [pbind]. unfold parse_igrf_coefficients. rewrite (igrf_rows_complete _ _ Hl). cbn [pbind].
    assert (Rc : rectangular (map snd (map data_row rows))).
    { intros a b Ha Hb. apply in_map_iff in Ha as (x & <- & Ha). apply in_map_iff in Hb as (y & <- & Hb).
      apply in_map_iff in Ha as (r1 & <- & H1). apply in_map_iff in Hb as (r2 & <- & H2). cbn [data_row snd].
      rewrite !app_length, (Hlen r1 H1), (Hlen r2 H2). reflexivity. }
    pose proof (proj1 (proj1 (as_array_spec _)) Rc) as ->. cbn [pbind]. rewrite (extended_rows rows Hval).
    rewrite map_map. cbn [pbind data_row fst].
    destruct rows as [|r rows]; [contradiction|]. cbn [map pbind fst]. cbn [igrf_nm igrf_gh igrf_t].
    unfold mk_year_set. cbn [map] in E. fold tl times'. rewrite map_map. cbn [data_row fst] in *. now rewrite E.
  - intros t1 t2 H1 H2. cbn [td_validity].
    rewrite (series_validity _ _ _ _ _ td t1 (tl + 5) (increasing_distinct _ I') E).
    + cbn [fst snd]. rewrite Etl in H2. injection H2 as <-. reflexivity.
    + unfold times'. apply in_or_app. left. eapply nth_error_In; eauto.
    + apply increasing_first; [exact I'|]. unfold times'. rewrite nth_error_app1; [exact H1|]. apply nth_error_Some. congruence.
    + unfold times'. apply in_or_app. right. now left.
    + apply increasing_last; [exact I'|]. unfold times' at 2. rewrite app_length. cbn [length]. rewrite Nat.add_sub. exact N0.
  - intros t lo hi.
    destruct (series_array (map (fun r => (i_n r, i_m r)) rows) (map extended rows) times' None None (fun x => x) mjd2k_to_decimal_year td t lo hi) as (result & Er & Sz & A & Z0).
    + intros i n m H. rewrite nth_error_map in H. destruct (nth_error rows i) as [r|] eqn:Ei; [|discriminate]. cbn in H. injection H as <- <-.
      apply Hv. eapply nth_error_In; eauto.
    + intros i j p H1 H2. rewrite nth_error_map in H1, H2. destruct (nth_error rows i) as [a|] eqn:Ea; [|discriminate]. destruct (nth_error rows j) as [b|] eqn:Eb; [|discriminate].
      cbn in H1, H2. rewrite <- H2 in H1. injection H1 as H1 H3. exact (Hd i j a b Ea Eb H1 H3).
    + now apply increasing_distinct.
    + tauto.
    + unfold times'. rewrite app_length. destruct times; [contradiction|cbn; lia].
    + exact E.
    + exists result. split; [exact Er|split].
      * intros r v Hr Hval'. pose proof Hr as Hr'. apply In_nth_error in Hr as [i Hi].
        assert (Hi1 : nth_error (map (fun r => (i_n r, i_m r)) rows) i = Some (i_n r, i_m r)) by (exact (map_nth_error _ _ _ Hi)).
        assert (Hi2 : nth_error (map extended rows) i = Some (extended r)) by (exact (map_nth_error _ _ _ Hi)).
        destruct Hval' as [(k & ta & ca & tb & cb & (S1 & S2 & S3 & S4) & Hlow & Hhigh & ->)|(k & t0 & c & Hk & Ht0 & Hc0 & Hlow & ->)].
        -- assert (K1 : nth_error times' k = Some ta) by (unfold times'; rewrite nth_error_app1; [exact S1|apply nth_error_Some; congruence]).
           assert (K2 : nth_error times' (S k) = Some tb) by (unfold times'; rewrite nth_error_app1; [exact S3|apply nth_error_Some; congruence]).
           apply (A i (i_n r) (i_m r) (extended r) k (S k) ta ca tb cb Hi1 Hi2 K1).
           ++ unfold extended. rewrite nth_error_app1; [exact S2|apply nth_error_Some; congruence].
           ++ exact K2.
           ++ unfold extended. rewrite nth_error_app1; [exact S4|apply nth_error_Some; congruence].
           ++ now apply increasing_neighbours with k.
           ++ destruct Hlow as [Hlow| ->]; [now left|right]. now apply increasing_first.
           ++ now left.
        -- assert (k = length times - 1)%nat as -> by lia. rewrite Etl in Ht0. injection Ht0 as <-.
           assert (K1 : nth_error times' (length times - 1) = Some tl) by (unfold times'; rewrite nth_error_app1 by lia; exact Etl).
           replace (c + i_rate r * (mjd2k_to_decimal_year t - tl)) with (InterpSpec.line tl c (tl + 5) (c + i_rate r * 5) (mjd2k_to_decimal_year t)) by (unfold InterpSpec.line; field; lra).
           assert (Ec : last (i_values r) 0 = c).
           { rewrite <- (Hlen r Hr') in Hc0. rewrite (last_nth (i_values r) 0 (Hval r Hr')) in Hc0. now injection Hc0. }
           apply (A i (i_n r) (i_m r) (extended r) (length times - 1)%nat (length times) tl c (tl + 5) (c + i_rate r * 5) Hi1 Hi2 K1).
           ++ unfold extended. rewrite nth_error_app1; [exact Hc0|apply nth_error_Some; congruence].
           ++ exact N0.
           ++ unfold extended. rewrite nth_error_app2 by (rewrite (Hlen r Hr'); lia). rewrite (Hlen r Hr'), Nat.sub_diag. cbn [nth_error]. now rewrite Ec.
           ++ apply increasing_neighbours with (length times - 1)%nat; [exact I'|exact K1|]. replace (S (length times - 1)) with (length times) by lia. exact N0.
           ++ destruct Hlow as [Hlow|Hk0]; [now left|right]. apply increasing_first; [exact I'|]. rewrite <- Hk0 at 1. exact K1.
           ++ right. apply increasing_last; [exact I'|]. unfold times' at 2. rewrite app_length. cbn [length]. rewrite Nat.add_sub. exact N0.
      * intros n m V Hn0. apply Z0; [exact V|]. intro H. apply in_map_iff in H as (r & E0 & Hr). injection E0 as E1 E2. exact (Hn0 r Hr (conj E1 E2)).
Qed.

Lemma igrf_rows_sound lines out coeff : pmap (parse_igrf_row to_int to_float) (map strip lines) = Parsed out ->
  pmap extrapolate_row (map snd out) = Parsed coeff ->
  exists rows, Forall2 (igrf_line to_int to_float) lines rows /\ out = map data_row rows.
Proof.
  revert out coeff. induction lines as [|l lines IH]; intros out coeff E Ex; cbn [map pmap] in E.
  - injection E as <-. exists []. split; [constructor|reflexivity].
  - apply pbind_parsed in E as ([[n m] vs] & Er & E). apply pbind_parsed in E as (o & Eo & E). injection E as <-.
    cbn [map snd pmap] in Ex. apply pbind_parsed in Ex as (x & Ex1 & Ex). apply pbind_parsed in Ex as (xs & Exs & _).
    destruct (IH o xs Eo Exs) as (rows & Hl & ->). rewrite igrf_row_strip in Er.
    destruct (snoc_of vs) as (values & rate & ->).
    { intros ->. discriminate. }
    exists ({| i_n := n; i_m := m; i_values := values; i_rate := rate |} :: rows). split; [|reflexivity].
    constructor; [|exact Hl]. now apply igrf_row_spec.
Qed.

Lemma igrf_load_sound file td : load_coeff_igrf to_int to_float file = Parsed td ->
  exists times rows, igrf_file to_int to_float file times rows /\ times <> [] /\ rows <> [] /\
    forall r, In r rows -> length (i_values r) = length times.
Proof.
  intro E. unfold load_coeff_igrf in E. apply pbind_parsed in E as (d & E & Em). unfold parse_igrf_file in E.
  destruct (strip_shc_comments file) as [|first [|tline rest]] eqn:Es; try discriminate.
  apply pbind_parsed in E as (t & Et & E). apply pbind_parsed in E as ([nm gh] & Ec & E).
  destruct (strip_comments_spec _ _ _ Es) as (cs & header & rows0 & Ef & Hc & Efirst & Erest).
  destruct rows0 as [|line lines]; [discriminate|]. cbn [map] in Erest. injection Erest as -> ->.
  unfold parse_igrf_times in Et. rewrite split_strip in Et. apply pbind_parsed in Et as (times & Ets & Et).
  destruct (snoc_of times) as (times0 & tl & Etimes).
  { intros ->. discriminate. }
  assert (Et' : t = times ++ [tl + IGRF_EXTRAPOLATION_PERIOD]).
  { rewrite Etimes in Et at 1. rewrite rev_app_distr in Et. cbn [rev app] in Et. now injection Et. }
  clear Et. apply numbers_pmap in Ets.
  assert (Hfs : exists l1 l2 l3 l4, split line = l1 :: l2 :: l3 :: skipn 3 (removelast (split line)) ++ [l4]).
  { destruct (split line) as [|l1 fs] eqn:E1; [cbn in Ets; inversion Ets; subst times; destruct times0; discriminate|].
    destruct (snoc_of (l1 :: fs)) as (ini & l4 & E2); [discriminate|]. rewrite E2, removelast_last in *.
    destruct ini as [|a [|b [|c ini]]]; cbn [skipn] in *; try (inversion Ets; subst times; destruct times0; discriminate).
    exists a, b, c, l4. reflexivity. }
  destruct Hfs as (l1 & l2 & l3 & l4 & Hfs).
  unfold parse_igrf_coefficients in Ec. apply pbind_parsed in Ec as (out & Eo & Ec). apply pbind_parsed in Ec as (coeff & Ea & Ec).
  pose proof (proj2 (as_array_spec _) _ Ea) as Ecf. subst coeff.
  destruct (map snd out) as [|o os] eqn:Eos; [discriminate|]. apply pbind_parsed in Ec as (gh' & Eg & Ec). injection Ec as <- <-.
  rewrite <- Eos in Eg. destruct (igrf_rows_sound _ _ _ Eo Eg) as (rows & Hl & ->).
  exists times, rows. split; [|split; [|split]].
  - exists cs, header, line, l1, l2, l3, (skipn 3 (removelast (split line))), l4, lines. split; [exact Ef|split; [exact Hc|split; [|split; [|split; [exact Ets|exact Hl]]]]].
    + intro K. apply comment_spec in K. rewrite K in Efirst. exact (strip_comments_first _ _ _ Es Efirst).
    + apply split_spec. exact Hfs.
  - rewrite Etimes. now destruct times0.
  - intros ->. discriminate.
  - destruct (map fst (map fst (map data_row rows))) as [|n0 ns] eqn:En; [discriminate|]. injection E as <-. cbn [igrf_nm igrf_gh igrf_t] in Em.
    unfold mk_year_set in Em. destruct (mk_time_dependent _ _ _ _ _ _ _) as [td0|] eqn:E0; [|discriminate].
    unfold mk_time_dependent in E0. destruct ((_ =? _)%nat && forallb _ gh') eqn:Ck; [|discriminate]. apply andb_true_iff in Ck as [_ Ck].
    rewrite forallb_forall in Ck. subst t.
    assert (Hval : forall r, In r rows -> i_values r <> []).
    { intros r Hr Hn. revert Eg. clear -Hr Hn. revert gh'. induction rows as [|r0 rows IH]; [destruct Hr|]. intros gh' Eg. cbn [map pmap data_row snd] in Eg.
      apply pbind_parsed in Eg as (x & Ex & Eg). apply pbind_parsed in Eg as (xs & Exs & _). destruct Hr as [->|Hr]; [rewrite Hn in Ex; discriminate|].
      exact (IH Hr xs Exs). }
    rewrite (extended_rows rows Hval) in Eg. injection Eg as <-. intros r Hr.
    specialize (Ck (extended r) (in_map _ _ _ Hr)). apply Nat.eqb_eq in Ck. unfold extended in Ck. rewrite !app_length in Ck. cbn [length] in Ck. lia.
Qed.
End Parse.
