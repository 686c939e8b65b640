(** Proofs about the WMM files. *)

From Coq Require Import Bool List Ascii ZArith Reals Lra Lia.
From Verif Require Import Ord ROrd TextModel TextSpec TextProofs ShcProofs SparseModel SparseSpec InterpSpec SnapshotProofs SeriesModel SeriesSpec SeriesLineProofs
  TimeModel YearSetModel WmmModel WmmSpec.
Import ListNotations.
Open Scope R_scope.

Lemma nonzero_spec v : nonzero v = true <-> v <> 0.
Proof. unfold nonzero. destruct (Req_EM_T v 0); split; congruence. Qed.

Section Parse.
Variables (to_int : text -> option Z) (to_float : text -> option R).

(** the coefficients which are kept *)
Definition kept (r : wmm_row) : list ((Z * Z) * (R * R)) :=
  (if nonzero (w_g r) || nonzero (w_dg r) then [((w_n r, w_m r), (w_g r, w_dg r))] else []) ++
  (if (0 <? w_m r)%Z && (nonzero (w_h r) || nonzero (w_dh r)) then [((w_n r, (- w_m r)%Z), (w_h r, w_dh r))] else []).

Lemma last_line_spec l : last_line l <-> exists f, split l = [f] /\ terminating f = true.
Proof.
  unfold last_line, terminating. split; intros (f & H1 & H2); exists f; (split; [now apply split_spec|]).
  - apply forallb_forall. rewrite Forall_forall in H2. intros c Hc. rewrite (H2 c Hc). reflexivity.
  - apply Forall_forall. rewrite forallb_forall in H2. intros c Hc. apply Ascii.eqb_eq. now apply H2.
Qed.

Lemma rows_complete lines rest rows : Forall2 (wmm_line to_int to_float) lines rows ->
  (rest = [] \/ exists l r, rest = l :: r /\ last_line l) ->
  parse_wmm_rows to_int to_float (lines ++ rest) = Parsed (flat_map kept rows).
Proof.
  intros H Hr. induction H as [|line r lines rows Hl H IH]; cbn [app].
  - destruct Hr as [->|(l & r & -> & Hl)]; [reflexivity|]. apply last_line_spec in Hl as (f & E & T). cbn [parse_wmm_rows]. cbv zeta.
    rewrite E, T. reflexivity.
  - destruct Hl as (a & b & c & d & e & f & more & Hf & Ea & Eb & Ec & Ed & Ee & Ef). apply split_spec in Hf.
    cbn [parse_wmm_rows]. cbv zeta. rewrite Hf. cbn [field nth_error pbind]. unfold number at 1. rewrite Ea. cbn [pbind].
    unfold number at 1. rewrite Eb. cbn [pbind skipn firstn pmap]. unfold number. rewrite Ec, Ed, Ee, Ef. cbn [pbind].
    rewrite IH. cbn [pbind flat_map]. unfold kept at 2. now rewrite <- app_assoc.
Qed.

Lemma rows_sound file out : parse_wmm_rows to_int to_float file = Parsed out ->
  exists lines rest rows, file = lines ++ rest /\ Forall2 (wmm_line to_int to_float) lines rows /\
    (rest = [] \/ exists l r, rest = l :: r /\ last_line l) /\ out = flat_map kept rows.
Proof.
  revert out. induction file as [|line file IH]; intros out E.
  - injection E as <-. exists [], [], []. split; [reflexivity|split; [constructor|split; [now left|reflexivity]]].
  - cbn [parse_wmm_rows] in E. cbv zeta in E.
    destruct (match split line with [f] => terminating f | _ => false end) eqn:T.
    + injection E as <-. exists [], (line :: file), []. split; [reflexivity|split; [constructor|split; [right|reflexivity]]].
      exists line, file. split; [reflexivity|]. apply last_line_spec. destruct (split line) as [|f [|? ?]]; try discriminate. now exists f.
    + apply pbind_parsed in E as (n & En & E). apply pbind_parsed in E as (m & Em & E). apply pbind_parsed in E as (vs & Ev & E).
      destruct vs as [|g [|h [|dg [|dh [|? ?]]]]]; try discriminate.
      apply pbind_parsed in E as (o & Eo & E). destruct (IH o Eo) as (lines & rest & rows & -> & Hl & Hr & ->).
      apply field_number in En as (fa & Ha & En). apply field_number in Em as (fb & Hb & Em). apply numbers_pmap in Ev.
      assert (Hf : exists c d e f more, split line = fa :: fb :: c :: d :: e :: f :: more /\
        to_float c = Some g /\ to_float d = Some h /\ to_float e = Some dg /\ to_float f = Some dh).
      { destruct (split line) as [|f0 [|f1 [|c [|d [|e [|f more]]]]]]; try discriminate;
          cbn [skipn firstn] in Ev; unfold numbers in Ev;
          repeat match goal with H : Forall2 _ (_ :: _) _ |- _ => inversion H; clear H; subst | H : Forall2 _ [] _ |- _ => inversion H; clear H; subst end.
        injection Ha as ->. injection Hb as ->. exists c, d, e, f, more. repeat split; assumption. }
      destruct Hf as (c & d & e & f & more & Hf & Ec & Ed & Ee & Ef).
      exists (line :: lines), rest, ({| w_n := n; w_m := m; w_g := g; w_h := h; w_dg := dg; w_dh := dh |} :: rows).
      split; [reflexivity|split; [constructor; [|exact Hl]|split; [exact Hr|]]].
      * exists fa, fb, c, d, e, f, more. split; [now apply split_spec|]. repeat split; assumption.
      * injection E as <-. cbn [flat_map]. unfold kept at 2. cbn [w_n w_m w_g w_h w_dg w_dh]. now rewrite <- app_assoc.
Qed.

Lemma kept_in rows n m a b : In ((n, m), (a, b)) (flat_map kept rows) <->
  exists r, In r rows /\ w_n r = n /\ (a <> 0 \/ b <> 0) /\
    (w_m r = m /\ w_g r = a /\ w_dg r = b \/ (0 < w_m r)%Z /\ m = (- w_m r)%Z /\ w_h r = a /\ w_dh r = b).
Proof.
  rewrite in_flat_map. split; intros (r & Hr & H); exists r; (split; [exact Hr|]).
  - unfold kept in H. apply in_app_iff in H as [H|H].
    + destruct (nonzero (w_g r) || nonzero (w_dg r)) eqn:E; [|destruct H]. destruct H as [H|[]]. injection H as <- <- <- <-.
      apply orb_true_iff in E. rewrite !nonzero_spec in E. auto 6.
    + destruct ((0 <? w_m r)%Z && (nonzero (w_h r) || nonzero (w_dh r))) eqn:E; [|destruct H]. destruct H as [H|[]]. injection H as <- <- <- <-.
      apply andb_true_iff in E as [E1 E]. apply orb_true_iff in E. rewrite !nonzero_spec in E. apply Z.ltb_lt in E1. auto 8.
  - destruct H as (<- & Hz & H). unfold kept. apply in_app_iff.
    assert (E : nonzero a || nonzero b = true) by (apply orb_true_iff; rewrite !nonzero_spec; exact Hz).
    destruct H as [(<- & <- & <-)|(Hm & -> & <- & <-)]; [left|right]; rewrite E; [now left|]. apply Z.ltb_lt in Hm. rewrite Hm. now left.
Qed.

Lemma proper_nodup rows : proper_rows rows -> NoDup (map (fun r => (w_n r, w_m r)) rows).
Proof.
  intros [_ H]. apply NoDup_nth_error. intros i j Hi E. rewrite map_length in Hi.
  rewrite !nth_error_map in E. destruct (nth_error rows i) as [a|] eqn:Ea; [|apply nth_error_None in Ea; lia].
  destruct (nth_error rows j) as [b|] eqn:Eb; [|discriminate]. cbn in E. injection E as E1 E2. exact (H i j a b Ea Eb E1 E2).
Qed.
Lemma kept_nodup rows : proper_rows rows -> NoDup (map fst (flat_map kept rows)).
Proof.
  intros P. pose proof (proper_nodup _ P) as N. destruct P as [V _]. induction rows as [|r rows IH]; [constructor|].
  cbn [flat_map map] in *. apply NoDup_cons_iff in N as [N1 N2]. rewrite map_app.
  assert (IH' : NoDup (map fst (flat_map kept rows))) by (apply IH; [intros; apply V; now right|exact N2]).
  assert (D : forall m, Z.abs m = w_m r -> ~ In (w_n r, m) (map fst (flat_map kept rows))).
  { intros m Hm H. apply in_map_iff in H as ([[n' m'] [a b]] & E & H). cbn [fst] in E. injection E as -> ->.
    apply kept_in in H as (r' & Hr' & En & _ & H). apply N1. apply in_map_iff. exists r'. split; [|exact Hr'].
    assert (0 <= w_m r' <= w_n r')%Z by (apply V; now right). f_equal; [exact En|]. lia. }
  assert (Vr : (0 <= w_m r <= w_n r)%Z) by (apply V; now left).
  unfold kept at 1. destruct (nonzero (w_g r) || nonzero (w_dg r)), (0 <? w_m r)%Z eqn:Em; cbn [andb];
    try (destruct (nonzero (w_h r) || nonzero (w_dh r))); cbn [app map fst]; try apply Z.ltb_lt in Em;
    repeat apply NoDup_cons; try exact IH'; try (apply D; lia).
  intros [H|H]; [injection H as H; lia|revert H; apply D; lia].
Qed.

Lemma nth_fst {A B} (l : list (A * B)) i a : nth_error (map fst l) i = Some a -> exists b, nth_error l i = Some (a, b).
Proof. rewrite nth_error_map. destruct (nth_error l i) as [[x y]|]; [|discriminate]. cbn. intro E. injection E as ->. now exists y. Qed.

(** The two times of a set with a constant rate *)
Lemma period_times epoch period : 0 < period ->
  distinct_times [epoch; epoch + period] /\ neighbours [epoch; epoch + period] epoch (epoch + period) /\
  first_time [epoch; epoch + period] epoch /\ last_time [epoch; epoch + period] (epoch + period).
Proof.
  intro Hp. split; [|split; [split; [lra|]|split]].
  - intros i j a b Hij Ha Hb. destruct i as [|[|i]], j as [|[|j]]; cbn in Ha, Hb; try (now destruct Hij);
      try (rewrite nth_error_nil in Ha; discriminate); try (rewrite nth_error_nil in Hb; discriminate); try discriminate;
      try (destruct i; discriminate); try (destruct j; discriminate);
      injection Ha as <-; injection Hb as <-; rewrite !lt_R; [left|right]; lra.
  - intros x [<-|[<-|[]]]; lra.
  - intros x [<-|[<-|[]]]; lra.
  - intros x [<-|[<-|[]]]; lra.
Qed.

(** A set with constant rates: the values are linear in the decimal year at all times. *)
Lemma rate_set (kept : list ((Z * Z) * (R * R))) epoch period to_mjd :
  0 < period -> kept <> [] -> (forall p, In p (map fst kept) -> valid_nm (fst p) (snd p)) -> NoDup (map fst kept) ->
  exists td, mk_year_set (map fst kept) (map (fun x => [fst (snd x); fst (snd x) + snd (snd x) * period]) kept)
      [epoch; epoch + period] 2 None None to_mjd = Some td /\
    td_validity td = (to_mjd epoch, to_mjd (epoch + period)) /\
    forall t lo hi, exists result, year_set_call td t lo hi = Some result /\ sized result /\
      (forall n m a b, In ((n, m), (a, b)) kept -> bounded_coefficient lo hi result n m (a + b * (mjd2k_to_decimal_year t - epoch))) /\
      (forall n m, valid_nm n m -> ~ In (n, m) (map fst kept) -> coefficient result n m 0).
Proof.
  intros Hp Hk Hv Hd. destruct (period_times epoch period Hp) as (D & Nb & Ft & Lt).
  set (cs := map (fun x : (Z * Z) * (R * R) => [fst (snd x); fst (snd x) + snd (snd x) * period]) kept).
  destruct (mk_time_dependent_ok (map fst kept) cs [epoch; epoch + period] None None (fun x => x)) as [td E].
  - now destruct kept.
  - unfold cs. now rewrite !map_length.
  - unfold cs. intros c H. apply in_map_iff in H as (x & <- & _). reflexivity.
  - discriminate.
  - unfold mk_year_set. rewrite E. eexists. split; [reflexivity|]. cbn [td_validity]. split.
    + destruct (snapshot_sorted _ _ _ _ _ _ _ _ E) as (times' & P & S & _ & V1 & V2 & _).
      destruct (V1 eq_refl) as (t1 & T1 & ->). destruct (V2 eq_refl) as (t2 & T2 & ->).
      assert (I : increasing times') by (apply SeriesProofs.increasing_of_sorted; auto; eapply distinct_perm; [apply Permutation.Permutation_sym|]; eauto).
      pose proof (Permutation.Permutation_length P) as L. destruct times' as [|x [|z [|? ?]]]; try discriminate. cbn in T1, T2. injection T1 as <-. injection T2 as <-.
      assert (x < z) by (apply (I 0%nat 1%nat); [lia|reflexivity|reflexivity]).
      assert (In x [epoch; epoch + period] /\ In z [epoch; epoch + period]) as [X Z0] by (split; apply (Permutation.Permutation_in _ P); cbn; tauto).
      cbn in X, Z0. f_equal; f_equal; destruct X as [X|[X|[]]], Z0 as [Z0|[Z0|[]]]; lra.
    + intros t lo hi. unfold year_set_call.
      destruct (series_array (map fst kept) cs [epoch; epoch + period] None None (fun x => x) mjd2k_to_decimal_year td t lo hi) as (result & Er & Sz & A & Z0).
      * intros i n m H. apply nth_error_In in H. exact (Hv _ H).
      * intros i j p H1 H2. apply (proj1 (NoDup_nth_error _) Hd); [apply nth_error_Some; congruence|congruence].
      * exact D.
      * tauto.
      * cbn; lia.
      * exact E.
      * exists result. split; [exact Er|split; [exact Sz|split; [|exact Z0]]].
        intros n m a b H. apply In_nth_error in H as [i Hi].
        replace (a + b * (mjd2k_to_decimal_year t - epoch)) with (line epoch a (epoch + period) (a + b * period) (mjd2k_to_decimal_year t))
          by (unfold line; field; lra).
        apply (A i n m [a; a + b * period] 0%nat 1%nat); try reflexivity; auto.
        -- apply (map_nth_error fst _ _ Hi).
        -- unfold cs. exact (map_nth_error (fun x : (Z * Z) * (R * R) => [fst (snd x); fst (snd x) + snd (snd x) * period]) _ _ Hi).
Qed.

Lemma wmm_load file epoch rows :
  wmm_file to_int to_float file epoch rows -> proper_rows rows -> some_nonzero rows ->
  exists td, load_coeff_wmm to_int to_float file = Parsed td /\
    td_validity td = (decimal_year_to_mjd2k epoch, decimal_year_to_mjd2k (epoch + 5)) /\
    forall t lo hi, exists result, year_set_call td t lo hi = Some result /\
      forall n m v, valid_nm n m -> wmm_coefficient epoch rows n m (mjd2k_to_decimal_year t) v -> bounded_coefficient lo hi result n m v.
Proof.
  intros (header & lines & rest & e & name & version & more & -> & Hh & He & Hl & Hr) P (r0 & Hr0 & Hz).
  pose proof (rows_complete lines rest rows Hl Hr) as Ep.
  assert (K : flat_map kept rows <> []).
  { assert (exists x, In x (flat_map kept rows)) as [x Hx]; [|intro E; rewrite E in Hx; destruct Hx].
    destruct Hz as [Hz|[Hz|[Hm Hz]]].
    - exists ((w_n r0, w_m r0), (w_g r0, w_dg r0)). apply kept_in. exists r0. tauto.
    - exists ((w_n r0, w_m r0), (w_g r0, w_dg r0)). apply kept_in. exists r0. tauto.
    - exists ((w_n r0, (- w_m r0)%Z), (w_h r0, w_dh r0)). apply kept_in. exists r0. tauto. }
  assert (Hv : forall p, In p (map fst (flat_map kept rows)) -> valid_nm (fst p) (snd p)).
  { intros p H. apply in_map_iff in H as ([[n m] [a b]] & <- & H). apply kept_in in H as (r & Hin & En & _ & H).
    pose proof (proj1 P r Hin). cbn [fst snd]. unfold valid_nm. lia. }
  destruct (rate_set (flat_map kept rows) epoch WMM_VALIDITY_PERIOD decimal_year_to_mjd2k) as (td & Etd & Ev & A);
    [unfold WMM_VALIDITY_PERIOD; lra|exact K|exact Hv|now apply kept_nodup|].
  exists td. split; [|split; [exact Ev|]].
  - unfold load_coeff_wmm, parse_wmm_file, parse_wmm_header. apply split_spec in Hh. rewrite Hh. cbn [field nth_error pbind].
    unfold number at 1. rewrite He. cbn [pbind]. unfold parse_wmm_coefficients. rewrite Ep. cbn [pbind].
    destruct (flat_map kept rows) as [|[[n m] ab] ks]; [contradiction|]. cbn [pbind map fst] in *. cbn [wmm_nm wmm_gh wmm_t]. now rewrite Etd.
  - intros t lo hi. destruct (A t lo hi) as (result & Er & _ & B & Z0). exists result. split; [exact Er|].
    intros n m v V [(r & Hin & En & Em & H)|[H ->]].
    + set (a := if (0 <=? m)%Z then w_g r else w_h r). set (b := if (0 <=? m)%Z then w_dg r else w_dh r).
      assert (v = a + b * (mjd2k_to_decimal_year t - epoch)) as ->.
      { unfold a, b. destruct H as [[Hm ->]|[Hm ->]]; [apply Z.leb_le in Hm|apply Z.leb_gt in Hm]; rewrite Hm; reflexivity. }
      destruct (Req_dec a 0) as [Ha|Ha]; [destruct (Req_dec b 0) as [Hb|Hb]|].
      * rewrite Ha, Hb, Rmult_0_l, Rplus_0_l.
        assert (C : coefficient result n m 0).
        { apply Z0; [exact V|]. intro K'. apply in_map_iff in K' as ([[n' m'] [a' b']] & E & K'). cbn [fst] in E. injection E as -> ->.
          apply kept_in in K' as (r' & Hin' & En' & Hz' & K').
          assert (r' = r) as ->.
          { apply In_nth_error in Hin as [i Hi]. apply In_nth_error in Hin' as [j Hj].
            assert (0 <= w_m r')%Z by (apply (proj1 P); eapply nth_error_In; eauto).
            assert (w_m r' = w_m r) by lia. assert (j = i) as -> by (apply (proj2 P j i r' r Hj Hi); congruence). congruence. }
          unfold a, b in Ha, Hb. destruct (Z.leb_spec 0 m); destruct K' as [(K1 & K2 & K3)|(K1 & K2 & K3 & K4)].
          - destruct Hz'; congruence.
          - lia.
          - assert (0 <= w_m r)%Z by (apply (proj1 P); assumption). lia.
          - destruct Hz'; congruence. }
        split; intros _; exact C.
      * apply B. apply kept_in. exists r. split; [exact Hin|split; [exact En|split; [now right|]]].
        unfold a, b in *. destruct (Z.leb_spec 0 m); [left|right]; repeat split; lia.
      * apply B. apply kept_in. exists r. split; [exact Hin|split; [exact En|split; [now left|]]].
        unfold a, b in *. destruct (Z.leb_spec 0 m); [left|right]; repeat split; lia.
    + assert (C : coefficient result n m 0).
      { apply Z0; [exact V|]. intro K'. apply in_map_iff in K' as ([[n' m'] [a' b']] & E & K'). cbn [fst] in E. injection E as -> ->.
        apply kept_in in K' as (r' & Hin' & En' & _ & K'). apply (H r' Hin'). split; [exact En'|].
        assert (0 <= w_m r')%Z by (apply (proj1 P); assumption). lia. }
      split; intros _; exact C.
Qed.

Lemma wmm_load_sound file td : load_coeff_wmm to_int to_float file = Parsed td ->
  exists epoch rows, wmm_file to_int to_float file epoch rows /\ some_nonzero rows.
Proof.
  intro E. unfold load_coeff_wmm in E. apply pbind_parsed in E as (d & E & _).
  destruct file as [|header file]; [discriminate|]. cbn [parse_wmm_file] in E.
  apply pbind_parsed in E as ([[epoch name] version] & Eh & E). apply pbind_parsed in E as ([[nm gh] t] & Ec & E).
  unfold parse_wmm_coefficients in Ec. apply pbind_parsed in Ec as (out & Eo & Ec).
  destruct (rows_sound _ _ Eo) as (lines & rest & rows & -> & Hl & Hr & ->).
  exists epoch, rows. split.
  - unfold parse_wmm_header in Eh. apply pbind_parsed in Eh as (ep & E1 & Eh). apply pbind_parsed in Eh as (na & E2 & Eh).
    apply pbind_parsed in Eh as (ve & E3 & Eh). injection Eh as <- <- <-. apply field_number in E1 as (f & F1 & F2).
    unfold field in E2, E3. destruct (split header) as [|f0 [|f1 [|f2 more]]] eqn:Es; try discriminate. cbn [nth_error] in *.
    injection F1 as ->. exists header, lines, rest, f, f1, f2, more. split; [reflexivity|split; [now apply split_spec|]]. auto.
  - destruct (flat_map kept rows) as [|[[n m] [a b]] ks] eqn:K; [discriminate|].
    assert (H : In ((n, m), (a, b)) (flat_map kept rows)) by (rewrite K; now left).
    apply kept_in in H as (r & Hin & _ & Hz & [(_ & <- & <-)|(Hm & _ & <- & <-)]); exists r; split; auto; tauto.
Qed.
End Parse.
