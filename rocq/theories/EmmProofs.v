(** Proofs about the EMM files. *)

From Coq Require Import Bool List Ascii String ZArith Reals Lra Lia Permutation.
From Coquelicot Require Import Rbar.
From Verif Require Import Ord ROrd RbarOrd TextModel TextSpec TextProofs ShcProofs SparseModel SparseSpec InterpModel InterpSpec BisectModel BisectProofs SnapshotProofs
  SeriesModel SeriesProofs SeriesSpec SeriesLineProofs TimeModel YearSetModel CombineModel CombineProofs WmmModel WmmProofs IgrfModel IgrfProofs EmmModel EmmSpec.
Import ListNotations.
Open Scope list_scope.
Open Scope R_scope.

(** ** Constant sets *)

Section ConstantArray.
Context {T : Type} {OT : TOrd T} {OI : TInf T}.

Lemma mk_constant_ok indices (coefficients : list (option R)) vstart vend (conv : T -> T) : indices <> [] -> List.length indices = List.length coefficients ->
  exists td, mk_constant indices coefficients vstart vend conv = Some td.
Proof.
  intros Hi Hl. unfold mk_constant, mk_time_dependent. rewrite map_length, (proj2 (Nat.eqb_eq _ _) Hl).
  rewrite (proj2 (forallb_forall _ _)) by (intros c H; apply in_map_iff in H as (x & <- & _); reflexivity). cbn [andb].
  change (argsort [ninf]) with [0%nat].
  assert (E : all_some (map (fun c => gather c [0%nat]) (map (fun v => [v]) coefficients)) = Some (map (fun v => [v]) coefficients)).
  { clear. induction coefficients as [|c cs IH]; [reflexivity|]. cbn [map gather nth_error all_some] in *. now rewrite IH. }
  rewrite E. cbn [gather nth_error]. destruct indices as [|p indices]; [contradiction|]. destruct coefficients as [|c cs]; [discriminate|].
  cbn [map combine mk_sparse]. change ((1 =? 1) || (1 =? 2))%Z with true. cbn iota. eexists. reflexivity.
Qed.

Lemma constant_array indices (coefficients : list R) vstart vend (conv : T -> T) td (t : option T) lo hi :
  (forall i n m, nth_error indices i = Some (n, m) -> valid_nm n m) ->
  (forall i j p, nth_error indices i = Some p -> nth_error indices j = Some p -> i = j) ->
  mk_constant indices (map Some coefficients) vstart vend conv = Some td ->
  exists result, constant_call (Some 0) td t lo hi = Some result /\ sized result /\
    (forall i n m v, nth_error indices i = Some (n, m) -> nth_error coefficients i = Some v -> bounded_coefficient lo hi result n m v) /\
    (forall n m, valid_nm n m -> ~ In (n, m) indices -> coefficient result n m 0).
Proof.
  intros Hv Hd E.
  destruct (indices_entries _ _ _ _ _ _ _ td Hv Hd E) as (Es & Ev & Ed & _ & _ & cs & Lcs & Een).
  destruct (snapshot_sorted _ _ _ _ _ _ _ td E) as (times' & P & Ss & Et & _ & _ & _ & _ & G).
  apply Permutation_sym, Permutation_length_1_inv in P. subst times'.
  destruct (sparse_array (td_sparse td) (fun c => interp0_series (td_times td) c t) lo hi Es Ev Ed) as (result & Er & Sz & A & Z0).
  exists result. split; [exact Er|split; [exact Sz|split]].
  - intros i n m v Hi Hc.
    destruct (G i n m [Some v] Hi) as (c' & He & Lc & Pc).
    { apply (map_nth_error (fun v => [v])). now apply map_nth_error. }
    destruct c' as [|v' [|? ?]]; try discriminate. cbn [combine] in Pc.
    apply Permutation_sym, Permutation_length_1_inv in Pc. injection Pc as ->.
    apply (A {| e_n := n; e_m := m; e_c := [Some v] |} v (nth_error_In _ _ He)). cbn [e_c]. rewrite Et. unfold interp0_series. cbn [map].
    destruct (bisect_right_total t [conv ninf]) as (j & -> & B). cbn [List.length] in *.
    replace (clip j 0 (Z.of_nat 1 - 1)) with 0%Z; [reflexivity|].
    unfold clip. destruct (Z.ltb_spec j 0); auto. destruct (Z.ltb_spec (Z.of_nat 1 - 1) j); lia.
  - intros n m V Hn. apply Z0; [exact V|]. intros e He [<- <-]. apply Hn.
    rewrite Een in He. apply in_map_iff in He as ([[n' m'] c'] & <- & Hin). cbn [e_n e_m fst snd]. exact (in_combine_l _ _ _ _ Hin).
Qed.
End ConstantArray.

(** ** The files *)

Section Parse.
Variables (to_int : text -> option Z) (to_float : text -> option R).

Definition entries_of (r : emm_row) : list ((Z * Z) * R) :=
  ((m_n r, m_m r), m_g r) :: (if (0 <? m_m r)%Z then [((m_n r, (- m_m r)%Z), m_h r)] else []).

Lemma emm_rows_complete lines rows : Forall2 (emm_line to_int to_float) lines rows ->
  parse_emm_rows to_int to_float lines = Parsed (flat_map entries_of rows).
Proof.
  induction 1 as [|line r lines rows Hl H IH]; [reflexivity|].
  destruct Hl as (a & b & c & d & more & Hf & Ea & Eb & Ec & Ed). apply split_spec in Hf.
  cbn [parse_emm_rows]. cbv zeta. rewrite Hf. cbn [field nth_error pbind]. unfold number. rewrite Ea. cbn [pbind]. rewrite Eb. cbn [pbind]. rewrite Ec. cbn [pbind]. rewrite Ed. cbn [pbind].
  rewrite IH. reflexivity.
Qed.
Lemma emm_rows_sound lines : forall out, parse_emm_rows to_int to_float lines = Parsed out ->
  exists rows, Forall2 (emm_line to_int to_float) lines rows /\ out = flat_map entries_of rows.
Proof.
  induction lines as [|line lines IH]; intros out E; cbn [parse_emm_rows] in E; cbv zeta in E.
  - injection E as <-. exists []. split; [constructor|reflexivity].
  - apply pbind_parsed in E as (n & En & E). apply pbind_parsed in E as (m & Em & E). apply pbind_parsed in E as (g & Eg & E).
    apply pbind_parsed in E as (h & Eh & E). apply pbind_parsed in E as (o & Eo & E). destruct (IH o Eo) as (rows & Hl & ->). injection E as <-.
    apply field_number in En as (fa & Ha & En). apply field_number in Em as (fb & Hb & Em).
    apply field_number in Eg as (fc & Hc & Eg). apply field_number in Eh as (fd & Hd & Eh).
    exists ({| m_n := n; m_m := m; m_g := g; m_h := h |} :: rows). split; [constructor; [|exact Hl]|reflexivity].
    destruct (split line) as [|f0 [|f1 [|f2 [|f3 more]]]] eqn:Es; try discriminate. cbn [nth_error] in *.
    exists f0, f1, f2, f3, more. split; [now apply split_spec|]. cbn. repeat split; congruence.
Qed.

Lemma dash_spec l : dash_line l <-> exists f, split l = [f] /\ dashes f = true.
Proof.
  unfold dash_line, dashes. split; intros (f & H1 & H2); exists f; (split; [now apply split_spec|]).
  - apply forallb_forall. rewrite Forall_forall in H2. intros c Hc. rewrite (H2 c Hc). reflexivity.
  - apply Forall_forall. rewrite forallb_forall in H2. intros c Hc. apply Ascii.eqb_eq. now apply H2.
Qed.

Lemma header_step epoch line lines : ~ dash_line line ->
  (other_line line -> parse_emm_header to_float epoch (line :: lines) = parse_emm_header to_float epoch lines) /\
  (forall x, epoch_line to_float line x -> parse_emm_header to_float epoch (line :: lines) = parse_emm_header to_float (Some x) lines).
Proof.
  intro Nd. split.
  - intro Ho. cbn [parse_emm_header]. destruct (split line) as [|f [|v [|? ?]]] eqn:Es; try reflexivity.
    + destruct (dashes f) eqn:Ed; [exfalso; apply Nd, dash_spec; now exists f|reflexivity].
    + destruct (text_eqb f (list_ascii_of_string "Epoch:")) eqn:Ef; [|reflexivity]. apply text_eqb_spec in Ef. subst f.
      exfalso. apply (Ho v). now apply split_spec.
  - intros x (v & Hv & Ex). apply split_spec in Hv. cbn [parse_emm_header]. rewrite Hv.
    replace (text_eqb (list_ascii_of_string "Epoch:") (list_ascii_of_string "Epoch:")) with true by (symmetry; now apply text_eqb_spec).
    unfold number. now rewrite Ex.
Qed.

Lemma emm_header_complete file epoch rows : emm_file to_int to_float file epoch rows -> exists lines,
  parse_emm_header to_float None file = Parsed (Some epoch, lines) /\ Forall2 (emm_line to_int to_float) lines rows.
Proof.
  intros (before & line & after & dl & lines & -> & Hb & He & Ha & Hd & Hl). exists lines. split; [|exact Hl].
  assert (N : ~ dash_line line).
  { intro D. apply dash_spec in D as (f & D & _). destruct He as (v & Hv & _). apply split_spec in Hv. congruence. }
  generalize (@None R). revert Hb. induction before as [|b before IH]; intros Hb e; cbn [app].
  - rewrite (proj2 (header_step _ _ _ N) _ He). clear -Ha Hd. induction Ha as [|a after [Na Oa] Ha IH]; cbn [app].
    + apply dash_spec in Hd as (f & Ef & Df). cbn [parse_emm_header]. now rewrite Ef, Df.
    + now rewrite (proj1 (header_step _ _ _ Na) Oa).
  - inversion Hb as [|? ? [Nb Hob] Hb']; subst. destruct Hob as [Ob|[x Ex]].
    + rewrite (proj1 (header_step _ _ _ Nb) Ob). now apply IH.
    + rewrite (proj2 (header_step _ _ _ Nb) _ Ex). now apply IH.
Qed.

Lemma emm_file_complete file epoch rows : emm_file to_int to_float file epoch rows -> rows <> [] ->
  parse_emm_file to_int to_float file = Parsed (epoch, flat_map entries_of rows).
Proof.
  intros H Hr. destruct (emm_header_complete _ _ _ H) as (lines & Eh & Hl). unfold parse_emm_file. rewrite Eh. cbn [pbind].
  rewrite (emm_rows_complete _ _ Hl). cbn [pbind]. destruct rows as [|r rows]; [contradiction|]. reflexivity.
Qed.

Lemma emm_header_sound file : forall epoch0 e lines, parse_emm_header to_float epoch0 file = Parsed (e, lines) -> lines <> [] ->
  exists head dl, file = head ++ dl :: lines /\ dash_line dl /\
    (e = epoch0 /\ Forall (fun l => ~ dash_line l /\ other_line l) head \/
     exists x before line after, e = Some x /\ head = before ++ line :: after /\
       Forall (fun l => ~ dash_line l /\ (other_line l \/ exists x, epoch_line to_float l x)) before /\ epoch_line to_float line x /\
       Forall (fun l => ~ dash_line l /\ other_line l) after).
Proof.
  induction file as [|l file IH]; intros epoch0 e lines E Hl.
  - cbn in E. injection E as <- <-. contradiction.
  - assert (Other : ~ dash_line l -> other_line l -> parse_emm_header to_float epoch0 file = Parsed (e, lines) -> exists head dl, l :: file = head ++ dl :: lines /\ dash_line dl /\
      (e = epoch0 /\ Forall (fun l => ~ dash_line l /\ other_line l) head \/
       exists x before line after, e = Some x /\ head = before ++ line :: after /\
         Forall (fun l => ~ dash_line l /\ (other_line l \/ exists x, epoch_line to_float l x)) before /\ epoch_line to_float line x /\
         Forall (fun l => ~ dash_line l /\ other_line l) after)).
    { intros Nd No E'. destruct (IH _ _ _ E' Hl) as (head & dl & -> & Hd & [[-> H]|(x & before & line & after & -> & -> & Hb & He & Ha)]).
      - exists (l :: head), dl. split; [reflexivity|split; [exact Hd|left]]. split; [reflexivity|]. now constructor.
      - exists (l :: before ++ line :: after), dl. split; [reflexivity|split; [exact Hd|right]]. exists x, (l :: before), line, after.
        split; [reflexivity|split; [reflexivity|split; [|now split]]]. constructor; [|exact Hb]. split; [exact Nd|now left]. }
    cbn [parse_emm_header] in E. destruct (split l) as [|f [|v [|f2 fs]]] eqn:Es.
    + apply Other; [intro D; apply dash_spec in D as (? & D & _); congruence|intros v H; apply split_spec in H; congruence|exact E].
    + destruct (dashes f) eqn:Ed.
      * injection E as <- <-. exists [], l. split; [reflexivity|split; [apply dash_spec; now exists f|left]]. now split.
      * apply Other; [intro D; apply dash_spec in D as (? & D & D2); congruence|intros v H; apply split_spec in H; congruence|exact E].
    + assert (Nd : ~ dash_line l) by (intro D; apply dash_spec in D as (? & D & _); congruence).
      destruct (text_eqb f (list_ascii_of_string "Epoch:")) eqn:Ef.
      * apply text_eqb_spec in Ef. subst f. apply pbind_parsed in E as (x & Ex & E).
        assert (Ep : epoch_line to_float l x).
        { exists v. split; [now apply split_spec|]. unfold number in Ex. destruct (to_float v); [injection Ex as ->; reflexivity|discriminate]. }
        destruct (IH _ _ _ E Hl) as (head & dl & -> & Hd & [[-> H]|(x' & before & line & after & -> & -> & Hb & He & Ha)]).
        -- exists (l :: head), dl. split; [reflexivity|split; [exact Hd|right]]. exists x, [], l, head. now repeat split.
        -- exists (l :: before ++ line :: after), dl. split; [reflexivity|split; [exact Hd|right]]. exists x', (l :: before), line, after.
           split; [reflexivity|split; [reflexivity|split; [|now split]]]. constructor; [|exact Hb]. split; [exact Nd|right; now exists x].
      * apply Other; [exact Nd| |exact E]. intros w H. apply split_spec in H. rewrite Es in H.
        assert (text_eqb f (list_ascii_of_string "Epoch:") = true) by (apply text_eqb_spec; congruence). congruence.
    + apply Other; [intro D; apply dash_spec in D as (? & D & _); congruence|intros w H; apply split_spec in H; congruence|exact E].
Qed.

Lemma emm_file_sound file epoch out : parse_emm_file to_int to_float file = Parsed (epoch, out) ->
  exists rows, emm_file to_int to_float file epoch rows /\ rows <> [] /\ out = flat_map entries_of rows.
Proof.
  unfold parse_emm_file. intro E. apply pbind_parsed in E as ([e lines] & Eh & E). apply pbind_parsed in E as (o & Eo & E).
  destruct (emm_rows_sound _ _ Eo) as (rows & Hl & ->).
  destruct e as [x|]; [|discriminate]. destruct (flat_map entries_of rows) eqn:Er; [discriminate|]. rewrite <- Er in E. injection E as -> <-.
  assert (Hr : rows <> []) by (intros ->; discriminate).
  exists rows. split; [|now split].
  assert (lines <> []) as Hne by (intros ->; inversion Hl; subst; contradiction).
  destruct (emm_header_sound _ _ _ _ Eh Hne) as (head & dl & -> & Hd & [[E _]|(x & before & line & after & Ex & -> & Hb & He & Ha)]); [discriminate|].
  injection Ex as ->. exists before, line, after, dl, lines. rewrite <- app_assoc. now repeat split.
Qed.

Lemma emm_load_sound file_static file_secvar emm : load_coeff_emm to_int to_float file_static file_secvar = Parsed emm ->
  exists epoch_static static epoch_secvar secvar,
    emm_file to_int to_float file_static epoch_static static /\ emm_file to_int to_float file_secvar epoch_secvar secvar /\ secvar <> [].
Proof.
  unfold load_coeff_emm. intro E. apply pbind_parsed in E as ([e1 o1] & E1 & E). apply pbind_parsed in E as ([e2 o2] & E2 & E).
  destruct (emm_file_sound _ _ _ E1) as (r1 & H1 & _). destruct (emm_file_sound _ _ _ E2) as (r2 & H2 & N2 & _).
  now exists e1, r1, e2, r2.
Qed.

Lemma entries_in rows n m v : In ((n, m), v) (flat_map entries_of rows) <->
  exists r, In r rows /\ m_n r = n /\ (m_m r = m /\ v = m_g r \/ (0 < m_m r)%Z /\ m = (- m_m r)%Z /\ v = m_h r).
Proof.
  rewrite in_flat_map. split; intros (r & Hr & H); exists r; (split; [exact Hr|]).
  - unfold entries_of in H. destruct H as [H|H]; [injection H as <- <- <-; tauto|].
    destruct (Z.ltb_spec 0 (m_m r)); [|destruct H]. destruct H as [H|[]]. injection H as <- <- <-. tauto.
  - destruct H as (<- & [(<- & ->)|(Hm & -> & ->)]); [now left|]. apply Z.ltb_lt in Hm. unfold entries_of. rewrite Hm. right. now left.
Qed.

Lemma emm_nodup rows : proper_emm rows -> NoDup (map fst (flat_map entries_of rows)).
Proof.
  intros P.
  assert (N : NoDup (map (fun r => (m_n r, m_m r)) rows)).
  { destruct P as [_ H]. apply NoDup_nth_error. intros i j Hi E. rewrite map_length in Hi.
    rewrite !nth_error_map in E. destruct (nth_error rows i) as [a|] eqn:Ea; [|apply nth_error_None in Ea; lia].
    destruct (nth_error rows j) as [b|] eqn:Eb; [|discriminate]. cbn in E. injection E as E1 E2. exact (H i j a b Ea Eb E1 E2). }
  destruct P as [V _]. induction rows as [|r rows IH]; [constructor|].
  cbn [flat_map map] in *. apply NoDup_cons_iff in N as [N1 N2]. rewrite map_app.
  assert (IH' : NoDup (map fst (flat_map entries_of rows))) by (apply IH; [intros; apply V; now right|exact N2]).
  assert (D : forall m, Z.abs m = m_m r -> ~ In (m_n r, m) (map fst (flat_map entries_of rows))).
  { intros m Hm H. apply in_map_iff in H as ([[n' m'] a] & E & H). cbn [fst] in E. injection E as -> ->.
    apply entries_in in H as (r' & Hr' & En & H). apply N1. apply in_map_iff. exists r'. split; [|exact Hr'].
    assert (0 <= m_m r' <= m_n r')%Z by (apply V; now right). f_equal; [exact En|]. lia. }
  assert (Vr : (0 <= m_m r <= m_n r)%Z) by (apply V; now left).
  unfold entries_of at 1. destruct (Z.ltb_spec 0 (m_m r)); cbn [app map fst];
    repeat apply NoDup_cons; try exact IH'; try (apply D; lia).
  intros [H0|H0]; [injection H0 as H0; lia|revert H0; apply D; lia].
Qed.

Lemma same_rows_entries vs sec : same_rows vs sec -> map fst (flat_map entries_of vs) = map fst (flat_map entries_of sec).
Proof.
  induction 1 as [|s v vs sec [H1 H2] H IH]; [reflexivity|]. cbn [flat_map]. rewrite !map_app, IH. f_equal.
  unfold entries_of. rewrite H1, H2. destruct (0 <? m_m v)%Z; reflexivity.
Qed.

Lemma nodup_app_disjoint {A} (l1 l2 : list A) x : NoDup (l1 ++ l2) -> In x l1 -> In x l2 -> False.
Proof.
  induction l1 as [|a l1 IH]; intros N H1 H2; [destruct H1|]. cbn in N. apply NoDup_cons_iff in N as [N1 N2]. destruct H1 as [->|H1]; [|exact (IH N2 H1 H2)].
  apply N1, in_or_app. now right.
Qed.
Lemma nodup_app_l {A} (l1 l2 : list A) : NoDup (l1 ++ l2) -> NoDup l1 /\ NoDup l2.
Proof.
  induction l1 as [|a l1 IH]; intro N; [split; [constructor|exact N]|]. cbn in N. apply NoDup_cons_iff in N as [N1 N2]. destruct (IH N2) as [A1 A2].
  split; [|exact A2]. constructor; [|exact A1]. intro H. apply N1, in_or_app. now left.
Qed.
Lemma nodup_filter_fst {A B} (f : A * B -> bool) l : NoDup (map fst l) -> NoDup (map fst (filter f l)).
Proof.
  induction l as [|[a b] l IH]; intro N; [constructor|]. cbn [map fst] in N. apply NoDup_cons_iff in N as [N1 N2]. cbn [filter].
  destruct (f (a, b)); [|now apply IH]. cbn [map fst]. constructor; [|now apply IH]. intro H. apply N1.
  apply in_map_iff in H as (x & <- & H). apply filter_In in H as [H _]. now apply in_map.
Qed.
Lemma nodup_value {A B} (l : list (A * B)) k a b : NoDup (map fst l) -> In (k, a) l -> In (k, b) l -> a = b.
Proof.
  induction l as [|[k' c] l IH]; intros N H1 H2; [destruct H1|]. cbn [map fst] in N. apply NoDup_cons_iff in N as [N1 N2].
  destruct H1 as [H1|H1], H2 as [H2|H2].
  - congruence.
  - injection H1 as -> ->. exfalso. apply N1. apply in_map_iff. now exists (k, b).
  - injection H2 as -> ->. exfalso. apply N1. apply in_map_iff. now exists (k, a).
  - exact (IH N2 H1 H2).
Qed.

Lemma of_order_entry r n m v : (0 <= m_m r)%Z -> of_order r n m v -> In ((n, m), v) (entries_of r).
Proof.
  intros Hp (<- & Hm & [[H ->]|[H ->]]).
  - left. f_equal. f_equal. lia.
  - unfold entries_of. destruct (Z.ltb_spec 0 (m_m r)); [|lia]. right. left. f_equal. f_equal. lia.
Qed.

Lemma coefficient_bounded lo hi r n m : coefficient r n m 0 -> bounded_coefficient lo hi r n m 0.
Proof. intro H. split; intros _; exact H. Qed.

Lemma combine_entries vs sec i s w n m a b : same_rows vs sec -> nth_error vs i = Some s -> nth_error sec i = Some w ->
  (0 <= m_m s)%Z -> of_order s n m a -> of_order w n m b ->
  In (((n, m), a), ((n, m), b)) (combine (flat_map entries_of vs) (flat_map entries_of sec)).
Proof.
  intro H. revert i. induction H as [|s0 w0 vs sec [H1 H2] H IH]; intros i Hi Hw Hp Ha Hb; [destruct i; discriminate|]. cbn [flat_map].
  assert (L : List.length (entries_of s0) = List.length (entries_of w0)) by (unfold entries_of; rewrite H2; destruct (0 <? m_m w0)%Z; reflexivity).
  assert (Ec : forall (A : Type) (l1 l2 m1 m2 : list A), List.length l1 = List.length m1 -> combine (l1 ++ l2) (m1 ++ m2) = combine l1 m1 ++ combine l2 m2).
  { clear. intros A l1. induction l1 as [|x l1 IH]; intros l2 [|y m1] m2 L; try discriminate; [reflexivity|]. cbn. f_equal. apply IH. now injection L. }
  rewrite Ec by exact L. apply in_or_app. destruct i as [|i]; [left|right; now apply (IH i)].
  injection Hi as ->. injection Hw as ->. destruct Ha as (A1 & A2 & A3), Hb as (B1 & B2 & B3). unfold entries_of. rewrite <- H2, B1, A1 in *.
  destruct A3 as [[A3 ->]|[A3 ->]], B3 as [[B3 ->]|[B3 ->]]; try lia.
  - left. assert (m_m s = m) as -> by lia. reflexivity.
  - destruct (Z.ltb_spec 0 (m_m s)); [|lia]. right. left. assert ((- m_m s)%Z = m) as -> by lia. reflexivity.
Qed.

Lemma emm_load file_static file_secvar epoch vs cs sec :
  emm_file to_int to_float file_static epoch (vs ++ cs) -> emm_file to_int to_float file_secvar epoch sec ->
  same_rows vs sec -> proper_emm (vs ++ cs) -> sec <> [] -> nonzero_rows cs ->
  exists emm, load_coeff_emm to_int to_float file_static file_secvar = Parsed emm /\
    emm_validity emm = (Finite (decimal_year_to_mjd2k epoch), Finite (decimal_year_to_mjd2k (epoch + 5))) /\
    forall t lo hi, exists result, emm_call emm t lo hi = Some result /\
      forall n m v, valid_nm n m -> emm_coefficient epoch vs cs sec n m (mjd2k_to_decimal_year t) v -> bounded_coefficient lo hi result n m v.
Proof.
  intros Fs Fv Hsame P Hsec (r0 & Hr0 & Hz).
  assert (Hvs : vs ++ cs <> []).
  { inversion Hsame as [|? ? ? ? ? ? K1 K2]; subst; [contradiction|discriminate]. }
  pose proof (emm_file_complete _ _ _ Fs Hvs) as Es. pose proof (emm_file_complete _ _ _ Fv Hsec) as Ev.
  pose proof (emm_nodup _ P) as Nd. rewrite flat_map_app, map_app in Nd.
  pose proof (same_rows_entries _ _ Hsame) as Keys.
  set (ev := flat_map entries_of vs) in *. set (ec := flat_map entries_of cs) in *. set (es := flat_map entries_of sec) in *.
  assert (Len : List.length ev = List.length es) by (rewrite <- (map_length fst ev), Keys, map_length; reflexivity).
  destruct (nodup_app_l _ _ Nd) as [Nv Nc].
  assert (Hvalid : forall p, In p (map fst ev ++ map fst ec) -> valid_nm (fst p) (snd p)).
  { intros p H. rewrite <- map_app in H. unfold ev, ec in H. rewrite <- flat_map_app in H. apply in_map_iff in H as ([[n m] a] & <- & H).
    apply entries_in in H as (r & Hin & En & H). pose proof (proj1 P r Hin). cbn [fst snd]. unfold valid_nm. lia. }
  set (kept := map (fun x : ((Z * Z) * R) * ((Z * Z) * R) => (fst (snd x), (snd (fst x), snd (snd x)))) (combine ev es)).
  assert (Kf : map fst kept = map fst es).
  { unfold kept. rewrite map_map. cbn [fst]. clear -Len. clearbody ev es. revert es Len. induction ev as [|x l IH]; intros [|y es] L; try discriminate; [reflexivity|].
    cbn [combine map fst snd]. f_equal. apply IH. now injection L. }
  assert (Kc : map (fun x => [fst (snd x); fst (snd x) + snd (snd x) * EMM_VALIDITY_PERIOD]) kept =
    map (fun x => [snd (fst x); snd (fst x) + snd (snd x) * EMM_VALIDITY_PERIOD]) (combine ev es)).
  { unfold kept. rewrite map_map. reflexivity. }
  destruct (rate_set kept epoch EMM_VALIDITY_PERIOD decimal_year_to_mjd2k) as (td & Etd & Vtd & A).
  { unfold EMM_VALIDITY_PERIOD. lra. }
  { intro K. assert (Ke : map fst es = []) by (rewrite <- Kf, K; reflexivity). unfold es in Ke. destruct sec as [|w sec]; [contradiction|discriminate]. }
  { intros p H. rewrite Kf, <- Keys in H. apply Hvalid. apply in_or_app. now left. }
  { rewrite Kf, <- Keys. exact Nv. }
  set (kc := filter (fun x : (Z * Z) * R => nonzero (snd x)) ec).
  assert (Kn : kc <> []).
  { assert (exists x, In x kc) as [x Hx]; [|intro E; rewrite E in Hx; destruct Hx].
    destruct Hz as [Hz|[Hm Hz]].
    - exists ((m_n r0, m_m r0), m_g r0). apply filter_In. split; [apply entries_in; exists r0; tauto|now apply nonzero_spec].
    - exists ((m_n r0, (- m_m r0)%Z), m_h r0). apply filter_In. split; [apply entries_in; exists r0; tauto|now apply nonzero_spec]. }
  assert (Kin : forall x, In x kc -> In x ec) by (intros x H; apply filter_In in H; tauto).
  assert (Ncc : NoDup (map fst kc)) by (now apply nodup_filter_fst).
  destruct (mk_constant_ok (OI := TInf_Rbar) (map fst kc) (map Some (map snd kc)) None None (fun x => x)) as [tc Etc].
  { now destruct kc. }
  { now rewrite !map_length. }
  assert (Hvc : forall i n m, nth_error (map fst kc) i = Some (n, m) -> valid_nm n m).
  { intros i n m H. apply nth_error_In in H. apply in_map_iff in H as (x & E & H). apply Kin in H. apply (Hvalid (n, m)). apply in_or_app. right.
    rewrite <- E. now apply in_map. }
  assert (Hdc : forall i j p, nth_error (map fst kc) i = Some p -> nth_error (map fst kc) j = Some p -> i = j).
  { intros i j p H1 H2. apply (proj1 (NoDup_nth_error _) Ncc); [apply nth_error_Some; congruence|congruence]. }
  exists (td, tc). split; [|split].
  - unfold load_coeff_emm. rewrite Es, Ev. cbn [pbind]. unfold combine_emm_variable. cbn [snd]. rewrite flat_map_app. fold ev ec.
    rewrite <- Len, firstn_app, Nat.sub_diag, firstn_all, firstn_O, app_nil_r, Nat.eqb_refl. cbn [pbind].
    unfold extract_emm_constant. cbn [snd]. rewrite <- Len, skipn_app, Nat.sub_diag, skipn_all. cbn [app skipn].
    change (filter (fun x : Z * Z * R => nonzero (snd x)) ec) with kc.
    destruct kc as [|k0 ks]; [contradiction|]. cbn [pbind]. rewrite Kf, Kc in Etd. rewrite Etd, Etc. reflexivity.
  - unfold emm_validity. cbn [fst snd]. rewrite Vtd.
    assert (td_validity tc = (m_infty, p_infty)) as ->.
    { exact (constant_validity _ _ tc Etc). }
    reflexivity.
  - intros t lo hi. destruct (A t lo hi) as (r1 & E1 & S1 & B1 & Z1).
    destruct (constant_array (OI := TInf_Rbar) (map fst kc) (map snd kc) None None (fun x => x) tc (Some (Finite t)) lo hi Hvc Hdc Etc) as (r2 & E2 & S2 & B2 & Z2).
    exists (combine_cells [r1; r2]). split; [unfold emm_call; cbn [fst snd]; now rewrite E1, E2|].
    intros n m v V Hv.
    assert (Sum : forall v1 v2, v = v1 + v2 -> bounded_coefficient lo hi r1 n m v1 -> bounded_coefficient lo hi r2 n m v2 -> bounded_coefficient lo hi (combine_cells [r1; r2]) n m v).
    { intros v1 v2 -> H1 H2. replace (v1 + v2) with (sum [v1; v2]) by (cbn; ring). apply combine_bounded; [exact V| |]; repeat constructor; (apply S1 || apply S2 || apply H1 || apply H2). }
    assert (Kz : ~ In (n, m) (map fst kept) -> bounded_coefficient lo hi r1 n m 0) by (intro H; now apply coefficient_bounded, Z1).
    assert (Cz : ~ In (n, m) (map fst kc) -> bounded_coefficient lo hi r2 n m 0) by (intro H; now apply coefficient_bounded, Z2).
    destruct Hv as [(i & s & w & a & b & Hi & Hw & Ha & Hb & ->)|[(s & Hs & Ho)|(Hno & ->)]].
    + assert (Hp : (0 <= m_m s)%Z) by (apply (proj1 P); apply in_or_app; left; eapply nth_error_In; eauto).
      pose proof (combine_entries _ _ _ _ _ _ _ _ _ Hsame Hi Hw Hp Ha Hb) as Hin. fold ev es in Hin.
      apply (Sum (a + b * (mjd2k_to_decimal_year t - epoch)) 0); [ring| |].
      * apply B1. unfold kept. apply in_map_iff. now exists (((n, m), a), ((n, m), b)).
      * apply Cz. intro K. apply (nodup_app_disjoint _ _ (n, m) Nd); [apply in_combine_l in Hin; now apply (in_map fst) in Hin|].
        apply in_map_iff in K as (x & E & K). rewrite <- E. now apply in_map, Kin.
    + assert (Hp : (0 <= m_m s)%Z) by (apply (proj1 P); apply in_or_app; now right).
      assert (Hin : In ((n, m), v) ec) by (unfold ec; apply in_flat_map; exists s; split; [exact Hs|now apply of_order_entry]).
      apply (Sum 0 v); [ring| |].
      * apply Kz. rewrite Kf, <- Keys. intro K. apply (nodup_app_disjoint _ _ (n, m) Nd K). now apply (in_map fst) in Hin.
      * destruct (Req_dec v 0) as [->|Nz].
        -- apply Cz. intro K. apply in_map_iff in K as ([k x] & E & K). cbn [fst] in E. subst k. pose proof K as K'. apply Kin in K.
           pose proof (nodup_value _ _ _ _ Nc Hin K) as <-. apply filter_In in K' as [_ K']. apply nonzero_spec in K'. now apply K'.
        -- assert (Hk : In ((n, m), v) kc) by (apply filter_In; split; [exact Hin|now apply nonzero_spec]).
           apply In_nth_error in Hk as [i Hi]. apply (B2 i n m v); [exact (map_nth_error fst _ _ Hi)|exact (map_nth_error snd _ _ Hi)].
    + assert (No : ~ In (n, m) (map fst ev ++ map fst ec)).
      { rewrite <- map_app. unfold ev, ec. rewrite <- flat_map_app. intro K. apply in_map_iff in K as ([k x] & E & K). cbn [fst] in E. subst k.
        apply entries_in in K as (r & Hin & En & K). apply (Hno r Hin). split; [exact En|]. pose proof (proj1 P r Hin). lia. }
      apply (Sum 0 0); [ring| |].
      * apply Kz. rewrite Kf, <- Keys. intro K. apply No, in_or_app. now left.
      * apply Cz. intro K. apply No, in_or_app. right. apply in_map_iff in K as (x & E & K). rewrite <- E. now apply in_map, Kin.
Qed.

(** F7: the sets are not compared. *)
Lemma emm_not_refused file_static file_secvar epoch1 epoch2 vs cs sec :
  emm_file to_int to_float file_static epoch1 (vs ++ cs) -> emm_file to_int to_float file_secvar epoch2 sec ->
  List.length (flat_map entries_of vs) = List.length (flat_map entries_of sec) -> sec <> [] -> nonzero_rows cs ->
  exists emm, load_coeff_emm to_int to_float file_static file_secvar = Parsed emm.
Proof.
  intros Fs Fv Len Hsec (r0 & Hr0 & Hz).
  assert (Hvs : vs ++ cs <> []).
  { destruct vs; [|discriminate]. destruct cs; [destruct Hr0|discriminate]. }
  pose proof (emm_file_complete _ _ _ Fs Hvs) as Es. pose proof (emm_file_complete _ _ _ Fv Hsec) as Ev.
  set (ev := flat_map entries_of vs) in *. set (es := flat_map entries_of sec) in *.
  set (kc := filter (fun x : (Z * Z) * R => nonzero (snd x)) (flat_map entries_of cs)).
  assert (Kn : kc <> []).
  { assert (exists x, In x kc) as [x Hx]; [|intro E; rewrite E in Hx; destruct Hx].
    destruct Hz as [Hz|[Hm Hz]].
    - exists ((m_n r0, m_m r0), m_g r0). apply filter_In. split; [apply entries_in; exists r0; tauto|now apply nonzero_spec].
    - exists ((m_n r0, (- m_m r0)%Z), m_h r0). apply filter_In. split; [apply entries_in; exists r0; tauto|now apply nonzero_spec]. }
  destruct (mk_constant_ok (OI := TInf_Rbar) (map fst kc) (map Some (map snd kc)) None None (fun x => x)) as [tc Etc].
  { now destruct kc. }
  { now rewrite !map_length. }
  destruct (mk_time_dependent_ok (map fst es) (map (fun x : ((Z * Z) * R) * ((Z * Z) * R) => [snd (fst x); snd (fst x) + snd (snd x) * EMM_VALIDITY_PERIOD]) (combine ev es))
    [epoch2; epoch2 + EMM_VALIDITY_PERIOD] None None (fun x => x)) as [td Etd].
  { unfold es. destruct sec; [contradiction|discriminate]. }
  { rewrite !map_length, combine_length, Len. now rewrite Nat.min_id. }
  { intros c H. apply in_map_iff in H as (x & <- & _). reflexivity. }
  { discriminate. }
  eexists. unfold load_coeff_emm. rewrite Es, Ev. cbn [pbind]. unfold combine_emm_variable. cbn [snd]. rewrite flat_map_app. fold ev.
  rewrite <- Len, firstn_app, Nat.sub_diag, firstn_all, firstn_O, app_nil_r, Nat.eqb_refl. cbn [pbind].
  unfold extract_emm_constant. cbn [snd]. rewrite <- Len, skipn_app, Nat.sub_diag, skipn_all. cbn [app skipn].
  change (filter (fun x : Z * Z * R => nonzero (snd x)) (flat_map entries_of cs)) with kc.
  destruct kc as [|k0 ks]; [contradiction|]. cbn [pbind]. unfold mk_year_set. rewrite Etd, Etc. reflexivity.
Qed.

Lemma emm_file_empty file epoch : emm_file to_int to_float file epoch [] -> parse_emm_file to_int to_float file = Failed E_Index.
Proof.
  intro H. destruct (emm_header_complete _ _ _ H) as (lines & Eh & Hl). unfold parse_emm_file. rewrite Eh. cbn [pbind].
  rewrite (emm_rows_complete _ _ Hl). reflexivity.
Qed.

Lemma emm_file_no_epoch file rows : emm_file_without_epoch to_int to_float file rows -> parse_emm_file to_int to_float file = Failed E_Key.
Proof.
  intros (before & dl & lines & -> & Hb & Hd & Hl). unfold parse_emm_file.
  assert (E : parse_emm_header to_float None (before ++ dl :: lines) = Parsed (None, lines)).
  { induction Hb as [|l before (N & O) Hb IH].
    - cbn [app parse_emm_header]. apply dash_spec in Hd as (f & -> & ->). reflexivity.
    - cbn [app]. rewrite (proj1 (header_step None l (before ++ dl :: lines) N) O). exact IH. }
  rewrite E. cbn [pbind]. rewrite (emm_rows_complete _ _ Hl). reflexivity.
Qed.

Lemma emm_refused file_static file_secvar epoch static :
  (emm_file to_int to_float file_static epoch [] -> load_coeff_emm to_int to_float file_static file_secvar = Failed E_Index) /\
  (emm_file_without_epoch to_int to_float file_static static ->
     load_coeff_emm to_int to_float file_static file_secvar = Failed E_Key) /\
  (emm_file to_int to_float file_static epoch static -> static <> [] ->
   (forall epoch', emm_file to_int to_float file_secvar epoch' [] ->
      load_coeff_emm to_int to_float file_static file_secvar = Failed E_Index) /\
   (forall secvar, emm_file_without_epoch to_int to_float file_secvar secvar ->
      load_coeff_emm to_int to_float file_static file_secvar = Failed E_Key) /\
   (forall epoch' secvar variable constant, emm_file to_int to_float file_secvar epoch' secvar -> secvar <> [] ->
      static = variable ++ constant -> same_rows variable secvar -> ~ nonzero_rows constant ->
      load_coeff_emm to_int to_float file_static file_secvar = Failed E_Value) /\
   (forall epoch' secvar more, emm_file to_int to_float file_secvar epoch' secvar -> more <> [] ->
      (exists variable, secvar = variable ++ more /\ same_rows static variable) ->
      load_coeff_emm to_int to_float file_static file_secvar = Failed E_Value)).
Proof.
  unfold load_coeff_emm. split; [|split].
  - intro H. now rewrite (emm_file_empty _ _ H).
  - intro H. now rewrite (emm_file_no_epoch _ _ H).
  - intros Hs Ns. rewrite (emm_file_complete _ _ _ Hs Ns). cbn [pbind]. split; [|split; [|split]].
    + intros e H. now rewrite (emm_file_empty _ _ H).
    + intros r H. now rewrite (emm_file_no_epoch _ _ H).
    + intros e secvar vs cs H Nv -> Hr Hz. rewrite (emm_file_complete _ _ _ H Nv). cbn [pbind].
      assert (Len : List.length (flat_map entries_of vs) = List.length (flat_map entries_of secvar)).
      { rewrite <- (map_length fst), (same_rows_entries _ _ Hr). apply map_length. }
      unfold combine_emm_variable. cbn [snd]. rewrite flat_map_app.
      rewrite <- Len, firstn_app, Nat.sub_diag, firstn_all, firstn_O, app_nil_r, Nat.eqb_refl. cbn [pbind].
      unfold extract_emm_constant. cbn [snd]. rewrite <- Len, skipn_app, Nat.sub_diag, skipn_all. cbn [app skipn].
      destruct (filter (fun x : Z * Z * R => nonzero (snd x)) (flat_map entries_of cs)) as [|[[n m] v] l] eqn:E; [reflexivity|].
      exfalso. apply Hz. assert (I : In ((n, m), v) (filter (fun x : Z * Z * R => nonzero (snd x)) (flat_map entries_of cs))) by (rewrite E; now left).
      apply filter_In in I as [I J]. apply entries_in in I as (r & Hr' & _ & I). apply nonzero_spec in J. cbn [snd] in J.
      exists r. split; [exact Hr'|]. destruct I as [[_ ->]|(P & _ & ->)]; [now left|right; now split].
    + intros e secvar more H Nm (vs & -> & Hr). rewrite (emm_file_complete _ _ _ H) by (destruct vs; [exact Nm|discriminate]). cbn [pbind].
      unfold combine_emm_variable. cbn [snd].
      assert (Len : List.length (flat_map entries_of static) = List.length (flat_map entries_of vs)).
      { rewrite <- (map_length fst), (same_rows_entries _ _ Hr). apply map_length. }
      rewrite firstn_length, flat_map_app, app_length, <- Len.
      assert (P : (0 < List.length (flat_map entries_of more))%nat) by (destruct more; [contradiction|cbn; lia]).
      rewrite (proj2 (Nat.eqb_neq _ _)) by lia. reflexivity.
Qed.
End Parse.
