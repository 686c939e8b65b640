(** Proofs about the parser of the MIO files. *)

From Coq Require Import Bool List Ascii ZArith Reals Lia Lra.
From Verif Require Import Ord ROrd TextModel TextSpec TextProofs ShcModel ShcSpec ShcProofs ShEvalModel TimeModel DecimalProofs FourierSpec MioParseModel MioParseSpec.
Import ListNotations.

Section Lists.
Context {A : Type}.
Lemma concat_length (rows : list (list A)) L : (forall r, In r rows -> length r = L) -> length (concat rows) = (length rows * L)%nat.
Proof.
  induction rows as [|r rows IH]; intro H; [reflexivity|]. cbn [concat length]. rewrite app_length, IH by (intros; apply H; now right).
  rewrite (H r) by now left. lia.
Qed.
Lemma concat_nth (d : A) (rows : list (list A)) L : (forall r, In r rows -> length r = L) -> forall k i, (k < length rows)%nat -> (i < L)%nat ->
  nth (k * L + i) (concat rows) d = nth i (nth k rows []) d.
Proof.
  induction rows as [|r rows IH]; intros H k i Hk Hi; cbn [length] in Hk; [lia|]. cbn [concat].
  assert (Hr : length r = L) by (apply H; now left).
  destruct k as [|k].
  - rewrite app_nth1 by lia. reflexivity.
  - rewrite app_nth2 by lia. rewrite Hr. replace (S k * L + i - L)%nat with (k * L + i)%nat by lia. cbn [nth].
    apply IH; [intros; apply H; now right|lia|exact Hi].
Qed.
End Lists.

Lemma forall2_length {A B} (P : A -> B -> Prop) l1 l2 : Forall2 P l1 l2 -> length l1 = length l2.
Proof. induction 1; cbn [length]; lia. Qed.

Lemma existsb_combine (a b : list (list Z)) : length a = length b -> existsb (fun p => row_neqb (fst p) (snd p)) (combine a b) = false <-> a = b.
Proof.
  revert b. induction a as [|x a IH]; intros [|y b] H; try discriminate; cbn [combine existsb]; [tauto|].
  cbn [fst snd]. unfold row_neqb at 1. destruct (list_eq_dec Z.eq_dec x y) as [->|N]; cbn [orb].
  - rewrite IH by (cbn [length] in H; lia). split; [intros ->; reflexivity|intro E; now injection E].
  - split; [discriminate|intro E; injection E as E _; contradiction].
Qed.

(** ** The pole *)
Lemma lon_pole phi lon : lon = (180 - py_mod (180 - phi) 360)%R <->
  ((-180 < lon <= 180)%R /\ exists k : Z, lon = (phi + 360 * IZR k)%R).
Proof.
  unfold py_mod. split.
  - intros ->. destruct (floor_spec ((180 - phi) / 360)) as [H1 H2].
    assert (E : ((180 - phi) = 360 * ((180 - phi) / 360))%R) by field.
    split; [lra|]. exists (floor ((180 - phi) / 360)). ring.
  - intros [H [k ->]]. rewrite (floor_unique _ k); [ring|]. lra.
Qed.

Section Proofs.
Variables (to_int : text -> option Z) (to_float : text -> option R).

Lemma mio_header_line line h : parse_mio_header to_int to_float line = Parsed h <->
  mio_header_fields to_int to_float (split line) h /\ mio_pole h.
Proof.
  unfold parse_mio_header, mio_pole. cbv zeta. generalize (split line) as fs. intro fs. split.
  - intro E.
    apply pbind_parsed in E as (x6 & E6 & E). apply pbind_parsed in E as (x7 & E7 & E).
    apply pbind_parsed in E as (x0 & E0 & E). apply pbind_parsed in E as (x1 & E1 & E).
    apply pbind_parsed in E as (x2 & E2 & E). apply pbind_parsed in E as (x3 & E3 & E).
    apply pbind_parsed in E as (x4 & E4 & E). apply pbind_parsed in E as (x5 & E5 & E).
    apply pbind_parsed in E as (x8 & E8 & E). apply pbind_parsed in E as (x9 & E9 & E).
    injection E as <-.
    apply field_number in E0 as (g0 & F0 & E0). apply field_number in E1 as (g1 & F1 & E1).
    apply field_number in E2 as (g2 & F2 & E2). apply field_number in E3 as (g3 & F3 & E3).
    apply field_number in E4 as (g4 & F4 & E4). apply field_number in E5 as (g5 & F5 & E5).
    apply field_number in E6 as (g6 & F6 & E6). apply field_number in E7 as (g7 & F7 & E7).
    apply field_number in E8 as (g8 & F8 & E8). apply field_number in E9 as (g9 & F9 & E9).
    destruct fs as [|f0 [|f1 [|f2 [|f3 [|f4 [|f5 [|f6 [|f7 [|f8 [|f9 rest]]]]]]]]]]; try discriminate. cbn [nth_error] in *.
    cbn [mh_nmax mh_mmax mh_pmin mh_pmax mh_smin mh_smax mh_theta_ngp mh_phi_ngp mh_lat_ngp mh_lon_ngp mh_height mh_wolf_ratio].
    split.
    + exists f0, f1, f2, f3, f4, f5, f6, f7, f8, f9, rest.
      cbn [mh_nmax mh_mmax mh_pmin mh_pmax mh_smin mh_smax mh_theta_ngp mh_phi_ngp mh_lat_ngp mh_lon_ngp mh_height mh_wolf_ratio].
      split; [reflexivity|]. repeat split; congruence.
    + split; [reflexivity|]. now apply lon_pole.
  - intros [(f0 & f1 & f2 & f3 & f4 & f5 & f6 & f7 & f8 & f9 & rest & -> & H0 & H1 & H2 & H3 & H4 & H5 & H6 & H7 & H8 & H9) [P1 P2]].
    apply lon_pole in P2. unfold field. cbn [nth_error pbind]. unfold number.
    rewrite H6, H7, H0, H1, H2, H3, H4, H5, H8, H9. cbn [pbind]. rewrite <- P1, <- P2. now destruct h.
Qed.

Lemma mio_rows lines rows : pmap (parse_mio_row to_int to_float) (map strip lines) = Parsed rows <->
  rows_of to_int to_float lines (map fst rows) (map snd rows).
Proof. exact (rows_lines to_int to_float lines rows). Qed.

Lemma rows_two lines nms gh : rows_of to_int to_float lines nms gh -> (forall v, In v gh -> v <> []) ->
  exists l : list (Z * Z), nms = map (fun p => [fst p; snd p]) l.
Proof.
  induction 1 as [|row rows nm nms v gh (ns & vs & Hf & Hn & Hv & Hl) H IH]; intro Hne; [exists []; reflexivity|].
  destruct IH as [l ->]; [intros; apply Hne; now right|].
  destruct Hl as [Hl|[_ ->]].
  - pose proof (forall2_length _ _ _ Hn) as Hk. destruct nm as [|n [|m [|? ?]]]; cbn [length] in Hk; try lia.
    exists ((n, m) :: l). reflexivity.
  - exfalso. apply (Hne v); [now left|]. now inversion Hv.
Qed.

Lemma rows_of_length lines nms gh : rows_of to_int to_float lines nms gh -> length nms = length lines /\ length gh = length lines.
Proof. induction 1 as [|row rows nm nms v gh Hr H [IH1 IH2]]; cbn [length]; lia. Qed.

Lemma reshape_ok len a b total : (1 <= a)%Z -> (1 <= b)%Z -> forall r, reshape_dims len a b total = Some r <->
  (r = (a, b) /\ total = len * a * b * 2)%Z.
Proof.
  intros Ha Hb r. unfold reshape_dims. rewrite (proj2 (Z.ltb_ge a 0)), (proj2 (Z.ltb_ge b 0)) by lia.
  destruct (Z.eqb_spec total (len * a * b * 2)) as [E|E]; split.
  - intro H. injection H as <-. tauto.
  - intros [-> _]. reflexivity.
  - discriminate.
  - tauto.
Qed.

Lemma columns (l : list (Z * Z)) : first_column (map (fun p => [fst p; snd p]) l) = Parsed (map fst l).
Proof. unfold first_column. induction l as [|[n m] l IH]; [reflexivity|]. cbn [map pmap pbind]. now rewrite IH. Qed.

Lemma fold_min_max ns n : let a := fold_left Z.min ns n in let b := fold_left Z.max ns n in
  In a (n :: ns) /\ In b (n :: ns) /\ forall x, In x (n :: ns) -> (a <= x <= b)%Z.
Proof.
  cbv zeta. revert n. induction ns as [|k ns IH]; intro n; cbn [fold_left].
  - split; [now left|split; [now left|]]. intros x [<-|[]]. lia.
  - assert (Lmin : forall c d, (c <= d)%Z -> (fold_left Z.min ns c <= fold_left Z.min ns d)%Z).
    { clear. induction ns as [|k ns IH]; intros c d H; cbn [fold_left]; [exact H|]. apply IH. lia. }
    assert (Lmax : forall c d, (c <= d)%Z -> (fold_left Z.max ns c <= fold_left Z.max ns d)%Z).
    { clear. induction ns as [|k ns IH]; intros c d H; cbn [fold_left]; [exact H|]. apply IH. lia. }
    destruct (IH (Z.min n k)) as (A1 & _ & A3). destruct (IH (Z.max n k)) as (_ & B2 & B3).
    assert (Hmin : forall x, In x (n :: k :: ns) -> (fold_left Z.min ns (Z.min n k) <= x)%Z).
    { intros x [<-|[<-|I]]; [| |apply A3; now right]; pose proof (A3 (Z.min n k) (or_introl eq_refl)); lia. }
    assert (Hmax : forall x, In x (n :: k :: ns) -> (x <= fold_left Z.max ns (Z.max n k))%Z).
    { intros x [<-|[<-|I]]; [| |apply B3; now right]; pose proof (B3 (Z.max n k) (or_introl eq_refl)); lia. }
    split; [|split; [|intros x I; split; auto]].
    + destruct A1 as [A1|A1]; [|right; now right]. rewrite <- A1. destruct (Z.min_spec n k) as [[_ ->]|[_ ->]]; [now left|right; now left].
    + destruct B2 as [B2|B2]; [|right; now right]. rewrite <- B2. destruct (Z.max_spec n k) as [[_ ->]|[_ ->]]; [right; now left|now left].
Qed.

Lemma items_pairs (rows : list (list R)) L s n : (forall r, In r rows -> length r = L) -> (s + n <= length rows)%nat ->
  Forall2 pairs_of (firstn n (skipn s rows)) (map (reshaped_item (concat rows) L) (seq s n)).
Proof.
  intros H. revert s. induction n as [|n IH]; intros s Hs; [constructor|].
  assert (E : skipn s rows = nth s rows [] :: skipn (S s) rows).
  { clear - Hs. revert s Hs. induction rows as [|r rows IH]; intros s Hs; cbn [length] in Hs; [lia|].
    destruct s as [|s]; [reflexivity|]. cbn [nth skipn]. apply IH. lia. }
  rewrite E. cbn [firstn seq map]. constructor; [|apply IH; lia].
  intros j Hj. assert (Hl : length (nth s rows []) = L) by (apply H, nth_In; lia).
  unfold reshaped_item. rewrite <- Nat.add_assoc, !concat_nth by (try exact H; lia). reflexivity.
Qed.

Lemma div2_cases n : n = (Nat.div2 n + Nat.div2 n)%nat \/ n = (1 + (Nat.div2 n + Nat.div2 n))%nat.
Proof. pose proof (Nat.div2_odd n) as H. destruct (Nat.odd n); cbn [Nat.b2n] in H; lia. Qed.

Lemma mio_sound file p : parse_mio_file to_int to_float file = Parsed p ->
  (mh_smin (mp_header p) <= mh_smax (mp_header p))%Z -> (mh_pmin (mp_header p) <= mh_pmax (mp_header p))%Z ->
  mio_file to_int to_float file p \/ (length (mp_qs p) = 1%nat /\ length (mp_gh p) = 2%nat).
Proof.
  intros E Hs Hp. unfold parse_mio_file in E. destruct (strip_shc_comments file) as [|line lines] eqn:Ec; [discriminate|].
  apply pbind_parsed in E as (h & Eh & E). apply pbind_parsed in E as ([[nm qs] gh] & Eco & E).
  apply mio_header_line in Eh as [Eh Epole].
  destruct (strip_comments_spec _ _ _ Ec) as (cs & header & rows & -> & Hc & -> & Er). subst lines.
  destruct rows as [|row0 rows0] eqn:Erows; [discriminate|]. rewrite <- Erows in *.
  destruct (map strip rows) eqn:Em; [rewrite Erows in Em; discriminate|]. rewrite <- Em in *. clear Em t l.
  apply pbind_parsed in E as (degs & Ed & E). destruct degs as [|n0 ns]; [discriminate|].
  assert (Eh0 : h = mp_header p) by (injection E as <-; reflexivity).
  assert (Enm : nm = mp_nm p) by (injection E as <-; reflexivity).
  assert (Eqs : qs = mp_qs p) by (injection E as <-; reflexivity).
  assert (Egh : gh = mp_gh p) by (injection E as <-; reflexivity).
  assert (Emin : fold_left Z.min ns n0 = mp_degree_min p) by (injection E as <-; reflexivity).
  assert (Emax : fold_left Z.max ns n0 = mp_degree_max p) by (injection E as <-; reflexivity).
  clear E. subst h.
  unfold parse_mio_coefficients in Eco. apply pbind_parsed in Eco as (rs & Ers & Eco).
  apply pbind_parsed in Eco as (a & Ea & Eco). apply pbind_parsed in Eco as (b & Eb & Eco).
  pose proof (proj2 (as_array_spec _) _ Ea) as ->. pose proof (proj2 (as_array_spec _) _ Eb) as ->.
  apply (proj1 (as_array_spec _)) in Eb. cbv zeta in Eco.
  apply mio_rows in Ers. destruct (rows_of_length _ _ _ Ers) as [L1 L2].
  set (rv := map snd rs) in *. set (ri := map fst rs) in *.
  set (h := mp_header p) in *.
  set (da := (mh_smax h - mh_smin h + 1)%Z) in *. set (db := (mh_pmax h - mh_pmin h + 1)%Z) in *.
  assert (Ha : (1 <= da)%Z) by (unfold da; lia). assert (Hb : (1 <= db)%Z) by (unfold db; lia).
  destruct (reshape_dims _ _ _ _) as [[da' db']|] eqn:Ers2; [|discriminate].
  apply reshape_ok in Ers2 as [Edd Etot]; [|assumption|assumption]. injection Edd as -> ->.
  assert (Hlen : forall v, In v rv -> Z.of_nat (length v) = (da * db * 2)%Z).
  { assert (Hr0 : exists r0, In r0 rv) by (destruct rv as [|r0 ?]; [rewrite Erows in L2; discriminate|exists r0; now left]).
    destruct Hr0 as [r0 Hr0]. intros v Hv. rewrite (Eb v r0 Hv Hr0).
    rewrite (concat_length rv (length r0)) in Etot by (intros; now apply Eb).
    assert (0 < Z.of_nat (length rv))%Z by (destruct rv; [destruct Hr0|cbn [length]; lia]).
    rewrite Nat2Z.inj_mul in Etot. nia. }
  assert (HL : forall v, In v rv -> length v = Z.to_nat (da * db * 2)) by (intros v Hv; apply Hlen in Hv; lia).
  destruct (rows_two _ _ _ Ers) as [l El].
  { intros v Hv ->. apply Hlen in Hv. cbn [length] in Hv. nia. }
  apply pbind_parsed in Eco as (mis & Emis & Eco). destruct mis; [discriminate|].
  set (size := Nat.div2 (length ri)) in *.
  assert (Eqs' : map (reshaped_item (concat rv) (Z.to_nat (da * db * 2))) (seq 0 size) = qs) by congruence.
  assert (Egh' : map (reshaped_item (concat rv) (Z.to_nat (da * db * 2))) (seq size (length rv - size)) = gh) by congruence.
  assert (Enm' : firstn size ri = nm) by congruence. clear Eco.
  destruct (div2_cases (length ri)) as [Ev|Ov]; fold size in Ev || fold size in Ov.
  - left. assert (Hsk : firstn size ri = skipn size ri).
    { unfold nm_mismatch in Emis. rewrite firstn_length, skipn_length, Nat.min_l in Emis by lia.
      rewrite (proj2 (Nat.eqb_eq _ _)) in Emis by lia. assert (Ex := f_equal (fun p => match p with Parsed x => x | Failed _ => true end) Emis).
      cbn beta iota in Ex. apply existsb_combine in Ex; [exact Ex|]. rewrite firstn_length, skipn_length. lia. }
    assert (Elist : firstn size ri = map (fun p => [fst p; snd p]) (firstn size l)) by (rewrite El; apply firstn_map).
    exists (firstn size l), (firstn size rv), (skipn size rv). unfold mio_contents. cbv zeta. rewrite <- Elist.
    assert (Hll : length l = length ri) by (rewrite El; now rewrite map_length).
    assert (Hsz : length (firstn size l) = size) by (rewrite firstn_length; lia).
    assert (Hdeg : map fst (firstn size l) = n0 :: ns).
    { rewrite <- Enm', Elist, columns in Ed. congruence. }
    fold h. fold da. fold db. split; [split; [|split; [|split; [|split; [|split; [|split]]]]]|split; [|split; [|split]]].
    + exists cs, header, (before_hash header), (split (before_hash header)), rows.
      split; [reflexivity|]. split; [exact Hc|]. split; [now apply before_hash_spec|]. split; [now apply split_spec|].
      split; [now rewrite split_strip in Eh|]. rewrite Hsk at 2. now rewrite !firstn_skipn.
    + exact Epole.
    + intro E0. rewrite E0 in Hdeg. discriminate.
    + rewrite Hsz, firstn_length. lia.
    + rewrite Hsz, skipn_length. lia.
    + split; assumption.
    + rewrite firstn_skipn. exact Hlen.
    + congruence.
    + rewrite <- Eqs, <- Eqs'. change (firstn size rv) with (firstn size (skipn 0 rv)). apply items_pairs; [exact HL|lia].
    + rewrite <- Egh, <- Egh'. rewrite <- (firstn_all (skipn size rv)), skipn_length. apply items_pairs; [exact HL|lia].
    + rewrite Hdeg, <- Emin, <- Emax. apply fold_min_max.
  - right. assert (Hne : nm <> []) by (intros ->; discriminate Ed).
    assert (size = 1%nat).
    { unfold nm_mismatch in Emis. rewrite firstn_length, skipn_length, Nat.min_l in Emis by lia.
      rewrite (proj2 (Nat.eqb_neq _ _)) in Emis by lia. rewrite Enm' in Emis.
      destruct nm as [|x [|y nm]]; [congruence| |discriminate].
      assert (Hf := f_equal (@length _) Enm'). rewrite firstn_length in Hf. cbn [length] in Hf. lia. }
    rewrite <- Eqs, <- Egh, <- Eqs', <- Egh', !map_length, !seq_length. lia.
Qed.

Lemma mio_complete file h nm qs gh : mio_contents to_int to_float file h nm qs gh -> exists p,
  parse_mio_file to_int to_float file = Parsed p /\ mp_header p = h /\ mp_nm p = map (fun p => [fst p; snd p]) nm /\
  Forall2 pairs_of qs (mp_qs p) /\ Forall2 pairs_of gh (mp_gh p) /\
  In (mp_degree_min p) (map fst nm) /\ In (mp_degree_max p) (map fst nm) /\
  (forall n, In n (map fst nm) -> mp_degree_min p <= n <= mp_degree_max p)%Z.
Proof.
  intros [(cs & header & hd & fs & rows & -> & Hc & Hw & Hf & Hh & Hr) (Hpole & Hne & Lq & Lg & [Hs Hp] & Hlen)].
  apply before_hash_spec in Hw. subst hd. apply split_spec in Hf. subst fs.
  assert (Es : strip_shc_comments (cs ++ header :: rows) = strip (before_hash header) :: map strip rows).
  { rewrite strip_comments_app by exact Hc. cbn [strip_shc_comments]. destruct (strip (before_hash header)) as [|c s] eqn:E; [|reflexivity].
    exfalso. apply strip_nil in E. assert (Hs0 : split (before_hash header) = []) by (apply split_spec; now constructor).
    rewrite Hs0 in Hh. destruct Hh as (a & b & c & d0 & e & f & g & i & j & k & rest & K & _). discriminate. }
  rewrite <- split_strip in Hh.
  assert (Eh : parse_mio_header to_int to_float (strip (before_hash header)) = Parsed h) by (apply mio_header_line; tauto).
  set (ri := map (fun p : Z * Z => [fst p; snd p]) nm) in *.
  set (da := (mh_smax h - mh_smin h + 1)%Z) in *. set (db := (mh_pmax h - mh_pmin h + 1)%Z) in *.
  assert (Ha : (1 <= da)%Z) by (unfold da; lia). assert (Hb : (1 <= db)%Z) by (unfold db; lia).
  assert (Lr : length ri = length nm) by (unfold ri; apply map_length).
  set (L := Z.to_nat (da * db * 2)).
  assert (HL : forall v, In v (qs ++ gh) -> length v = L) by (intros v Hv; apply Hlen in Hv; unfold L; lia).
  destruct (rows_of_length _ _ _ Hr) as [L1 L2]. rewrite app_length in L1, L2.
  destruct (rows_lengths _ _ _ _ _ Hr) as (rs & En & Eg).
  assert (R1 : rectangular (ri ++ ri)).
  { assert (K : forall r, In r (ri ++ ri) -> length r = 2%nat).
    { intros r Ir. assert (Ir' : In r ri) by (apply in_app_iff in Ir; tauto). unfold ri in Ir'. apply in_map_iff in Ir' as (q & <- & _). reflexivity. }
    intros r r' H1 H2. now rewrite (K _ H1), (K _ H2). }
  assert (R2 : rectangular (qs ++ gh)) by (intros r r' H1 H2; now rewrite (HL _ H1), (HL _ H2)).
  apply as_array_spec in R1, R2.
  assert (Hsize : Nat.div2 (length (ri ++ ri)) = length nm).
  { rewrite app_length, Lr. replace (length nm + length nm)%nat with (2 * length nm)%nat by lia. apply Nat.div2_double. }
  assert (Eco : parse_mio_coefficients to_int to_float (map strip rows) h =
    Parsed (ri, map (reshaped_item (concat (qs ++ gh)) L) (seq 0 (length nm)), map (reshaped_item (concat (qs ++ gh)) L) (seq (length nm) (length nm)))).
  { unfold parse_mio_coefficients. rewrite En, Eg in Hr. apply mio_rows in Hr. rewrite Hr. cbn [pbind]. rewrite <- En, <- Eg.
    rewrite R1. cbn [pbind]. rewrite R2. cbn [pbind]. cbv zeta. fold da. fold db.
    rewrite (proj2 (reshape_ok _ da db _ Ha Hb (da, db))).
    2: { split; [reflexivity|]. rewrite (concat_length _ L HL). unfold L. rewrite Nat2Z.inj_mul, Z2Nat.id by nia. ring. }
    fold L. rewrite Hsize.
    assert (F1 : firstn (length nm) (ri ++ ri) = ri) by (rewrite <- Lr, firstn_app, Nat.sub_diag, firstn_all; apply app_nil_r).
    assert (F2 : skipn (length nm) (ri ++ ri) = ri) by (rewrite <- Lr, skipn_app, Nat.sub_diag, skipn_all; reflexivity).
    rewrite F1, F2. unfold nm_mismatch. rewrite Nat.eqb_refl. rewrite (proj2 (existsb_combine ri ri eq_refl) eq_refl). cbn [pbind].
    rewrite app_length, Lq, Lg. replace (length nm + length nm - length nm)%nat with (length nm) by lia. reflexivity. }
  destruct (map fst nm) as [|n0 ns] eqn:Ed; [destruct nm; [congruence|discriminate]|].
  eexists. split.
  { unfold parse_mio_file. rewrite Es, Eh. cbn [pbind]. rewrite Eco. cbn [pbind].
    destruct (map strip rows) as [|t ts] eqn:Em; [exfalso|].
    - destruct nm; [congruence|]. destruct rows; [|discriminate]. cbn [length] in *. lia.
    - unfold ri. rewrite columns, Ed. cbn [pbind]. reflexivity. }
  cbn [mp_header mp_nm mp_qs mp_gh mp_degree_min mp_degree_max].
  split; [reflexivity|]. split; [reflexivity|].
  split; [|split; [|apply fold_min_max]].
  - replace qs with (firstn (length nm) (skipn 0 (qs ++ gh))) at 1.
    + apply items_pairs; [exact HL|rewrite app_length; lia].
    + cbn [skipn]. rewrite <- Lq, firstn_app, Nat.sub_diag, firstn_all. apply app_nil_r.
  - replace gh with (firstn (length nm) (skipn (length nm) (qs ++ gh))) at 1.
    + apply items_pairs; [exact HL|rewrite app_length; lia].
    + rewrite <- Lq at 2. rewrite skipn_app, Nat.sub_diag, skipn_all. cbn [skipn app]. rewrite <- Lg. apply firstn_all.
Qed.
End Proofs.
