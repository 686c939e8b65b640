(** Proofs about the SHC parser. *)

From Coq Require Import Bool List Ascii NArith ZArith Lia Arith.
From Verif Require Import Ord TextModel TextSpec TextProofs ShcModel ShcSpec.
Import ListNotations.

(** ** comments and blank lines *)
Lemma strip_comments_app comments file : Forall comment_line comments -> strip_shc_comments (comments ++ file) = strip_shc_comments file.
Proof.
  induction 1 as [|l ls H _ IH]; [reflexivity|]. cbn [app strip_shc_comments]. apply comment_spec in H. now rewrite H.
Qed.
Lemma strip_comments_spec file first rest : strip_shc_comments file = first :: rest ->
  exists comments header rows, file = comments ++ header :: rows /\ Forall comment_line comments /\
    first = strip (before_hash header) /\ rest = map strip rows.
Proof.
  induction file as [|l file IH]; [discriminate|]. cbn [strip_shc_comments].
  destruct (strip (before_hash l)) as [|c s] eqn:E.
  - intro H. destruct (IH H) as (cs & h & rows & -> & Hc & H1 & H2). exists (l :: cs), h, rows.
    split; [reflexivity|split; [constructor; [now apply comment_spec|exact Hc]|split; assumption]].
  - intro H. injection H as <- <-. exists [], l, file. split; [reflexivity|split; [constructor|split; [now rewrite E|reflexivity]]].
Qed.

Section Shc.
Context {F : Type} {OF : TOrd F}.
Variables (to_int : text -> option Z) (to_float : text -> option F).

Lemma number_parsed {A} (conv : text -> option A) v x : number conv v = Parsed x <-> conv v = Some x.
Proof using. unfold number. destruct (conv v); split; congruence. Qed.
Lemma field_number {A} (conv : text -> option A) fs k x : pbind (field fs k) (number conv) = Parsed x <->
  exists f, nth_error fs k = Some f /\ conv f = Some x.
Proof using.
  unfold field. destruct (nth_error fs k) as [f|]; cbn [pbind]; [rewrite number_parsed|].
  - split; [eauto|]. intros (f' & E & H). congruence.
  - split; [discriminate|]. intros (f' & E & H). discriminate.
Qed.
Lemma pbind_parsed {A B} (p : parsed A) (f : A -> parsed B) b : pbind p f = Parsed b <-> exists a, p = Parsed a /\ f a = Parsed b.
Proof using. destruct p; cbn [pbind]; split; [eauto|intros (a' & E & H); congruence|discriminate|intros (a' & E & H); discriminate]. Qed.

Lemma header_line line h : parse_shc_header_line to_int to_float line = Parsed h <-> header_fields to_int to_float (split line) h.
Proof.
  unfold parse_shc_header_line. cbv zeta. generalize (split line) as fs. intro fs. split.
  - intro E. apply pbind_parsed in E as (a & Ea & E). apply pbind_parsed in E as (b & Eb & E). apply pbind_parsed in E as (c & Ec & E).
    apply pbind_parsed in E as (d & Ed & E). apply pbind_parsed in E as (e & Ee & E). apply pbind_parsed in E as (v & Ev & E).
    injection E as <-. apply field_number in Ea as (fa & Ha & Ea). apply field_number in Eb as (fb & Hb & Eb).
    apply field_number in Ec as (fc & Hc & Ec). apply field_number in Ed as (fd & Hd & Ed). apply field_number in Ee as (fe & He & Ee).
    destruct fs as [|f0 [|f1 [|f2 [|f3 [|f4 rest]]]]]; try discriminate. cbn [nth_error] in *.
    injection Ha as ->. injection Hb as ->. injection Hc as ->. injection Hd as ->. injection He as ->.
    exists fa, fb, fc, fd, fe, rest. cbn [h_degree_min h_degree_max h_ntime h_spline_order h_nstep h_validity].
    repeat (split; [first [reflexivity|assumption]|]).
    destruct rest as [|s rest]; cbn [length Nat.ltb Nat.leb] in Ev; [left; injection Ev as <-; split; reflexivity|right].
    apply pbind_parsed in Ev as (x & Ex & Ev). apply pbind_parsed in Ev as (y & Ey & Ev). injection Ev as <-.
    apply field_number in Ex as (fx & Hx & Ex). apply field_number in Ey as (fy & Hy & Ey).
    destruct rest as [|u more]; [discriminate|]. cbn [nth_error] in *. injection Hx as ->. injection Hy as ->.
    exists fx, fy, more, x, y. repeat split; assumption.
  - intros (a & b & c & d & e & rest & -> & Ha & Hb & Hc & Hd & He & Hv).
    unfold field at 1 2 3 4 5. cbn [nth_error pbind]. unfold number at 1 2 3 4 5. rewrite Ha, Hb, Hc, Hd, He. cbn [pbind].
    destruct Hv as [[-> Hv]|(s & u & more & x & y & -> & Hx & Hy & Hv)]; cbn [length Nat.ltb Nat.leb].
    + cbn [pbind]. rewrite <- Hv. now destruct h.
    + unfold field. cbn [nth_error pbind]. unfold number. rewrite Hx, Hy. cbn [pbind]. rewrite <- Hv. now destruct h.
Qed.

Lemma times_line line ts : parse_shc_times to_float line = Parsed ts <-> numbers to_float (split line) ts.
Proof using. unfold parse_shc_times. symmetry. apply numbers_pmap. Qed.

Lemma fold_least (f : F -> F -> F) (Rl : F -> F -> Prop) (P : forall a b, f a b = a \/ f a b = b) (Q1 : forall a b, Rl (f a b) a) (Q2 : forall a b, Rl (f a b) b)
  (Tr : forall a b c, Rl a b -> Rl b c -> Rl a c) (Rf : forall a, Rl a a) l : forall a, In (fold_left f l a) (a :: l) /\ forall y, In y (a :: l) -> Rl (fold_left f l a) y.
Proof using.
  induction l as [|b l IH]; intro a; cbn [fold_left].
  - split; [now left|]. intros y [<-|[]]. apply Rf.
  - destruct (IH (f a b)) as [I L]. split.
    + destruct I as [I|I]; [|right; now right]. destruct (P a b) as [E|E]; rewrite E in *; [left; congruence|right; left; congruence].
    + intros y [<-|[<-|Hy]]; [apply (Tr _ (f a b)); [apply L; now left|apply Q1]|apply (Tr _ (f a b)); [apply L; now left|apply Q2]|apply L; now right].
Qed.
Lemma minimum_spec ts x : minimum ts = Some x -> (2 <= length ts)%nat /\ least x ts.
Proof.
  destruct ts as [|t [|u ts]]; try discriminate. cbn [minimum]. intro E. injection E as <-. split; [cbn; lia|].
  apply (fold_least tmin le) with (l := u :: ts) (a := t); [intros a b; unfold tmin; destruct (ltb b a); tauto|apply tmin_le_l|apply tmin_le_r|apply le_trans|apply le_refl].
Qed.
Lemma maximum_spec ts x : maximum ts = Some x -> (2 <= length ts)%nat /\ greatest x ts.
Proof.
  destruct ts as [|t [|u ts]]; try discriminate. cbn [maximum]. intro E. injection E as <-. split; [cbn; lia|].
  apply (fold_least tmax (fun a b => le b a)) with (l := u :: ts) (a := t); [intros a b; unfold tmax; destruct (ltb a b); tauto|apply tmax_ge_l|apply tmax_ge_r| |apply le_refl].
  intros a b c H1 H2. exact (le_trans _ _ _ H2 H1).
Qed.
Lemma extreme_none (ts : list F) : (minimum ts = None <-> (length ts <= 1)%nat) /\ (maximum ts = None <-> (length ts <= 1)%nat).
Proof. destruct ts as [|t [|u ts]]; cbn [minimum maximum length]; split; split; try reflexivity; try lia; discriminate. Qed.

Lemma row_line line nm v : parse_shc_row to_int to_float line = Parsed (nm, v) <-> row_of to_int to_float line nm v.
Proof using.
  unfold parse_shc_row. cbv zeta. split.
  - intro E. apply pbind_parsed in E as (a & Ea & E). apply pbind_parsed in E as (b & Eb & E). injection E as <- <-.
    apply numbers_pmap in Ea, Eb. exists (firstn 2 (split line)), (skipn 2 (split line)).
    rewrite firstn_skipn. split; [now apply split_spec|split; [exact Ea|split; [exact Eb|]]].
    destruct (split line) as [|x [|y l]]; cbn; [right; split; [lia|reflexivity]..|now left].
  - intros (ns & vs & Hf & Hn & Hv & Hl). apply split_spec in Hf. rewrite Hf.
    assert (E : firstn 2 (ns ++ vs) = ns /\ skipn 2 (ns ++ vs) = vs).
    { destruct Hl as [Hl|[Hl ->]].
      - destruct ns as [|x [|y [|z ns]]]; try discriminate. split; reflexivity.
      - rewrite app_nil_r. destruct ns as [|x [|y ns]]; [split; reflexivity..|cbn in Hl; lia]. }
    destruct E as [-> ->]. apply numbers_pmap in Hn, Hv. rewrite Hn. cbn [pbind]. now rewrite Hv.
Qed.
Lemma row_strip line nm v : row_of to_int to_float (strip line) nm v <-> row_of to_int to_float line nm v.
Proof using. rewrite <- !row_line. unfold parse_shc_row. now rewrite split_strip. Qed.

Lemma rows_lines lines rows : pmap (parse_shc_row to_int to_float) (map strip lines) = Parsed rows <->
  rows_of to_int to_float lines (map fst rows) (map snd rows).
Proof using.
  split.
  - revert rows. induction lines as [|l lines IH]; intros rows E; cbn [map pmap] in E; [injection E as <-; constructor|].
    apply pbind_parsed in E as ([nm v] & Ea & E). apply pbind_parsed in E as (r & Er & E). injection E as <-.
    cbn [map fst snd]. constructor; [|now apply IH]. now apply row_strip, row_line.
  - revert rows. induction lines as [|l lines IH]; intros rows H; inversion H as [E1 E2 E3|? ? ? ? ? ? Hr Hs E1 E2 E3]; subst.
    + destruct rows; [reflexivity|discriminate].
    + destruct rows as [|[nm0 v0] rows]; [discriminate|]. cbn [map fst snd] in E2, E3. injection E2 as -> ->. injection E3 as -> ->.
      cbn [map pmap]. apply row_strip, row_line in Hr. rewrite Hr. cbn [pbind]. now rewrite (IH rows Hs).
Qed.
Lemma rows_lengths lines nms gh : rows_of to_int to_float lines nms gh -> exists rows, nms = map fst rows /\ gh = map snd rows.
Proof using.
  induction 1 as [|row rows nm nms v gh Hr Hs (rs & -> & ->)]; [exists []; split; reflexivity|].
  exists ((nm, v) :: rs). split; reflexivity.
Qed.

(** What is parsed is in the file, ... *)
Lemma parse_sound file d : parse_shc_file to_int to_float file = Parsed d -> shc_file to_int to_float file d.
Proof.
  intro E. unfold parse_shc_file in E. apply pbind_parsed in E as ([[[[h ts] vs] ve] lines] & Eh & E).
  apply pbind_parsed in E as ([nm gh] & Ec & E). injection E as <-.
  unfold parse_shc_header in Eh. destruct (strip_shc_comments file) as [|first rest] eqn:Es; [discriminate|].
  apply pbind_parsed in Eh as (h0 & Ehl & Eh). destruct rest as [|tl rest]; [discriminate|].
  apply pbind_parsed in Eh as (ts0 & Et & Eh). injection Eh as <- <- <- <- <-.
  destruct (strip_comments_spec _ _ _ Es) as (cs & header & rows & Ef & Hc & -> & Er).
  destruct rows as [|times rows]; [discriminate|]. cbn [map] in Er. injection Er as -> ->.
  exists cs, header, (before_hash header), times, rows. split; [exact Ef|split; [exact Hc|split; [now apply before_hash_spec|]]].
  cbn [shc_head shc_t shc_nm shc_gh]. rewrite header_line, split_strip in Ehl. rewrite times_line, split_strip in Et.
  split; [|split; [|split; [|]]].
  - exists (split (before_hash header)). split; [now apply split_spec|exact Ehl].
  - exists (split times). split; [now apply split_spec|exact Et].
  - unfold validity_of. cbn [shc_head shc_t shc_validity_start shc_validity_end]. destruct (h_validity h0) as [[x y]|]; [split; reflexivity|].
    destruct (extreme_none ts0) as [N1 N2].
    destruct (minimum ts0) as [x|] eqn:E1; destruct (maximum ts0) as [y|] eqn:E2.
    + right. destruct (minimum_spec _ _ E1) as [L Hx]. destruct (maximum_spec _ _ E2) as [_ Hy]. split; [exact L|]. exists x, y. tauto.
    + exfalso. assert (length ts0 <= 1)%nat by now apply N2. destruct (minimum_spec _ _ E1). lia.
    + exfalso. assert (length ts0 <= 1)%nat by now apply N1. destruct (maximum_spec _ _ E2). lia.
    + left. split; [now apply N1|split; reflexivity].
  - unfold parse_shc_coefficients in Ec. apply pbind_parsed in Ec as (rs & Ers & Ec). apply pbind_parsed in Ec as (a & Ea & Ec).
    apply pbind_parsed in Ec as (b & Eb & Ec). injection Ec as <- <-.
    pose proof (proj2 (as_array_spec _) _ Ea) as ->. pose proof (proj2 (as_array_spec _) _ Eb) as ->.
    split; [now apply rows_lines|]. split; [apply (proj2 (proj1 (as_array_spec _)) Ea)|apply (proj2 (proj1 (as_array_spec _)) Eb)].
Qed.

(** ... and a file is parsed. *)
Lemma parse_complete file d : shc_file to_int to_float file d -> exists d',
  parse_shc_file to_int to_float file = Parsed d' /\
  shc_head d' = shc_head d /\ shc_t d' = shc_t d /\ shc_nm d' = shc_nm d /\ shc_gh d' = shc_gh d.
Proof.
  intros (cs & header & hd & times & rows & -> & Hc & Hw & (fh & Hfh & Hh) & (ft & Hft & Ht) & _ & Hr & R1 & R2).
  apply before_hash_spec in Hw. subst hd. apply split_spec in Hfh, Hft. subst fh ft.
  assert (Es : strip_shc_comments (cs ++ header :: times :: rows) = strip (before_hash header) :: strip times :: map strip rows).
  { rewrite strip_comments_app by exact Hc. cbn [strip_shc_comments]. destruct (strip (before_hash header)) as [|c s] eqn:E; [|reflexivity].
    exfalso. apply strip_nil in E. assert (Hs : split (before_hash header) = []) by (apply split_spec; now constructor).
    rewrite Hs in Hh. destruct Hh as (a & b & c & d0 & e & rest & K & _). discriminate. }
  rewrite <- split_strip in Hh, Ht. apply header_line in Hh. apply times_line in Ht.
  destruct (rows_lengths _ _ _ Hr) as (rs & En & Eg).
  eexists. unfold parse_shc_file. rewrite Es. cbn [parse_shc_header]. rewrite Hh. cbn [pbind]. rewrite Ht. cbn [pbind].
  unfold parse_shc_coefficients. rewrite En, Eg in Hr. apply rows_lines in Hr. rewrite Hr. cbn [pbind].
  rewrite <- En, <- Eg. apply as_array_spec in R1, R2. rewrite R1. cbn [pbind]. rewrite R2. cbn [pbind].
  split; [reflexivity|]. repeat split; reflexivity.
Qed.

(** Leading comments do not matter. *)
Lemma leading_comments comments file : Forall comment_line comments ->
  parse_shc_file to_int to_float (comments ++ file) = parse_shc_file to_int to_float file.
Proof using. intro H. unfold parse_shc_file. now rewrite strip_comments_app. Qed.

(** Blank lines behind the times do. *)
Lemma pmap_app {A B} (f : A -> parsed B) l1 l2 : pmap f (l1 ++ l2) = pbind (pmap f l1) (fun r1 => pbind (pmap f l2) (fun r2 => Parsed (r1 ++ r2))).
Proof using.
  induction l1 as [|a l1 IH]; cbn [app pmap pbind]; [now destruct (pmap f l2)|].
  destruct (f a); cbn [pbind]; [|reflexivity]. rewrite IH. destruct (pmap f l1); cbn [pbind]; [|reflexivity].
  destruct (pmap f l2); reflexivity.
Qed.

Lemma blank_refused comments header times rows1 rows2 blank d : Forall comment_line comments -> ~ comment_line header ->
  shc_file to_int to_float (comments ++ header :: times :: rows1 ++ rows2) d ->
  (exists n m, In [n; m] (shc_nm d)) -> Forall white blank ->
  parse_shc_file to_int to_float (comments ++ header :: times :: rows1 ++ blank :: rows2) = Failed E_Value.
Proof.
  intros Hc Hh H (n & m & Hnm) Hb. destruct (parse_complete _ _ H) as (d' & E & _ & _ & En & _). clear H.
  rewrite leading_comments in * by exact Hc. rewrite <- En in Hnm. clear En d.
  unfold parse_shc_file in *. cbn [strip_shc_comments] in *.
  destruct (strip (before_hash header)) as [|c s] eqn:Ec; [exfalso; apply Hh; now apply comment_spec|].
  cbn [map parse_shc_header] in *. apply pbind_parsed in E as ([[[[h ts] vs] ve] lines] & Eh & E).
  apply pbind_parsed in Eh as (h0 & Ehl & Eh). rewrite Ehl. cbn [pbind]. apply pbind_parsed in Eh as (ts0 & Et & Eh). rewrite Et. cbn [pbind].
  injection Eh as <- <- <- <- <-. apply pbind_parsed in E as ([nm gh] & Ep & E). injection E as <-. cbn [shc_nm] in Hnm.
  unfold parse_shc_coefficients in *. apply pbind_parsed in Ep as (rs & Ers & Ep). apply pbind_parsed in Ep as (a & Ea & Ep).
  apply pbind_parsed in Ep as (b & Eb & Ep). injection Ep as <- <-. rewrite (proj2 (as_array_spec _) _ Ea) in Hnm.
  rewrite map_app, pmap_app in Ers |- *. apply pbind_parsed in Ers as (r1 & E1 & Ers). apply pbind_parsed in Ers as (r2 & E2 & Ers).
  injection Ers as <-. rewrite E1. cbn [pbind map pmap].
  assert (Hs : parse_shc_row to_int to_float (strip blank) = Parsed ([], [])).
  { apply row_line, row_strip. exists [], []. split; [now constructor|]. split; [constructor|split; [constructor|right; split; [cbn; lia|reflexivity]]]. }
  rewrite Hs. cbn [pbind]. rewrite E2. cbn [pbind].
  match goal with |- context [as_array (map fst ?x)] => destruct (as_array (map fst x)) as [y|e] eqn:Ey end.
  - exfalso. pose proof (proj2 (as_array_spec _) _ Ey) as ->. apply (proj2 (proj1 (as_array_spec _))) in Ey.
    specialize (Ey [] [n; m]). rewrite !map_app in Ey. rewrite map_app in Hnm. cbn [map fst] in Ey.
    enough (@length Z [] = length [n; m]) by discriminate. apply Ey; apply in_or_app; [right; now left|].
    apply in_app_or in Hnm as [I|I]; [now left|right; now right].
  - cbn [pbind]. f_equal. revert Ey. generalize (map fst (r1 ++ ([], []) :: r2)). intros [|q l]; cbn [as_array]; [discriminate|].
    destruct (forallb _ _); congruence.
Qed.
End Shc.
