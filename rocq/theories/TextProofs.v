(** Proofs about the text operations. *)

From Coq Require Import Bool List Ascii NArith ZArith Lia.
From Verif Require Import TextModel TextSpec.
Import ListNotations.

Lemma is_space_white c : is_space c = true <-> white c.
Proof.
  unfold is_space, white. cbv zeta. rewrite orb_true_iff, !andb_true_iff, !N.leb_le. tauto.
Qed.
Lemma is_space_false c : is_space c = false <-> ~ white c.
Proof. rewrite <- is_space_white. destruct (is_space c); split; congruence. Qed.

(** ** split *)
Lemma split_blank sp : forall s, Forall white sp -> split_from [] (sp ++ s) = split_from [] s.
Proof.
  induction sp as [|c sp IH]; intros s H; [reflexivity|]. inversion H as [|? ? Hc Hs]; subst.
  cbn [app split_from]. rewrite (proj2 (is_space_white c) Hc). now apply IH.
Qed.
Lemma split_word f : forall cur s, Forall (fun c => ~ white c) f -> split_from cur (f ++ s) = split_from (cur ++ f) s.
Proof.
  induction f as [|c f IH]; intros cur s H; [now rewrite app_nil_r|]. inversion H as [|? ? Hc Hs]; subst.
  cbn [app split_from]. rewrite (proj2 (is_space_false c) Hc), IH by assumption. now rewrite <- app_assoc.
Qed.
Lemma split_end sp : forall cur, Forall white sp -> split_from cur sp = match cur with [] => [] | _ :: _ => [cur] end.
Proof.
  induction sp as [|c sp IH]; intros cur H; [reflexivity|]. inversion H as [|? ? Hc Hs]; subst.
  cbn [split_from]. rewrite (proj2 (is_space_white c) Hc). destruct cur; rewrite IH by assumption; reflexivity.
Qed.
Lemma split_trailing s sp : forall cur, Forall white sp -> split_from cur (s ++ sp) = split_from cur s.
Proof.
  induction s as [|c s IH]; intros cur H; [cbn [app]; now rewrite split_end|]. cbn [app split_from].
  destruct (is_space c); [destruct cur|]; now rewrite IH.
Qed.

Lemma fields_blank c s fs : white c -> has_fields s fs -> has_fields (c :: s) fs.
Proof.
  intros Hc H. inversion H; subst; [constructor; now constructor|].
  change (c :: blank ++ f ++ rest) with ((c :: blank) ++ f ++ rest). constructor; try assumption. now constructor.
Qed.

Lemma split_fields_gen s : forall cur, Forall (fun c => ~ white c) cur -> has_fields (cur ++ s) (split_from cur s).
Proof.
  induction s as [|c s IH]; intros cur H; cbn [split_from].
  - rewrite app_nil_r. destruct cur as [|c cur]; [constructor; constructor|].
    pose proof (next_field [] (c :: cur) [] [] (Forall_nil _) ltac:(discriminate) H (or_introl eq_refl) (no_field [] (Forall_nil _))) as K.
    rewrite app_nil_r in K. exact K.
  - destruct (is_space c) eqn:E.
    + apply is_space_white in E. destruct cur as [|c0 cur].
      * apply fields_blank; [exact E|]. apply (IH []). constructor.
      * apply (next_field [] (c0 :: cur) (c :: s)); [constructor|discriminate|exact H|right; eauto|].
        apply fields_blank; [exact E|]. apply (IH []). constructor.
    + apply is_space_false in E. change (c :: s) with ([c] ++ s). rewrite app_assoc. apply IH. apply Forall_app. split; [exact H|now constructor].
Qed.

Lemma split_spec s fs : has_fields s fs <-> split s = fs.
Proof.
  split.
  - induction 1 as [b H|b f rest fs Hb Hf Hw Hr H IH]; unfold split in *; [now apply (split_end b [])|].
    rewrite split_blank, split_word by assumption. cbn [app]. destruct Hr as [->|(c & r & -> & Hc)].
    + cbn [split_from] in *. destruct f as [|a f]; [now contradiction Hf|]. now rewrite <- IH.
    + cbn [split_from] in *. rewrite (proj2 (is_space_white c) Hc) in *. destruct f as [|a f]; [now contradiction Hf|]. now rewrite <- IH.
  - intros <-. apply (split_fields_gen s []). constructor.
Qed.

(** ** strip *)
Lemma lstrip_blank s : exists sp, s = sp ++ lstrip s /\ Forall white sp.
Proof.
  induction s as [|c s [sp [E H]]]; [exists []; split; [reflexivity|constructor]|]. cbn [lstrip]. destruct (is_space c) eqn:Ec.
  - exists (c :: sp). split; [cbn [app]; congruence|]. constructor; [now apply is_space_white|exact H].
  - exists []. split; [reflexivity|constructor].
Qed.
Lemma strip_blank s : exists a b, s = a ++ strip s ++ b /\ Forall white a /\ Forall white b.
Proof.
  destruct (lstrip_blank s) as (a & E & Ha). destruct (lstrip_blank (rev (lstrip s))) as (b & E' & Hb).
  exists a, (rev b). split; [|split; [exact Ha|now apply Forall_rev]].
  rewrite E at 1. f_equal. unfold strip. rewrite <- rev_app_distr, <- E', rev_involutive. reflexivity.
Qed.
Lemma split_strip s : split (strip s) = split s.
Proof.
  destruct (strip_blank s) as (a & b & E & Ha & Hb). unfold split. rewrite E at 2. rewrite split_blank by exact Ha.
  now rewrite split_trailing.
Qed.
Lemma lstrip_white s : Forall white s -> lstrip s = [].
Proof. induction 1 as [|c s Hc H IH]; [reflexivity|]. cbn [lstrip]. now rewrite (proj2 (is_space_white c) Hc). Qed.
Lemma strip_nil s : strip s = [] <-> Forall white s.
Proof.
  split.
  - intro E. destruct (strip_blank s) as (a & b & E' & Ha & Hb). rewrite E', E. apply Forall_app. now split.
  - intro H. unfold strip. rewrite (lstrip_white s H). reflexivity.
Qed.

(** ** comments *)
Lemma before_hash_spec l h : without_comment l h <-> before_hash l = h.
Proof.
  split.
  - intros (rest & -> & Hn & Hr). induction h as [|c h IH]; cbn [app before_hash].
    + destruct Hr as [->|[r ->]]; [reflexivity|]. cbn [before_hash]. now rewrite Ascii.eqb_refl.
    + destruct (Ascii.eqb_spec c HASH) as [->|_]; [contradiction Hn; now left|]. f_equal. apply IH. intro. apply Hn. now right.
  - intros <-. induction l as [|c l IH]; cbn [before_hash].
    + exists []. split; [reflexivity|split; [intros []|now left]].
    + destruct (Ascii.eqb_spec c HASH) as [->|N].
      * exists (HASH :: l). split; [reflexivity|split; [intros []|right; eauto]].
      * destruct IH as (rest & E & Hn & Hr). exists rest. split; [cbn [app]; congruence|split; [|exact Hr]].
        intros [ -> |H]; [now apply N|now apply Hn].
Qed.
Lemma comment_spec l : comment_line l <-> strip (before_hash l) = [].
Proof.
  rewrite strip_nil. split.
  - intros (b & rest & E & Hb & Hr). assert (W : without_comment l b).
    { exists rest. split; [exact E|split; [|exact Hr]]. intro I. rewrite Forall_forall in Hb. specialize (Hb _ I). revert Hb. unfold white. cbn. lia. }
    apply before_hash_spec in W. now rewrite W.
  - intro H. destruct (proj2 (before_hash_spec l _) eq_refl) as (rest & E & _ & Hr). exists (before_hash l), rest. tauto.
Qed.

(** ** lines *)
Lemma lines_word f : forall cur s, single_line f -> lines_from cur (f ++ s) = lines_from (cur ++ f) s.
Proof.
  induction f as [|c f IH]; intros cur s [H1 H2]; [now rewrite app_nil_r|]. cbn [app lines_from].
  destruct (Ascii.eqb_spec c LF) as [->|_]; [contradiction H1; now left|].
  destruct (Ascii.eqb_spec c CR) as [->|_]; [contradiction H2; now left|].
  rewrite IH; [now rewrite <- app_assoc|]. split; intro; [apply H1|apply H2]; now right.
Qed.


Lemma lines_terminated eol lines last : terminator eol -> Forall single_line lines -> single_line last ->
  file_lines (terminated eol lines ++ last) = map (fun l => l ++ [LF]) lines ++ match last with [] => [] | _ :: _ => [last] end.
Proof.
  intros He H Hl. unfold file_lines. induction H as [|l lines Hs H IH].
  - cbn [terminated concat map app]. rewrite <- (app_nil_r last) at 1. rewrite lines_word by exact Hl. cbn [app lines_from]. reflexivity.
  - unfold terminated in *. cbn [map concat]. rewrite <- !app_assoc, lines_word by exact Hs. cbn [app map].
    destruct He as [ -> | [ -> | -> ]]; cbn [app lines_from Ascii.eqb].
    + change (Ascii.eqb LF LF) with true. cbn iota. now rewrite IH.
    + change (Ascii.eqb CR LF) with false. change (Ascii.eqb CR CR) with true. change (Ascii.eqb LF LF) with true. cbn iota. now rewrite IH.
    + change (Ascii.eqb CR LF) with false. change (Ascii.eqb CR CR) with true. cbn iota. f_equal. rewrite <- IH.
      set (s := concat (map (fun l0 => l0 ++ [CR]) lines) ++ last).
      assert (Hh : forall c s', s = c :: s' -> c <> LF).
      { intros c s' E ->. subst s. inversion H as [|l1 ls Hs1 H1]; subst lines; cbn [map concat app] in E.
        - destruct last; [discriminate|]. injection E as -> _. apply (proj1 Hl). now left.
        - destruct l1 as [|c1 l1]; cbn [app] in E; [discriminate|]. injection E as -> _. apply (proj1 Hs1). now left. }
      destruct s as [|c s']; [reflexivity|]. destruct (Ascii.eqb_spec c LF) as [->|_]; [|reflexivity]. now contradiction (Hh LF s' eq_refl).
Qed.

(** ** numbers *)
Lemma numbers_pmap {A} (conv : text -> option A) fs xs : numbers conv fs xs <-> pmap (number conv) fs = Parsed xs.
Proof.
  unfold numbers. split.
  - induction 1 as [|f x fs xs H _ IH]; [reflexivity|]. cbn [pmap]. unfold number at 1. rewrite H. cbn [pbind]. now rewrite IH.
  - revert xs. induction fs as [|f fs IH]; intros xs E; cbn [pmap] in E; [injection E as <-; constructor|].
    unfold number at 1 in E. destruct (conv f) as [x|] eqn:Ef; [|discriminate]. cbn [pbind] in E.
    destruct (pmap (number conv) fs) as [r|]; [|discriminate]. cbn [pbind] in E. injection E as <-. constructor; [exact Ef|now apply IH].
Qed.
Lemma as_array_spec {A} (rows : list (list A)) : (rectangular rows <-> as_array rows = Parsed rows) /\ (forall r, as_array rows = Parsed r -> r = rows).
Proof.
  destruct rows as [|r rows]; cbn [as_array].
  - split; [split; [reflexivity|intros _ ? ? []]|]. intros r E. now injection E as <-.
  - destruct (forallb _ rows) eqn:E; (split; [|intros r0 E0; now (injection E0 as <-) || discriminate]).
    + split; [reflexivity|]. intros _. rewrite forallb_forall in E.
      assert (K : forall a, In a (r :: rows) -> length a = length r) by (intros a [<-|I]; [reflexivity|now apply Nat.eqb_eq, E]).
      intros a b Ha Hb. now rewrite (K a Ha), (K b Hb).
    + split; [|discriminate]. intro H. exfalso. apply not_true_iff_false in E. apply E. apply forallb_forall.
      intros x Hx. apply Nat.eqb_eq, H; [now right|now left].
Qed.
