(** The line terminators of the SHC files do not matter. *)

From Coq Require Import Bool List Ascii.
From Verif Require Import Ord TextModel TextSpec TextProofs ShcModel.
Import ListNotations.

Lemma rev_lstrip_end s c : is_space c = true -> strip (s ++ [c]) = strip s.
Proof.
  intro H. unfold strip.
  assert (E : (lstrip (s ++ [c]) = lstrip s ++ [c]) \/ (lstrip (s ++ [c]) = [] /\ lstrip s = [])).
  { induction s as [|a s IH]; cbn [app lstrip]; [rewrite H; now right|]. destruct (is_space a); [exact IH|now left]. }
  destruct E as [E|[E1 E2]]; [rewrite E|now rewrite E1, E2].
  rewrite rev_app_distr. cbn [rev app lstrip]. now rewrite H.
Qed.
Lemma hash_end s c : Ascii.eqb c HASH = false -> is_space c = true -> strip (before_hash (s ++ [c])) = strip (before_hash s).
Proof.
  intros Hc Hs. assert (E : before_hash (s ++ [c]) = before_hash s \/ before_hash (s ++ [c]) = before_hash s ++ [c]).
  { induction s as [|a s IH]; cbn [app before_hash]; [rewrite Hc; now right|]. destruct (Ascii.eqb a HASH); [now left|].
    destruct IH as [-> | ->]; [now left|now right]. }
  destruct E as [-> | ->]; [reflexivity|now apply rev_lstrip_end].
Qed.
Lemma strip_comments_ends lines : strip_shc_comments (map (fun l => l ++ [LF]) lines) = strip_shc_comments lines.
Proof.
  induction lines as [|l lines IH]; [reflexivity|]. cbn [map strip_shc_comments]. rewrite hash_end by reflexivity.
  destruct (strip (before_hash l)); [exact IH|]. f_equal. rewrite map_map. apply map_ext. intro x. now apply rev_lstrip_end.
Qed.

Lemma parse_terminated {F} {OF : TOrd F} to_int (to_float : text -> option F) eol lines : terminator eol -> Forall single_line lines ->
  parse_shc_file to_int to_float (file_lines (terminated eol lines)) = parse_shc_file to_int to_float lines.
Proof.
  intros He Hl. pose proof (lines_terminated eol lines [] He Hl (conj (fun H => H) (fun H => H))) as E. rewrite !app_nil_r in E.
  rewrite E. unfold parse_shc_file. now rewrite strip_comments_ends.
Qed.
