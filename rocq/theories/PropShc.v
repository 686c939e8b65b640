(** C57: SHC files *)

From Coq Require Import List ZArith.
From Verif Require Import Ord TextModel TextSpec TextProofs ShcModel ShcSpec ShcProofs ShcLineProofs ShcExamples.
Import ListNotations.

(** Whatever the parser returns is what is written in the file: behind the comments and blank lines the
    header, the times, and one row for each coefficient, in the same order. *)
Theorem C57_sound : forall F (OF : TOrd F) to_int (to_float : text -> option F) file d,
  parse_shc_file to_int to_float file = Parsed d -> shc_file to_int to_float file d.
Proof. exact @parse_sound. Qed.
Print Assumptions C57_sound.

(** The parser accepts each SHC file and returns its header, times, degrees and orders, and coefficients. *)
Theorem C57_complete : forall F (OF : TOrd F) to_int (to_float : text -> option F) file d,
  shc_file to_int to_float file d -> exists d',
    parse_shc_file to_int to_float file = Parsed d' /\
    shc_head d' = shc_head d /\ shc_t d' = shc_t d /\ shc_nm d' = shc_nm d /\ shc_gh d' = shc_gh d.
Proof. exact @parse_complete. Qed.
Print Assumptions C57_complete.

(** Comments and blank lines before the header do not matter. *)
Theorem C57_leading_comments_partial : forall F (OF : TOrd F) to_int (to_float : text -> option F) comments file,
  Forall comment_line comments ->
  parse_shc_file to_int to_float (comments ++ file) = parse_shc_file to_int to_float file.
Proof. exact @leading_comments. Qed.
Print Assumptions C57_leading_comments_partial.

(** Line terminators do not matter. *)
Theorem C57_line_terminators : forall F (OF : TOrd F) to_int (to_float : text -> option F) eol lines,
  terminator eol -> Forall single_line lines ->
  parse_shc_file to_int to_float (file_lines (terminated eol lines)) = parse_shc_file to_int to_float lines.
Proof. exact @parse_terminated. Qed.
Print Assumptions C57_line_terminators.

(** Blank lines behind the times do matter: a file with such a line is refused. *)
Theorem C57_blank_line_refuted : forall F (OF : TOrd F) to_int (to_float : text -> option F)
    comments header times rows1 rows2 blank d,
  Forall comment_line comments -> ~ comment_line header ->
  shc_file to_int to_float (comments ++ header :: times :: rows1 ++ rows2) d ->
  (exists n m, In [n; m] (shc_nm d)) -> Forall white blank ->
  parse_shc_file to_int to_float (comments ++ header :: times :: rows1 ++ blank :: rows2) = Failed E_Value.
Proof. exact @blank_refused. Qed.
Print Assumptions C57_blank_line_refuted.

Example C57_example : shc_file ex_int ex_float ex_lines ex_shc.
Proof. exact ex_shc_file. Qed.
Example C57_example_parsed : parse_shc_file ex_int ex_float ex_lines = Parsed ex_shc.
Proof. exact ex_parsed. Qed.
Example C57_example_comments : Forall comment_line ex_comments /\ ~ comment_line ex_header.
Proof. exact ex_comment_lines. Qed.
Example C57_example_rows : exists n m, In [n; m] (shc_nm ex_shc).
Proof. exact ex_nm. Qed.
Example C57_example_lines : Forall single_line ex_lines /\ single_line [].
Proof. exact ex_single. Qed.
