(** Model of the text file operations used by the parsers of the coefficient files: the iteration over the lines
    of a text file and the methods split, strip and partition of the Python strings, for ASCII text. *)

From Coq Require Import Bool List Ascii NArith ZArith.
Import ListNotations.

Definition text := list ascii.

Definition LF : ascii := "010"%char.
Definition CR : ascii := "013"%char.
Definition HASH : ascii := "#"%char.

(** str.isspace() of an ASCII character *)
Definition is_space (c : ascii) : bool :=
  let n := N_of_ascii c in ((9 <=? n) && (n <=? 13) || (28 <=? n) && (n <=? 32))%N.

(** The lines of a file opened by open(path, encoding="ascii"): the terminators LF, CR LF and CR are
    translated to LF, which is kept at the end of the line.  [cur] is the beginning of the current line.
    Files with other than ASCII characters, which cannot be decoded, are not modelled. *)
Fixpoint lines_from (cur s : text) : list text :=
  match s with
  | [] => match cur with [] => [] | _ :: _ => [cur] end
  | c :: s' =>
      if Ascii.eqb c LF then (cur ++ [LF]) :: lines_from [] s'
      else if Ascii.eqb c CR then
        (cur ++ [LF]) ::
        match s' with
        | c' :: s'' => if Ascii.eqb c' LF then lines_from [] s'' else lines_from [] s'
        | [] => []
        end
      else lines_from (cur ++ [c]) s'
  end.
Definition file_lines (s : text) : list text := lines_from [] s.

(** line.split(); [cur] is the beginning of the current field *)
Fixpoint split_from (cur s : text) : list text :=
  match s with
  | [] => match cur with [] => [] | _ :: _ => [cur] end
  | c :: s' =>
      if is_space c then match cur with [] => split_from [] s' | _ :: _ => cur :: split_from [] s' end
      else split_from (cur ++ [c]) s'
  end.
Definition split (s : text) : list text := split_from [] s.

(** line.strip() *)
Fixpoint lstrip (s : text) : text :=
  match s with
  | [] => []
  | c :: s' => if is_space c then lstrip s' else s
  end.
Definition strip (s : text) : text := rev (lstrip (rev (lstrip s))).

(** line.partition("#")[0] *)
Fixpoint before_hash (s : text) : text :=
  match s with
  | [] => []
  | c :: s' => if Ascii.eqb c HASH then [] else c :: before_hash s'
  end.

(** Exceptions of the parsers *)
Inductive parse_error := E_Value | E_Index | E_Key | E_StopIteration.
Inductive parsed A := Parsed (a : A) | Failed (e : parse_error).
Arguments Parsed {A} a.
Arguments Failed {A} e.
Definition pbind {A B} (p : parsed A) (f : A -> parsed B) : parsed B :=
  match p with Parsed a => f a | Failed e => Failed e end.
Fixpoint pmap {A B} (f : A -> parsed B) (l : list A) : parsed (list B) :=
  match l with
  | [] => Parsed []
  | a :: l' => pbind (f a) (fun b => pbind (pmap f l') (fun r => Parsed (b :: r)))
  end.

(** fields[k] *)
Definition field (fields : list text) (k : nat) : parsed text :=
  match nth_error fields k with Some f => Parsed f | None => Failed E_Index end.
(** int(v) and float(v) for a conversion given by [convert] *)
Definition number {A} (convert : text -> option A) (v : text) : parsed A :=
  match convert v with Some x => Parsed x | None => Failed E_Value end.

(** numpy.array of a list of lists: NumPy refuses rows of different lengths.  (The versions before 1.24 made an
    array of lists, which is refused by the constructors of the coefficients.) *)
Definition as_array {A} (rows : list (list A)) : parsed (list (list A)) :=
  match rows with
  | [] => Parsed []
  | r :: rest => if forallb (fun r' => Nat.eqb (length r') (length r)) rest then Parsed rows else Failed E_Value
  end.
