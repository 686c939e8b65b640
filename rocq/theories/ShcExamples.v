(** Examples of SHC files. *)

From Coq Require Import Bool List Ascii String NArith ZArith Lia.
From Verif Require Import Ord TextModel TextSpec TextProofs ShcModel ShcSpec ShcProofs.
Import ListNotations.
Open Scope list_scope.

(** Decimal integers *)
Fixpoint ex_digits (acc : Z) (s : text) : option Z :=
  match s with
  | [] => Some acc
  | c :: s' => let n := N_of_ascii c in
      if ((48 <=? n) && (n <=? 57))%N then ex_digits (10 * acc + (Z.of_N n - 48)) s' else None
  end.
Definition ex_int (s : text) : option Z :=
  match s with
  | [] => None
  | c :: s' => if Ascii.eqb c "-"%char then match s' with [] => None | _ => option_map Z.opp (ex_digits 0 s') end else ex_digits 0 s
  end.
Definition ex_float (s : text) : option Zx := option_map zf (ex_int s).

Definition t_ (s : string) : text := list_ascii_of_string s.

Definition ex_comments : list text := [t_ "# an example"; t_ "  "; t_ "  # "].
Definition ex_header : text := t_ "1 2 3 2 1 # degrees".
Definition ex_times : text := t_ "  2000 2010 2005 ".
Definition ex_rows1 : list text := [t_ "1 0 -30 -10 -20"; t_ "1 -1   5 7 6"].
Definition ex_rows2 : list text := [t_ "2 2  9 8 7 "].
Definition ex_lines : list text := ex_comments ++ ex_header :: ex_times :: ex_rows1 ++ ex_rows2.
Definition ex_shc : @shc_data Zx :=
  {| shc_head := {| h_degree_min := 1; h_degree_max := 2; h_ntime := 3; h_spline_order := 2; h_nstep := 1; h_validity := None |};
     shc_t := map zf [2000; 2010; 2005]%Z; shc_validity_start := Some (zf 2000); shc_validity_end := Some (zf 2010);
     shc_nm := [[1; 0]; [1; -1]; [2; 2]]%Z;
     shc_gh := [map zf [-30; -10; -20]; map zf [5; 7; 6]; map zf [9; 8; 7]]%Z |}.

Lemma ex_parsed : parse_shc_file ex_int ex_float ex_lines = Parsed ex_shc.
Proof. vm_compute. reflexivity. Qed.
Lemma ex_shc_file : shc_file ex_int ex_float ex_lines ex_shc.
Proof. exact (parse_sound _ _ _ _ ex_parsed). Qed.

Lemma ex_comment_lines : Forall comment_line ex_comments /\ ~ comment_line ex_header.
Proof.
  split; [repeat constructor; apply comment_spec; reflexivity|]. intro H. apply comment_spec in H. discriminate.
Qed.
Lemma ex_nm : exists n m, In [n; m] (shc_nm ex_shc).
Proof. exists 1%Z, 0%Z. now left. Qed.
Lemma ex_single : Forall single_line ex_lines /\ single_line [].
Proof.
  split; [|split; intros []].
  repeat constructor; cbv; intro H; repeat (destruct H as [H|H]; [discriminate|]); exact H.
Qed.
