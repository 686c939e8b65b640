(** Examples for the coefficient sets as objects. *)
From Coq Require Import Bool List Arith ZArith Lia.
From Verif Require Import Ord CoefModel CoefSpec CoefProofs CoefMoreProofs ObjModel ObjSpec.
From Verif Require Export ObjProofs.
Import ListNotations.

Definition ex_set (s e : Z) (deg : nat) (v : Z) : leaf Zx Z unit :=
  {| lf_validity := (ZFin s, ZFin e); lf_internal := true; lf_degree := deg; lf_min_degree := deg;
     lf_call_degree := fun _ => deg; lf_call := fun _ _ => repeat v (coeff_size deg) |}.

(** Two sets are composed, the composition is combined with a third set, and all are composed again. *)
Definition ex_program : list (statement Zx Z unit) :=
  [MakeSparse (ex_set 0 5 1 3); MakeSparse (ex_set 5 12 2 7); MakeComposed [0; 1]; MakeSparse (ex_set 2 9 1 10);
   MakeCombined [2; 3]; MakeComposed [3]; MakeComposed [4; 3; 2]; MakeCombined [2]].

Lemma ex_careful : careful [] ex_program.
Proof. unfold ex_program. cbn. repeat split; intros; discriminate. Qed.

Lemma ex_values : length (run [] ex_program) = 6 /\
  object_call (run [] ex_program) tt (Some (ZFin 4)) 4 5 = Value ([13; 13; 13]%Z, 1) /\
  object_call (run [] ex_program) tt (Some (ZFin 11)) 4 5 = Value ([7; 7; 7; 7; 7; 7]%Z, 2) /\
  object_call (run [] ex_program) tt (Some (ZFin 4)) 2 5 = RecursionError.
Proof. repeat split; reflexivity. Qed.

Lemma composed_of_itself : ~ (forall (program : list (statement Zx Z unit)) x, x < length (run [] program) ->
  exists c, evaluates_as (run [] program) x c).
Proof.
  intro H. set (p := [MakeSparse (ex_set 0 5 1 3); MakeSparse (ex_set 5 12 2 7); MakeComposed [0; 1]; MakeComposed [2]]).
  destruct (H p 2) as (c & E); [apply Nat.ltb_lt; reflexivity|]. destruct (E (nesting c) tt (Nat.le_refl _)) as [E1 _]. specialize (E1 None).
  assert (S : nth_error (run [] p) 2 = Some (OComposed {| a_internal := true; a_validity := (ZFin 0, ZFin 12); a_degree := 2; a_min_degree := 1 |} [2])) by reflexivity.
  destruct (composed_self (run [] p) _ 2 S (nesting c) tt) as [N _].
  rewrite N in E1. discriminate.
Qed.

Lemma combined_of_itself : ~ (forall (program : list (statement Zx Z unit)) x, x < length (run [] program) ->
  exists c, evaluates_as (run [] program) x c).
Proof.
  intro H. set (p := [MakeSparse (ex_set 0 5 1 3); MakeSparse (ex_set 5 12 2 7); MakeCombined [0; 1]; MakeCombined [2]]).
  destruct (H p 2) as (c & E); [apply Nat.ltb_lt; reflexivity|]. destruct (E (nesting c) tt (Nat.le_refl _)) as [E1 _]. specialize (E1 None).
  assert (S : nth_error (run [] p) 2 = Some (OCombined {| a_internal := true; a_validity := (ZFin 5, ZFin 5); a_degree := 2; a_min_degree := 1 |} [2])) by reflexivity.
  destruct (combined_self (run [] p) _ 2 S (nesting c) tt) as [N _].
  rewrite N in E1. discriminate.
Qed.
