(** Examples of composed models. *)

From Coq Require Import List ZArith Reals String Lra Permutation.
From Verif Require Import Ord CoefModel GeoModel ShEvalModel ShEvalSpec CoordModel ComposedModel ComposedSpec ComposedProofs.
Import ListNotations.
Open Scope R_scope.

(** a model whose field is an option times the scale; valid for given times *)
Definition ex_field : @field Zx R := fun opts scale t _ =>
  match t with
  | None => None
  | Some _ =>
      let '(s0, s1, s2) := match scale with Some s => s | None => (1, 1, 1) end in
      let k := match opts "f107"%string with Some k => k | None => 0 end in
      Some (k * s0, 2 * k * s1, 3 * k * s2)
  end.
Definition ex_model (a b : Zx) : @gmodel Zx R :=
  {| g_validity := (a, b); g_parameters := ["time"; "location"; "f107"]%string;
     g_eval := fun time loc _ _ scale opts =>
       Ok {| dims := dims loc; get := fun ix => ex_field opts scale (at_index time ix) (get loc ix) |} |}.
Lemma ex_evaluates a b : evaluates (ex_model a b) ex_field.
Proof. intros time loc scale opts _. eexists. split; [reflexivity|]. split; reflexivity. Qed.

Definition no_options : string -> option R := fun _ => None.
Definition f107_is (k : R) : string -> option R := fun name => if String.eqb name "f107" then Some k else None.
Definition ex_push (a b : Zx) (s : R) (own : string -> option R) : @pushed Zx R :=
  {| p_model := ex_model a b; p_field := ex_field; p_scale := (s, s, s); p_parameters := own |}.
(** two models, one with its own value of the option f107 *)
Definition ex_two : list (@pushed Zx R) := [ex_push (zf 0) (zf 10) 2 (f107_is 100); ex_push (zf 5) (zf 20) 1 no_options].

Lemma ex_two_ok : List.Forall (fun p => evaluates (p_model p) (p_field p)) ex_two /\
  sum_of_fields ex_two (f107_is 7) CT_GEOCENTRIC_SPHERICAL (Some (zf 6)) (0, 0, 6371.2) = Some (207, 414, 621) /\
  sum_of_fields ex_two (f107_is 7) CT_GEOCENTRIC_SPHERICAL None (0, 0, 6371.2) = None.
Proof.
  split; [repeat constructor; apply ex_evaluates|]. split; [|reflexivity].
  cbn. f_equal. f_equal; [f_equal|]; ring.
Qed.
Lemma ex_validity : c_validity (after ex_two) = (zf 5, zf 10) /\
  c_validity (after (ex_two ++ [ex_push (zf 30) (zf 40) 1 no_options])) = (ninf, ninf).
Proof. split; reflexivity. Qed.
Lemma ex_parameters : In "f107"%string (c_parameters (after ex_two)).
Proof. cbn. tauto. Qed.
