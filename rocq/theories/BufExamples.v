(** Concrete calls with buffers. *)

From Coq Require Import Bool List Reals Arith ZArith Lia Lra.
From Verif Require Import ArrModel LegendreModel LegendreSpec GeoModel SizeModel SizeProofs CoefModel ShEvalModel BufModel BufSpec BufTopProofs.
Import ListNotations.
Open Scope R_scope.

(** two sets of six coefficients (degree 2) and one position *)
Definition two_sets : nd coefs := {| dims := [2%nat]; get := fun ix k => (INR (k + hd 0%nat ix), 1) |}.
Definition two_bufs (n : nat) : nd (buf (R * R)) :=
  {| dims := [2%nat]; get := fun ix => {| bf_size := n; bf_cell := fun k => Some (INR (k + hd 0%nat ix), 1) |} |}.
Definition one_place : nd (R * R * R) := {| dims := []; get := fun _ => (30, 60, 7000) |}.
Definition any_mem : arr * arr * coefs * arr * arr * arr :=
  (fun _ => 0, fun _ => 0, fun _ => (0, 0), fun _ => 0, fun _ => 0, fun _ => 0).

Lemma two_bufs_ok n : coef_buffers n (two_bufs n) two_sets.
Proof. split; [reflexivity|]. intros ix _. split; [reflexivity|]. reflexivity. Qed.

Lemma ex_sheval_safe : exists out,
  b_sheval one_place 6 (two_bufs 6) CT_GEOCENTRIC_SPHERICAL CT_GEOCENTRIC_SPHERICAL SM_GRADIENT true 2 1 (1, 1, 1)
    = Some (Ok ([2%nat], out)).
Proof.
  rewrite (sheval_safe one_place 6 (two_bufs 6) two_sets _ _ _ _ _ _ _ any_mem); [|lia|exact (two_bufs_ok 6)|lia|lia].
  eexists. unfold sheval. assert (E : size_to_degree 6 = 2%Z) by (apply size_to_degree_spec; lia). rewrite E. reflexivity.
Qed.

(** the coefficients end too early *)
Lemma ex_short : b_eval_v 2 1 {| bf_size := 5; bf_cell := fun _ => Some (1, 1) |} {| bf_size := 3; bf_cell := fun _ => Some (1, 0) |}
  {| bf_size := 6; bf_cell := fun _ => Some 1 |} {| bf_size := 3; bf_cell := fun _ => Some 1 |} = None.
Proof. reflexivity. Qed.

(** an element without a value *)
Lemma ex_unwritten : b_eval_v 2 1 {| bf_size := 6; bf_cell := fun _ => Some (1, 1) |} {| bf_size := 3; bf_cell := fun _ => Some (1, 0) |}
  {| bf_size := 6; bf_cell := fun k => if Nat.eqb k 4 then None else Some 1 |} {| bf_size := 3; bf_cell := fun _ => Some 1 |} = None.
Proof. reflexivity. Qed.

Lemma ex_sheval_overrun :
  b_sheval one_place 6 (two_bufs 6) CT_GEOCENTRIC_SPHERICAL CT_GEOCENTRIC_SPHERICAL SM_GRADIENT true 0 1 (1, 1, 1) = None.
Proof.
  apply sheval_overrun; [lia|now left| |reflexivity|reflexivity].
  intros odims [->| ->]; cbn [dims one_place two_bufs]; repeat constructor.
Qed.

Lemma ex_workspace : exists (c : model_cfg) st out, degree c = 3%nat /\ b_model_init 3 = Some st /\
  b_evals c SM_POTENTIAL_AND_GRADIENT
    [((30, 60, 7000), {| bf_size := 10; bf_cell := fun _ => Some (1, 1) |});
     ((30, 61, 7000), {| bf_size := 10; bf_cell := fun _ => Some (1, 2) |})] st = Some out.
Proof.
  set (c := {| is_internal := true; degree := 3; coord_in := CT_GEOCENTRIC_SPHERICAL; coord_out := CT_GEOCENTRIC_SPHERICAL;
    elps_a := 1; elps_eps2 := 0; crad_ref := 6371.2; scale_potential := 1; scale_gradient0 := 1; scale_gradient1 := 1; scale_gradient2 := 1;
    psqrt := fun _ => 0; prsqrt := fun _ => 0 |}).
  destruct (b_model_init 3) as [st|] eqn:E.
  - destruct (workspace_safe c SM_POTENTIAL_AND_GRADIENT st
      [((30, 60, 7000), {| bf_size := 10; bf_cell := fun _ => Some (1, 1) |});
       ((30, 61, 7000), {| bf_size := 10; bf_cell := fun _ => Some (1, 2) |})]) as (out & H); [cbn; lia|exact E| |].
    + constructor; [exists (fun _ => (1, 1)); split; reflexivity|]. constructor; [exists (fun _ => (1, 2)); split; reflexivity|constructor].
    + exists c, st, out. split; [reflexivity|]. split; [reflexivity|exact H].
  - exfalso. destruct (BufEvalProofs.init_safe 3 (fun _ => 0) (fun _ => 0) (fun _ => (0, 0)) (fun _ => 0) (fun _ => 0) (fun _ => 0)) as (sb & E' & _).
    congruence.
Qed.
