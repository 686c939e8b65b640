(** The models in all coordinate systems. *)
From Coq Require Import List ZArith Reals.
From Coquelicot Require Import Coquelicot.
From Verif Require Import ArrModel CoefModel TempModel SparseSpec ShEvalSpec GeoModel ShEvalModel CoordModel CoordSpec FieldModel FieldSpec MmaFieldSpec.
Import ListNotations.
Open Scope R_scope.

(** The elements at the same places of three lists are related. *)
Inductive Forall3 {A B C} (P : A -> B -> C -> Prop) : list A -> list B -> list C -> Prop :=
| Forall3_nil : Forall3 P [] [] []
| Forall3_cons a b c la lb lc : P a b c -> Forall3 P la lb lc -> Forall3 P (a :: la) (b :: lb) (c :: lc).

(** components of a vector multiplied by the scale *)
Definition scaled (s w : R * R * R) : R * R * R :=
  let '(s0, s1, s2) := s in let '(w0, w1, w2) := w in (w0 * s0, w1 * s1, w2 * s2).

(** [field], north, east and up at the spherical coordinates of the location [x], and [o] in the output system: NaN for NaN, otherwise the
    same vector in space, scaled afterwards *)
Definition transformed (ci co : coord_type) (s : R * R * R) (x : R * R * R) (field o : option (R * R * R)) : Prop :=
  match field with
  | None => o = None
  | Some g => exists w, in_space co (convert x ci co) w = in_space CT_GEOCENTRIC_SPHERICAL (convert x ci CT_GEOCENTRIC_SPHERICAL) g /\ o = Some (scaled s w)
  end.

(** not the centre of the Earth in Cartesian coordinates *)
Definition off_centre (ci : coord_type) (x : R * R * R) : Prop := ci = CT_GEOCENTRIC_CARTESIAN -> x <> (0, 0, 0).

(** The result of a model for the time [t] (NaN is [None]) and the location [x] in the input system: the NaNs, [None], if the time is not
    valid, otherwise minus the gradient of the potential with the coefficients of the time at any spherical coordinates [d0], [d1], [d2]
    of the position of the location, given in the output system and scaled. *)
Definition located_result (validity : Rbar * Rbar) (value : R -> Z -> Z -> R -> Prop) (internal : bool) (lo hi : Z) (N : nat)
  (ci co : coord_type) (s : R * R * R) (tx : option R * (R * R * R)) (o : option (R * R * R)) : Prop :=
  let '(t, x) := tx in
  (~ in_validity validity t -> o = None) /\
  (forall u gh d0 d1 d2, t = Some u -> in_validity validity t ->
     usual ci x -> usual CT_GEOCENTRIC_SPHERICAL (d0, d1, d2) -> position CT_GEOCENTRIC_SPHERICAL (d0, d1, d2) = position ci x ->
     coefficient_table (value u) lo hi gh ->
     exists g w, field_of internal gh N d0 d1 d2 g /\
       in_space co (convert x ci co) w = in_space CT_GEOCENTRIC_SPHERICAL (d0, d1, d2) g /\ o = Some (scaled s w)).

(** The model of these components answers, for arrays of times and locations and for one time and any array of locations off the centre
    of the Earth, with such results. *)
Definition evaluates_located (internal : bool) (lo hi : Z) (ci co : coord_type) (s : R * R * R) (mem : arr * arr * coefs * arr * arr * arr)
  (components : list ((Rbar * Rbar) * list leaf_set)) (validity : Rbar * Rbar) (value : R -> Z -> Z -> R -> Prop) (N : nat) : Prop :=
  (forall txs, (forall t x, In (t, x) txs -> off_centre ci x) -> exists out,
     components_array internal lo hi ci co s mem components (map (fun _ => None) txs) txs = Ok out /\
     Forall2 (located_result validity value internal lo hi N ci co s) txs out) /\
  (forall t location, (forall ix, In ix (indices (dims location)) -> off_centre ci (at_index location ix)) -> exists out,
     components_scalar internal lo hi ci co s mem components t location = Ok (dims location, out) /\
     Forall2 (located_result validity value internal lo hi N ci co s) (map (fun ix => (t, at_index location ix)) (indices (dims location))) out).

