(** Specification of the evaluation of the models for arrays in memory. *)

From Coq Require Import List Reals ZArith.
From Verif Require Import CoefModel ShEvalModel ShEvalSpec StridedModel StridedSpec StridedEvalModel.
Import ListNotations.
Open Scope Z_scope.

(** [x] is the array of the positions [nx]: its last dimension holds the three components. *)
Definition positions (m : memory) (x : arrd) (nx : nd (R * R * R)) : Prop :=
  shape x = dims nx ++ [3%nat] /\ length (stride x) = length (shape x) /\
  forall idx, index_of (dims nx) idx -> vector m x idx = Some (get nx idx).

(** the three components of a position are next to each other in memory *)
Definition packed (x : arrd) : Prop := last (stride x) 0 = 8.

(** [t] is the array of the numbers [nt]. *)
Definition numbers (m : memory) (t : arrd) (nt : nd R) : Prop :=
  shape t = dims nt /\ length (stride t) = length (shape t) /\
  forall idx, index_of (dims nt) idx -> element m t idx = Some (get nt idx).

(** [a] is the array of the coefficients [nc], [csize] pairs in each item. *)
Definition coefficients (m : memory) (a : arrd) (csize : nat) (nc : nd coefs) : Prop :=
  shape a = dims nc ++ [csize; 2%nat] /\ length (stride a) = length (shape a) /\
  forall idx k, index_of (dims nc) idx -> (k < csize)%nat ->
    element m a (idx ++ [k; 0%nat]) = Some (fst (get nc idx k)) /\
    element m a (idx ++ [k; 1%nat]) = Some (snd (get nc idx k)).

(** the position of an element of an array in the order of the array *)
Fixpoint offset (dims idx : list nat) : nat :=
  match dims, idx with
  | _ :: ds, i :: idx' => i * size ds + offset ds idx'
  | _, _ => 0
  end.

(** NPY_ARRAY_C_CONTIGUOUS: the elements are in memory in the order of the array *)
Definition c_contiguous (a : arrd) : Prop :=
  forall idx, index_of (shape a) idx -> address a idx = data a + 8 * Z.of_nat (offset (shape a) idx).

(** the gradient scales [sg]: not given, a number, or an array of three numbers *)
Definition scales (m : memory) (scale : option arrd) (sg : R * R * R) : Prop :=
  match scale with
  | None => sg = (1, 1, 1)%R
  | Some a =>
      length (stride a) = length (shape a) /\
      (shape a = [] /\ (exists v, element m a [] = Some v /\ sg = (v, v, v))
       \/ shape a = [3%nat] /\ vector m a [] = Some sg)
  end.

(** the integers of the coordinate types and of the modes *)
Definition ct_code (ct : coord_type) : Z :=
  match ct with
  | CT_GEODETIC_ABOVE_WGS84 => 0
  | CT_GEOCENTRIC_SPHERICAL => 1
  | CT_GEOCENTRIC_CARTESIAN => 2
  end.
Definition mode_code (mode : sheval_mode) : Z :=
  match mode with SM_POTENTIAL => 1 | SM_GRADIENT => 2 | SM_POTENTIAL_AND_GRADIENT => 3 end.

(** the shape which has more dimensions, the first one when they have the same number of them *)
Definition longer (a b : list nat) : list nat := if Nat.leb (length b) (length a) then a else b.

(** free memory for the outputs of the mode, at the address [bp] and [bg] *)
Definition room (m : memory) (bp bg : Z) (mode : sheval_mode) (odims : list nat) : Prop :=
  let np := Z.of_nat (size odims) in
  let ng := 3 * np in
  match mode with
  | SM_POTENTIAL => free_at m bp (size odims)
  | SM_GRADIENT => free_at m bg (3 * size odims)
  | SM_POTENTIAL_AND_GRADIENT =>
      free_at m bp (size odims) /\ free_at m bg (3 * size odims) /\
      (bp / 8 + np <= bg / 8 \/ bg / 8 + ng <= bp / 8)
  end.

(** [pot] is a new array of the potentials of the list [out], in the order of the array. *)
Definition potentials (m m' : memory) (odims : list nat) (out : list (option R * option (R * R * R)))
  (pot : option arrd) : Prop :=
  exists a, pot = Some a /\ shape a = odims /\ new_in m m' a /\
    forall k idx, nth_error (indices odims) k = Some idx ->
      exists v g, nth_error out k = Some (Some v, g) /\ element m' a idx = Some v.

(** [grd] is a new array of the gradients of the list [out]. *)
Definition gradients (m m' : memory) (odims : list nat) (out : list (option R * option (R * R * R)))
  (grd : option arrd) : Prop :=
  exists a, grd = Some a /\ shape a = odims ++ [3%nat] /\ new_in m m' a /\
    forall k idx, nth_error (indices odims) k = Some idx ->
      exists v g, nth_error out k = Some (v, Some g) /\ vector m' a idx = Some g.

(** the outputs of the mode *)
Definition outputs (mode : sheval_mode) (m m' : memory) (odims : list nat)
  (out : list (option R * option (R * R * R))) (pot grd : option arrd) : Prop :=
  match mode with
  | SM_POTENTIAL => potentials m m' odims out pot /\ grd = None
  | SM_GRADIENT => pot = None /\ gradients m m' odims out grd
  | SM_POTENTIAL_AND_GRADIENT => potentials m m' odims out pot /\ gradients m m' odims out grd
  end.

(** the call [call] on arrays in memory gives the results of the call [r] on their items *)
Definition same_result (mode : sheval_mode) (m : memory)
  (r : result (list nat * list (option R * option (R * R * R))))
  (call : result (memory * option arrd * option arrd)) : Prop :=
  match r with
  | Ok (odims, out) =>
      exists m' pot grd, call = Ok (m', pot, grd) /\ outputs mode m m' odims out pot grd
  | Err e => call = Err e
  end.
