(** Specification of the arrays in a memory of doubles and integers. *)

From Coq Require Import List Reals ZArith.
From Verif Require Import ArrModel LegendreModel CoefModel ShEvalModel ShEvalSpec SunModel InterpModel StridedModel StridedSpec
  StridedEvalSpec NdModel.
Import ListNotations.
Open Scope Z_scope.

(** the element of an array; [None] when there is nothing at its address *)
Definition cell_at (m : heap) (a : arrd) (idx : list nat) : option cell :=
  if address a idx mod 8 =? 0 then m (address a idx / 8) else None.

(** a number *)
Definition num (x : R) : cell := Dbl (Some x).

(** [a] is the array of the doubles [nx], which may be NaN. *)
Definition double_array (m : heap) (a : arrd) (nx : nd (option R)) : Prop :=
  shape a = dims nx /\ length (stride a) = length (shape a) /\
  forall idx, index_of (dims nx) idx -> cell_at m a idx = Some (Dbl (get nx idx)).

(** [a] is the array of the numbers [nx]. *)
Definition number_array (m : heap) (a : arrd) (nx : nd R) : Prop :=
  shape a = dims nx /\ length (stride a) = length (shape a) /\
  forall idx, index_of (dims nx) idx -> cell_at m a idx = Some (num (get nx idx)).

(** [a] is the 1D array of the given numbers. *)
Definition node_array (m : heap) (a : arrd) (l : list R) : Prop :=
  shape a = [length l] /\ length (stride a) = 1%nat /\
  forall k x, nth_error l k = Some x -> cell_at m a [k] = Some (num x).

(** [a] is an array with a series of [n] numbers for each item. *)
Definition series_array (m : heap) (a : arrd) (n : nat) (nx : nd arr) : Prop :=
  shape a = dims nx ++ [n] /\ length (stride a) = length (shape a) /\
  forall idx k, index_of (dims nx) idx -> (k < n)%nat -> cell_at m a (idx ++ [k]) = Some (num (get nx idx k)).

(** [a] is an array with [n] pairs of numbers for each item. *)
Definition pair_array (m : heap) (a : arrd) (n : nat) (nx : nd coefs) : Prop :=
  shape a = dims nx ++ [n; 2%nat] /\ length (stride a) = length (shape a) /\
  forall idx k, index_of (dims nx) idx -> (k < n)%nat ->
    cell_at m a (idx ++ [k; 0%nat]) = Some (num (fst (get nx idx k))) /\
    cell_at m a (idx ++ [k; 1%nat]) = Some (num (snd (get nx idx k))).

(** [a] is an array with a matrix of pairs of numbers for each item. *)
Definition matrix_array (m : heap) (a : arrd) (n1 n2 : nat) (nx : nd coefs) : Prop :=
  shape a = dims nx ++ [n1; n2; 2%nat] /\ length (stride a) = length (shape a) /\
  forall idx p q, index_of (dims nx) idx -> (p < n1)%nat -> (q < n2)%nat ->
    cell_at m a (idx ++ [p; q; 0%nat]) = Some (num (fst (get nx idx (p * n2 + q)%nat))) /\
    cell_at m a (idx ++ [p; q; 1%nat]) = Some (num (snd (get nx idx (p * n2 + q)%nat))).

(** memory for [n] numbers which does not belong to any array *)
Definition free_cells (m : heap) (base : Z) (n : nat) : Prop :=
  base mod 8 = 0 /\ forall k, base / 8 <= k < base / 8 + Z.of_nat n -> m k = None.

(** [out] is a new C-contiguous array in the memory [m']. *)
Definition new_cells (m m' : heap) (out : arrd) : Prop :=
  c_contiguous out /\
  forall idx, index_of (shape out) idx -> cell_at m out idx = None /\ exists c, cell_at m' out idx = Some c.

(** all the memory which belonged to arrays before the call is as before *)
Definition untouched (m m' : heap) : Prop := forall k c, m k = Some c -> m' k = Some c.

(** no more memory has been allocated than that of the arrays [outs] *)
Definition only_new (m m' : heap) (outs : list arrd) : Prop :=
  forall k, m k = None -> m' k <> None ->
    exists out idx, In out outs /\ index_of (shape out) idx /\ address out idx = 8 * k.

(** The call [call] has a new array of the shape [dims] as its result, whose elements have the property [P]. *)
Definition gives (m : heap) (call : result (heap * arrd)) (dims : list nat) (P : list nat -> option cell -> Prop) : Prop :=
  exists m' out, call = Ok (m', out) /\ shape out = dims /\ new_cells m m' out /\ untouched m m' /\
    only_new m m' [out] /\ forall idx, index_of dims idx -> P idx (cell_at m' out idx).

(** the component i of the position of the Sun *)
Definition sun_component (s : sun) (i : nat) : R :=
  match i with
  | 0%nat => declination s
  | 1%nat => right_ascension s
  | 2%nat => hour_angle s
  | 3%nat => azimuth s
  | _ => zenith s
  end.

(** the component i of a vector *)
Definition component (v : R * R * R) (i : nat) : R :=
  let '(x, y, z) := v in match i with 0%nat => x | 1%nat => y | _ => z end.

(** the codes of the kinds of the interpolation: INTERP_C0, INTERP_C1 and INTERP_C1D1 *)
Definition of_code (kind : Z) (k : interp_kind) : Prop :=
  (kind = 0 /\ k = INTERP_C0) \/ (kind = 1 /\ k = INTERP_C1) \/ (kind = 17 /\ k = INTERP_C1D1).

(** The call [call] has two new arrays of the shape [dims] as its results. *)
Definition gives2 (m : heap) (call : result (heap * arrd * arrd)) (dims : list nat) (P1 P2 : list nat -> option cell -> Prop) : Prop :=
  exists m' out1 out2, call = Ok (m', out1, out2) /\ shape out1 = dims /\ shape out2 = dims /\
    new_cells m m' out1 /\ new_cells m m' out2 /\
    (forall idx idx', index_of dims idx -> index_of dims idx' -> address out1 idx <> address out2 idx') /\
    untouched m m' /\ only_new m m' [out1; out2] /\
    forall idx, index_of dims idx -> P1 idx (cell_at m' out1 idx) /\ P2 idx (cell_at m' out2 idx).
