(** The field of a SHC file. *)
From Coq Require Import List ZArith Reals.
From Coquelicot Require Import Coquelicot.
From Verif Require Import SparseSpec ShcModel ShcLoadSpec ShEvalSpec.
Import ListNotations.
Open Scope R_scope.

(** [gh n m] are the coefficients (g_nm, h_nm), the values of the orders m and -m; zero for the degrees out of
    the bounds *)
Definition coefficient_table (value : Z -> Z -> R -> Prop) (lo hi : Z) (gh : nat -> nat -> R * R) : Prop :=
  forall n m, (m <= n)%nat ->
    (within_bounds lo hi (Z.of_nat n) ->
       value (Z.of_nat n) (Z.of_nat m) (fst (gh n m)) /\
       ((0 < m)%nat -> value (Z.of_nat n) (- Z.of_nat m)%Z (snd (gh n m)))) /\
    (~ within_bounds lo hi (Z.of_nat n) -> gh n m = (0, 0)).

(** those of a SHC file at the time *)
Definition file_coefficients (years : bool) (d : @shc_data R) (lo hi : Z) (t : R) : (nat -> nat -> R * R) -> Prop :=
  coefficient_table (fun n m => shc_value years d n m t) lo hi.

(** The coefficients without those of the orders above 1 *)
Definition low_orders (gh : nat -> nat -> R * R) (n m : nat) : R * R := if Nat.leb m 1 then gh n m else (0, 0).

(** The field at a point with the coordinates in degrees, northward, eastward and up: minus the gradient of the potential with the
    coefficients [gh] up to the degree [N] (of the radius, latitude and longitude in radians).  At the poles the eastward component is the
    limit along the meridian.  Close to the poles, where the cosine of the latitude is below 1e-10, the orders above 1 are left out of the
    eastward component. *)
Definition field_of (internal : bool) (gh : nat -> nat -> R * R) (N : nat) (lat lon rad : R) (field : R * R * R) : Prop :=
  let '(north, east, up) := field in
  let th := lat * (PI / 180) in
  let ph := lon * (PI / 180) in
  let V := potential internal 6371.2 gh N in
  is_derive (fun t => V rad t ph) th (- (rad * north)) /\
  is_derive (fun r => V r th ph) rad (- up) /\
  (1 / 10 ^ 10 <= cos th -> is_derive (fun p => V rad th p) ph (- (rad * cos th * east))) /\
  (0 < cos th < 1 / 10 ^ 10 -> is_derive (fun p => potential internal 6371.2 (low_orders gh) N rad th p) ph (- (rad * cos th * east))) /\
  (cos th = 0 -> is_lim (fun t => - (Derive (fun p => V rad t p) ph / (rad * cos t))) th east).

(** A time within the validity; NaN never is *)
Definition in_validity (validity : Rbar * Rbar) (t : option R) : Prop :=
  exists u, t = Some u /\ Rbar_le (fst validity) (Finite u) /\ Rbar_le (Finite u) (snd validity).

(** All degrees listed in the file are up to N *)
Definition degrees_up_to (d : @shc_data R) (N : nat) : Prop := forall n m, file_lists d n m -> (n <= Z.of_nat N)%Z.
