(** C24-C28: Legendre functions, radial powers and longitude series *)

From Coq Require Import List Reals Arith.
From Coquelicot Require Import Coquelicot.
From Verif Require Import ArrModel LegendreModel LegendreSpec LoopProofs LegendreLow LegendreProofs.
Import ListNotations.
Open Scope R_scope.

(** Every element of legendre(latitudes, degree)[0] is the Schmidt semi-normalised associated
    Legendre function at its latitude, whatever was in the allocated memory. *)
Theorem C24_legendre_schmidt : forall lats degree mem junk i lat n m,
  nth_error lats i = Some lat -> -90 <= lat <= 90 -> (m <= n <= degree)%nat ->
  fst (legendre lats degree mem junk) (i * nm_size degree + nm_index n m)%nat
    = schmidt n m (lat * PI / 180).
Proof. exact legendre_value. Qed.
Print Assumptions C24_legendre_schmidt.

Example C24_example : forall mem junk,
  let r := fst (legendre [30; -90] 2 mem junk) in
  r (0 * nm_size 2 + nm_index 2 0)%nat = - (1 / 8) /\ r (1 * nm_size 2 + nm_index 2 0)%nat = 1.
Proof. exact ex_legendre. Qed.

(** The second array holds the derivatives of these functions by the latitude in radians. *)
Theorem C25_legendre_derivative : forall lats degree mem junk i lat n m,
  nth_error lats i = Some lat -> -90 <= lat <= 90 -> (m <= n <= degree)%nat ->
  is_derive (schmidt n m) (lat * PI / 180)
    (snd (legendre lats degree mem junk) (i * nm_size degree + nm_index n m)%nat).
Proof. exact legendre_derivative. Qed.
Print Assumptions C25_legendre_derivative.

(** Both algorithms compute the same functions and derivatives off the poles. *)
Theorem C26_low_is_high : forall lp ldp lp' ldp' degree elv psqrt prsqrt n m,
  sqrt_table degree psqrt prsqrt -> cos elv <> 0 -> (1 <= degree)%nat -> (m <= n <= degree)%nat ->
  let low := shc_legendre_low lp ldp degree (sin elv) (cos elv) psqrt prsqrt in
  let high := shc_legendre_high lp' ldp' degree (sin elv) (cos elv) psqrt prsqrt in
  fst low (nm_index n m) = fst high (nm_index n m) /\
  snd low (nm_index n m) = snd high (nm_index n m).
Proof. exact low_high. Qed.
Print Assumptions C26_low_is_high.

(** the tables assumed by C26 are those computed by the code *)
Theorem C26_tables : forall degree junk1 junk2,
  sqrt_table degree (shc_presqrt degree junk1) (shc_prersqrt degree junk2).
Proof. exact tables. Qed.
Print Assumptions C26_tables.

Theorem C27_internal : forall radii degree reference mem i rad k,
  nth_error radii i = Some rad -> rad <> 0 -> reference <> 0 -> (k <= degree)%nat ->
  relradpow radii degree reference true mem (i * (degree + 1) + k)%nat = (reference / rad) ^ (k + 2).
Proof. exact relradpow_internal. Qed.
Print Assumptions C27_internal.

Theorem C27_external : forall radii degree reference mem i rad k,
  List.Forall (fun x => x <> 0) radii ->
  nth_error radii i = Some rad -> reference <> 0 -> (k <= degree)%nat ->
  relradpow radii degree reference false mem (i * (degree + 1) + k)%nat
    = powerRZ (rad / reference) (Z.of_nat k - 1).
Proof. exact relradpow_external. Qed.
Print Assumptions C27_external.

Example C27_example : forall mem,
  relradpow [6371.2; 12742.4] 3 6371.2 true mem (1 * (3 + 1) + 3)%nat = 1 / 32 /\
  relradpow [6371.2; 12742.4] 3 6371.2 false mem (1 * (3 + 1) + 0)%nat = 1 / 2.
Proof. exact ex_relradpow. Qed.

(** with both algorithms *)
Theorem C28_loncossin : forall lons degree fast_alg mem i lon k,
  nth_error lons i = Some lon -> (k <= degree)%nat ->
  loncossin lons degree fast_alg mem (i * (degree + 1) + k)%nat =
    (cos (INR k * (lon * PI / 180)), sin (INR k * (lon * PI / 180))).
Proof. exact loncossin_value. Qed.
Print Assumptions C28_loncossin.

Example C28_example : forall mem, loncossin [0; 90] 2 true mem (1 * (2 + 1) + 2)%nat = (-1, 0).
Proof. exact ex_loncossin. Qed.
