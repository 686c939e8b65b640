(** C94: the arithmetic of the 32-bit integers of the C code. *)

From Coq Require Import List Reals Arith ZArith.
From Coquelicot Require Import Coquelicot.
From Verif Require Import ArrModel LegendreModel LegendreSpec CoefModel SizeModel ShEvalModel ShEvalSpec TempModel IntModel IntSpec
  IntProofs IntTopProofs IntPoleProofs IntValueProofs IntExamples.
Import ListNotations.
Open Scope R_scope.

(** Whatever an overflow does, legendre(latitudes, degree) gives the functions and their derivatives for the
    degrees up to 23171, and for those up to 65533 if no latitude is close to a pole. *)
Theorem C94_legendre_partial : forall ar lats degree mem junk, conforming ar ->
  (Z.of_nat degree <= 23171)%Z \/ ((Z.of_nat degree <= 65533)%Z /\ forall lat, In lat lats -> ~ near_pole lat) ->
  exists p dp, i_legendre_call ar lats degree mem junk = Some (p, dp) /\
    forall i lat n m, nth_error lats i = Some lat -> -90 <= lat <= 90 -> (m <= n <= degree)%nat ->
      p (i * nm_size degree + nm_index n m)%nat = schmidt n m (lat * PI / 180) /\
      is_derive (schmidt n m) (lat * PI / 180) (dp (i * nm_size degree + nm_index n m)%nat).
Proof. exact int_legendre_value. Qed.
Print Assumptions C94_legendre_partial.

Example C94_example_machines : conforming trapping /\ conforming wrapping /\
  trapping (2 ^ 31)%Z = None /\ wrapping (2 ^ 31)%Z = Some (- 2 ^ 31)%Z.
Proof. exact ex_machines. Qed.
Example C94_example_near : near_pole 90 /\ near_pole (-90) /\ ~ near_pole 0.
Proof. exact ex_near. Qed.

(** In all the other cases there is an overflow. *)
Theorem C94_legendre_overflow_refuted : forall lats degree mem junk,
  (exists lat, In lat lats /\ ((65534 <= Z.of_nat degree)%Z \/ ((23172 <= Z.of_nat degree)%Z /\ near_pole lat))) ->
  i_legendre_call trapping lats degree mem junk = None.
Proof. exact legendre_call_overflow. Qed.
Print Assumptions C94_legendre_overflow_refuted.

Example C94_example_degrees : exists d1 d2 d3 : nat,
  Z.of_nat d1 = 23172%Z /\ Z.of_nat d2 = 46340%Z /\ Z.of_nat d3 = 65534%Z.
Proof. exact ex_degrees. Qed.

(** With the usual wrap around, the value at the North pole is 3 instead of 1. *)
Theorem C94_legendre_refuted : exists degree p dp, Z.of_nat degree = 23172%Z /\
  i_legendre_call wrapping [90] degree (fun _ => 0, fun _ => 0) (fun _ => 0) = Some (p, dp) /\
  schmidt degree 0 (90 * PI / 180) = 1 /\ 2.9 < p (nm_index degree 0).
Proof. exact pole_witness. Qed.
Print Assumptions C94_legendre_refuted.

(** The powers of the radius are right for any degree below the largest int ... *)
Theorem C94_relradpow_partial : forall ar degree reference radius rrp,
  conforming ar -> (Z.of_nat degree < 2147483647)%Z -> reference <> 0 -> radius <> 0 ->
  (exists a, i_relradpow_item ar degree reference true radius rrp = Some a /\
     forall k, (k <= degree)%nat -> a k = (reference / radius) ^ (k + 2)) /\
  (exists a, i_relradpow_item ar degree reference false radius rrp = Some a /\
     forall k, (k <= degree)%nat -> a k = powerRZ (radius / reference) (Z.of_nat k - 1)).
Proof. exact int_relradpow_value. Qed.
Print Assumptions C94_relradpow_partial.

(** ... and the counter of the loop overflows for the largest one. *)
Theorem C94_relradpow_refuted : forall degree reference internal radius rrp, (2147483647 <= Z.of_nat degree)%Z ->
  i_relradpow_item trapping degree reference internal radius rrp = None.
Proof. exact relradpow_overflow. Qed.
Print Assumptions C94_relradpow_refuted.

(** sheval is the function proved to be right in C20 and C30-C35 for coefficients or requests of the degrees up to 23171 ... *)
Theorem C94_sheval_partial : forall ar x csize coef ci co mode internal deg D sp sg mem, conforming ar ->
  (1 <= csize < 2 ^ 50)%Z -> expansion_degree csize deg D -> (Z.of_nat D <= 23171)%Z ->
  i_sheval ar x csize coef ci co mode internal deg sp sg mem =
  Some (sheval x csize coef ci co mode internal deg sp sg mem).
Proof. exact int_sheval. Qed.
Print Assumptions C94_sheval_partial.

(** ... and up to 46339 for positions in spherical coordinates which are not close to a pole. *)
Theorem C94_sheval_far_partial : forall ar x csize coef co mode internal deg D sp sg mem, conforming ar ->
  (1 <= csize < 2 ^ 50)%Z -> expansion_degree csize deg D -> (Z.of_nat D <= 46339)%Z ->
  (forall ix lat lon r, get x ix = (lat, lon, r) -> ~ near_pole lat) ->
  i_sheval ar x csize coef CT_GEOCENTRIC_SPHERICAL co mode internal deg sp sg mem =
  Some (sheval x csize coef CT_GEOCENTRIC_SPHERICAL co mode internal deg sp sg mem).
Proof. exact int_sheval_far. Qed.
Print Assumptions C94_sheval_far_partial.

(** The potential is then the expansion. *)
Theorem C94_potential_partial : forall ar csize deg D coef internal co sp sg lat lon rad mem, conforming ar ->
  (1 <= csize < 2 ^ 50)%Z -> expansion_degree csize deg D -> (Z.of_nat D <= 23171)%Z -> -90 <= lat <= 90 -> rad <> 0 ->
  i_sheval ar (nd0 (lat, lon, rad)) csize (nd0 coef) CT_GEOCENTRIC_SPHERICAL co SM_POTENTIAL internal deg sp sg mem =
  Some (Ok ([], [(Some (sp * potential internal 6371.2 (fun n m => coef (n * (n + 1) / 2 + m)%nat) D
    rad (lat * (PI / 180)) (lon * (PI / 180))), None)])).
Proof. exact int_potential. Qed.
Print Assumptions C94_potential_partial.

(** A call with larger coefficients overflows if the degree is 46340 or more ... *)
Theorem C94_sheval_refuted : forall x csize coef ci co mode internal deg D sp sg mem,
  (1 <= csize < 2 ^ 50)%Z -> expansion_degree csize deg D -> (46340 <= Z.of_nat D)%Z ->
  prefix (dims x) (dims coef) \/ prefix (dims coef) (dims x) ->
  i_sheval trapping x csize coef ci co mode internal deg sp sg mem = None.
Proof. exact int_sheval_overflow. Qed.
Print Assumptions C94_sheval_refuted.

Example C94_example_large : exists D : nat,
  (46340 <= Z.of_nat D)%Z /\ (1 <= 1073767311 < 2 ^ 50)%Z /\ expansion_degree 1073767311 (-1) D.
Proof. exact ex_large_set. Qed.

(** ... or if it is 23172 or more and the position is close to a pole. *)
Theorem C94_sheval_pole_refuted : forall lat lon r csize cf co mode internal deg D sp sg mem,
  (1 <= csize < 2 ^ 50)%Z -> expansion_degree csize deg D -> (23172 <= Z.of_nat D)%Z -> near_pole lat ->
  i_sheval trapping (nd0 (lat, lon, r)) csize (nd0 cf) CT_GEOCENTRIC_SPHERICAL co mode internal deg sp sg mem = None.
Proof. exact int_pole_overflow. Qed.
Print Assumptions C94_sheval_pole_refuted.

Example C94_example_pole : exists D : nat,
  (23172 <= Z.of_nat D)%Z /\ (1 <= 268505551 < 2 ^ 50)%Z /\ expansion_degree 268505551 (-1) D.
Proof. exact ex_pole_set. Qed.

(** The memory allocated for a model of a degree up to 46339 has the size of its contents ... *)
Theorem C94_sizes_partial : forall ar degree, conforming ar -> (0 <= degree <= 46339)%Z ->
  i_sizes ar degree = Some [8 * pairs degree; 8 * pairs degree; 16 * (degree + 1); 8 * (degree + 1);
                            8 * (2 * degree + 2); 8 * (2 * degree + 2)]%Z.
Proof. exact sizes_exact. Qed.
Print Assumptions C94_sizes_partial.

Example C94_example_sizes : i_sizes wrapping 13 = Some [840; 840; 224; 112; 224; 224]%Z /\
  i_sizes wrapping 46339 = Some [8589767760; 8589767760; 741440; 370720; 741440; 741440]%Z /\ i_sizes trapping 46340 = None.
Proof. exact ex_sizes. Qed.

(** ... with the usual wrap around, no memory can be allocated for the degrees 46340 to 65534 ... *)
Theorem C94_sizes_refuted : forall degree, (46340 <= degree <= 65534)%Z ->
  exists n, i_nterm wrapping degree = Some n /\ (2 ^ 63 <= bytes n 8)%Z /\ (2 ^ 63 <= bytes n 16)%Z.
Proof. exact wrapped_nterm_large. Qed.
Print Assumptions C94_sizes_refuted.

(** ... and too little is allocated for the degrees 65535 to 80263: the coefficients of the highest degree are
    written behind the end. *)
Theorem C94_bounds_refuted : forall degree, (65535 <= degree <= 80263)%Z ->
  i_nterm wrapping degree = Some (pairs degree - 2 ^ 31)%Z /\
  i_write_in_bounds (pairs degree - 2 ^ 31) (degree, 0%Z) = false /\ (32768 <= pairs degree - 2 ^ 31)%Z.
Proof. exact wrapped_nterm_small. Qed.
Print Assumptions C94_bounds_refuted.

Example C94_example_small : i_nterm wrapping 65535 = Some 32768%Z /\ i_row (nm_offset (65535, 0)%Z) = 2147450880%Z.
Proof. exact ex_small. Qed.

(** Below, the coefficient (n, m) of shevaltemp and sheval2dfs is written to its own row. *)
Theorem C94_rows_partial : forall n m degree, (0 <= n <= degree)%Z -> (degree <= 46339)%Z -> (Z.abs m <= n)%Z ->
  i_row (nm_offset (n, m)) = (n * (n + 1) / 2 + Z.abs m)%Z /\ i_write_in_bounds (pairs degree) (n, m) = true.
Proof. exact row_exact. Qed.
Print Assumptions C94_rows_partial.

Example C94_example_row : i_row (nm_offset (65536, 1)%Z) = i_row (nm_offset (65534, 65534)%Z).
Proof. exact ex_wrapped_row. Qed.
