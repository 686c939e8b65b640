(** C59: writes behind the output arrays.  The arrays of the model have no end: what lies
    behind the elements the caller allocated is the memory after the array, and a write out
    of bounds changes it. *)

From Coq Require Import List Reals Arith.
From Verif Require Import ArrModel LegendreModel LegendreSpec LegendreProofs.
Import ListNotations.
Open Scope R_scope.

(** legendre(..., degree) for degree >= 1 *)
Theorem C59_legendre_partial : forall lats degree mem junk k,
  (1 <= degree)%nat -> (forall lat, In lat lats -> -90 <= lat <= 90) ->
  (length lats * nm_size degree <= k)%nat ->
  fst (legendre lats degree mem junk) k = fst mem k /\
  snd (legendre lats degree mem junk) k = snd mem k.
Proof. exact legendre_no_overrun. Qed.
Print Assumptions C59_legendre_partial.

(** legendre(0, 0) writes behind its output array of one element. *)
Theorem C59_legendre_refuted : exists mem junk,
  fst (legendre [0] 0 mem junk) (1 * nm_size 0 + 1)%nat <> fst mem (1 * nm_size 0 + 1)%nat.
Proof. exact legendre_overrun. Qed.
Print Assumptions C59_legendre_refuted.

Theorem C59_relradpow : forall radii degree reference is_internal mem k, reference <> 0 ->
  List.Forall (fun x => x <> 0) radii -> (length radii * (degree + 1) <= k)%nat ->
  relradpow radii degree reference is_internal mem k = mem k.
Proof. exact relradpow_no_overrun. Qed.
Print Assumptions C59_relradpow.

Theorem C59_loncossin : forall lons degree fast_alg mem k,
  (length lons * (degree + 1) <= k)%nat -> loncossin lons degree fast_alg mem k = mem k.
Proof. exact loncossin_no_overrun. Qed.
Print Assumptions C59_loncossin.
