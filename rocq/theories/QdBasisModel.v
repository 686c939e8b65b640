(** Model of the spherical harmonics of the quasi-dipole coordinates: ALFBASISINIT, ALFBASIS
    and SHCALC of qdipole/apexsh.f90.  REAL(8) numbers are real numbers (no rounding). *)

From Coq Require Import Bool List Reals Arith.
From Verif Require Import ArrModel.
Open Scope R_scope.

(** Arrays with two indices; a(i,j) = v *)
Definition arr2 := nat -> nat -> R.
Definition upd2 (a : arr2) (i j : nat) (v : R) : arr2 :=
  fun k l => if Nat.eqb k i && Nat.eqb l j then v else a k l.

(** apexsh.f90:690-728, the tables of ALFBASISINIT.  Every element is assigned once and not
    changed later: here it is a function of the indices.  [dble] of the products of integers
    (of 8 bytes, without overflow) is [INR]. *)
Definition narr (n : nat) : R := INR n.
Definition marr (m : nat) : R := INR m.
Definition en (n : nat) : R := sqrt (INR (n * (n + 1))).
Definition anm (n m : nat) : R :=
  if Nat.eqb m 0 then sqrt (INR ((2 * n - 1) * (2 * n + 1))) / narr n
  else sqrt (INR ((2 * n - 1) * (2 * n + 1)) / INR ((n - m) * (n + m))).
Definition bnm (n m : nat) : R :=
  if Nat.eqb m 0 then sqrt (INR ((2 * n + 1) * (n - 1) * (n - 1)) / INR (2 * n - 3)) / narr n
  else sqrt (INR ((2 * n + 1) * (n + m - 1) * (n - m - 1)) / INR ((n - m) * (n + m) * (2 * n - 3))).
Definition cm (m : nat) : R := sqrt (INR (2 * m + 1) / INR (2 * m)).
Definition dnm (n m : nat) : R := sqrt (INR ((n - m) * (n + m) * (2 * n + 1)) / INR (2 * n - 1)).

(** apexsh.f90:746, the decimals are those of the root *)
Definition p00 : R := sqrt (1 / 2).

(** apexsh.f90:754-759, the inner loop of ALFBASIS: the pass [n] for the order [m] *)
Definition alf_degree (x y : R) (m n : nat) '((P, V, W) : arr2 * arr2 * arr2) : arr2 * arr2 * arr2 :=
  let W := upd2 W n m (anm n m * x * W (n - 1)%nat m - bnm n m * W (n - 2)%nat m) in
  let P := upd2 P n m (y * W n m) in
  let V := upd2 V n m (narr n * x * W n m - dnm n m * W (n - 1)%nat m) in
  let W := upd2 W (n - 2) m (marr m * W (n - 2)%nat m) in
  (P, V, W).

(** apexsh.f90:751-763, the pass [m] of the outer loop *)
Definition alf_order (nmax : nat) (x y : R) (m : nat) '((P, V, W) : arr2 * arr2 * arr2) : arr2 * arr2 * arr2 :=
  let W := upd2 W m m (cm m * P (m - 1)%nat (m - 1)%nat) in
  let P := upd2 P m m (y * W m m) in
  let '(P, V, W) := loop (m + 1) nmax (alf_degree x y m) (P, V, W) in
  let W := upd2 W (nmax - 1) m (marr m * W (nmax - 1)%nat m) in
  let W := upd2 W nmax m (marr m * W nmax m) in
  let V := upd2 V m m (x * W m m) in
  (P, V, W).

(** apexsh.f90:732-773, ALFBASIS *)
Definition alfbasis (nmax mmax : nat) (theta : R) (P V W : arr2) : arr2 * arr2 * arr2 :=
  let P := upd2 P 0 0 p00 in
  let x := cos theta in
  let y := sin theta in
  let '(P, V, W) := loop 1 mmax (alf_order nmax x y) (P, V, W) in
  let P := upd2 P 1 0 (anm 1 0 * x * P 0%nat 0%nat) in
  let V := upd2 V 1 0 (- en 1 * P 1%nat 1%nat) in
  let '(P, V) :=
    loop 2 nmax (fun n '(P, V) =>
      let P := upd2 P n 0 (anm n 0 * x * P (n - 1)%nat 0%nat - bnm n 0 * P (n - 2)%nat 0%nat) in
      let V := upd2 V n 0 (- en n * P n 1%nat) in
      (P, V)) (P, V) in
  (P, V, W).

(** The elements of the order zero: apexsh.f90:641-647, a pass of the loop.  The variables are
    the arrays sh, shgradtheta and shgradphi and the indices i and i1. *)
Definition shcalc_zonal (pbar vbar : arr2) (n : nat) '((sh, shgradtheta, shgradphi, i, i1) : arr * arr * arr * nat * nat)
  : arr * arr * arr * nat * nat :=
  (upd sh i (pbar n 0%nat), upd shgradtheta i1 (vbar n 0%nat), upd shgradphi i1 0, (i + 1)%nat, (i1 + 1)%nat).

(** apexsh.f90:652-656 *)
Definition shcalc_values (pbar : arr2) (cosmphi sinmphi : R) (m n : nat) '((sh, i) : arr * nat) : arr * nat :=
  (upd (upd sh i (pbar n m * cosmphi)) (i + 1) (pbar n m * sinmphi), (i + 2)%nat).

(** apexsh.f90:658-664 *)
Definition shcalc_gradients (vbar wbar : arr2) (cosmphi sinmphi : R) (m n : nat)
  '((shgradtheta, shgradphi, i1) : arr * arr * nat) : arr * arr * nat :=
  (upd (upd shgradtheta i1 (vbar n m * cosmphi)) (i1 + 1) (vbar n m * sinmphi),
   upd (upd shgradphi i1 (- wbar n m * sinmphi)) (i1 + 1) (wbar n m * cosmphi),
   (i1 + 2)%nat).

(** apexsh.f90:648-666, a pass of the loop *)
Definition shcalc_order (vecflag : bool) (nmax : nat) (phi : R) (pbar vbar wbar : arr2) (m : nat)
  '((sh, shgradtheta, shgradphi, i, i1) : arr * arr * arr * nat * nat) : arr * arr * arr * nat * nat :=
  let mphi := INR m * phi in
  let cosmphi := cos mphi in
  let sinmphi := sin mphi in
  let '(sh, i) := loop m nmax (shcalc_values pbar cosmphi sinmphi m) (sh, i) in
  let '(shgradtheta, shgradphi, i1) :=
    if vecflag then loop m nmax (shcalc_gradients vbar wbar cosmphi sinmphi m) (shgradtheta, shgradphi, i1)
    else (shgradtheta, shgradphi, i1) in
  (sh, shgradtheta, shgradphi, i, i1).

(** The arrays of the module which SHCALC uses *)
Record sh_arrays := {
  pvw : arr2 * arr2 * arr2;   (* pbar, vbar, wbar *)
  a_sh : arr;
  a_shgradtheta : arr;
  a_shgradphi : arr }.

(** apexsh.f90:627-668, SHCALC *)
Definition shcalc (vecflag : bool) (nmax mmax : nat) (theta phi : R) (a : sh_arrays) : sh_arrays :=
  let '(P, V, W) := pvw a in
  let '(pbar, vbar, wbar) := alfbasis nmax mmax theta P V W in
  let st := loop 0 nmax (shcalc_zonal pbar vbar) (a_sh a, a_shgradtheta a, a_shgradphi a, 0%nat, 0%nat) in
  let '(sh, shgradtheta, shgradphi, _, _) := loop 1 mmax (shcalc_order vecflag nmax phi pbar vbar wbar) st in
  {| pvw := (pbar, vbar, wbar); a_sh := sh; a_shgradtheta := shgradtheta; a_shgradphi := shgradphi |}.
