(** Model of the sub-solar point of the quasi-dipole library: SUBSOL of qdipole/apex.f90 and
    qdipole/eval_subsol.f90.  The REAL numbers (of 4 bytes) and the REAL*8 numbers are real
    numbers: the rounding, also the one of the conversions between them, is left out. *)

From Coq Require Import Bool List ZArith Reals.
From Verif Require Import TimeModel GeoModel SunModel QdTimeModel.
Import ListNotations.
Open Scope R_scope.

(** The end of a call of the library: it returns, or it executes STOP or CALL EXIT and the
    process of the caller ends *)
Inductive outcome (A : Type) : Type :=
| Returns (a : A)
| Terminated.
Arguments Returns {A} a.
Arguments Terminated {A}.

(** apex.f90:2634-2635; the decimals are those of PI / 180 and 180 / PI *)
Definition D2R : R := PI / 180.
Definition R2D : R := 180 / PI.

(** apex.f90:2643-2662: the number of the leap days *)
Definition subsol_nleap (iyr : Z) : outcome Z :=
  (let nleap := Z.quot (iyr - 1601) 4 - 99 in
   if iyr <=? 1900 then
     if iyr <=? 1600 then Terminated
     else Returns (nleap + (3 - Z.quot (iyr - 1601) 100))
   else if 2101 <=? iyr then Terminated
   else Returns nleap)%Z.

(** apex.f90:2603-2737, SUBSOL: the latitude and the longitude *)
Definition subsol (iyr iday ihr imn : Z) (sec : R) : outcome (R * R) :=
  match subsol_nleap iyr with
  | Terminated => Terminated
  | Returns nleap =>
      let yr := (iyr - 2000)%Z in
      let l0 := - 79.549 + (- 0.238699 * IZR (yr - 4 * nleap) + 3.08514e-2 * IZR nleap) in
      let g0 := - 2.472 + (- 0.2558905 * IZR (yr - 4 * nleap) - 3.79617e-2 * IZR nleap) in
      let ut := IZR (ihr * 3600 + imn * 60) + sec in
      let df := (ut / 86400 - 1.5) + IZR iday in
      let lf := 0.9856474 * df in
      let gf := 0.9856003 * df in
      let l := l0 + lf in
      let g := g0 + gf in
      let grad := g * D2R in
      let lambda := l + 1.915 * sin grad + 0.020 * sin (2 * grad) in
      let lamrad := lambda * D2R in
      let sinlam := sin lamrad in
      let n := df + IZR (365 * yr + nleap) in
      let epsilon := 23.439 - 4e-7 * n in
      let epsrad := epsilon * D2R in
      let alpha := atan2 (cos epsrad * sinlam) (cos lamrad) * R2D in
      let delta := asin (sin epsrad * sinlam) * R2D in
      let sbsllat := delta in
      let etdeg := l - alpha in
      let nrot := nint (etdeg / 360) in
      let etdeg := etdeg - IZR (360 * nrot) in
      let aptime := ut / 240 + etdeg in
      let sbsllon := 180 - aptime in
      let nrot := nint (sbsllon / 360) in
      let sbsllon := sbsllon - IZR (360 * nrot) in
      Returns (sbsllat, sbsllon)
  end.

(** eval_subsol.f90:55-63, a pass of the loop *)
Definition eval_subsol_item (t_mjd2k : R) : outcome (R * R) :=
  let '((iyr, _, _), (ihour, imin, sec)) := tmjd_civil t_mjd2k in
  let idoy := day_of_year t_mjd2k iyr in
  subsol iyr idoy ihour imin sec.

(** eval_subsol.f90:53-66 (the times are the elements of the array) *)
Fixpoint eval_subsol (t_mjd2k : list R) : outcome (list (R * R)) :=
  match t_mjd2k with
  | [] => Returns []
  | t :: rest =>
      match eval_subsol_item t with
      | Terminated => Terminated
      | Returns p =>
          match eval_subsol rest with
          | Terminated => Terminated
          | Returns ps => Returns (p :: ps)
          end
      end
  end.
