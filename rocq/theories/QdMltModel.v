(** Model of the magnetic local time of the quasi-dipole library: COFRM (the coefficients of
    the degree 1), DYPOL, MAGLOCTM and SOLGMLON of qdipole/apex.f90 and qdipole/eval_mlt.f90.
    The REAL numbers are real numbers: the rounding is left out, and NaN. *)

From Coq Require Import Bool List ZArith Reals.
From Verif Require Import TimeModel GeoModel QdTimeModel QdSunModel.
Import ListNotations.
Open Scope R_scope.

(** The elements GYR(2,1,I), GYR(2,2,I) and HYR(2,2,I) of the tables of apex.f90:932-2258 with
    EPOCH(I) (919-921) *)
Record igrf_row := { epoch : R; g10 : R; g11 : R; h11 : R }.
Definition row (e g0 g1 h1 : R) : igrf_row := {| epoch := e; g10 := g0; g11 := g1; h11 := h1 |}.
Definition first_rows : list igrf_row := [
  row 1900 (-31543) (-2298) 5922; row 1905 (-31464) (-2298) 5909; row 1910 (-31354) (-2297) 5898;
  row 1915 (-31212) (-2306) 5875; row 1920 (-31060) (-2317) 5845; row 1925 (-30926) (-2318) 5817;
  row 1930 (-30805) (-2316) 5808; row 1935 (-30715) (-2306) 5812; row 1940 (-30654) (-2292) 5821;
  row 1945 (-30594) (-2285) 5810; row 1950 (-30554) (-2250) 5815; row 1955 (-30500) (-2215) 5820;
  row 1960 (-30421) (-2169) 5791; row 1965 (-30334) (-2119) 5776; row 1970 (-30220) (-2068) 5737;
  row 1975 (-30100) (-2013) 5675; row 1980 (-29992) (-1956) 5604; row 1985 (-29873) (-1905) 5500;
  row 1990 (-29775) (-1848) 5406; row 1995 (-29692) (-1784) 5306; row 2000 (-29619.4) (-1728.2) 5186.1;
  row 2005 (-29554.63) (-1669.05) 5077.99; row 2010 (-29496.57) (-1586.42) 4944.26;
  row 2015 (-29441.46) (-1501.77) 4795.99; row 2020 (-29403.41) (-1451.37) 4653.35 ].
Definition last_row : igrf_row := row 2025 (-29350.00) (-1410.30) 4545.50.
(** The elements GT(2,1), GT(2,2) and HT(2,2) (2286-2287, 2313): the rates after the last epoch *)
Definition igrf_rates : igrf_row := row 2025 12.60 10.00 (-21.50).

(** The saved DATEL (915-918) and GB(2), GB(3), GB(4) of the common block (903) *)
Record magcof := { datel : R; gb2 : R; gb3 : R; gb4 : R }.

(** apex.f90:2348-2352: the row IY, and the next one unless it is the last row *)
Fixpoint cofrm_rows (rows : list igrf_row) (current : igrf_row) (date : R) : igrf_row * option igrf_row :=
  match rows with
  | [] => (current, None)
  | next :: rest => if Rlt_dec date (epoch next) then (current, Some next) else cofrm_rows rest next date
  end.

(** apex.f90:2338-2398, COFRM.  The loops are restricted to N = 1. *)
Definition cofrm (date : R) (saved : magcof) : outcome magcof :=
  if Req_EM_T date (datel saved) then Returns saved
  else if Rlt_dec date 1900 then Terminated
  else
    let '(current, next) := cofrm_rows (tl first_rows ++ [last_row]) (hd last_row first_rows) date in
    let t := date - epoch current in
    let to5 := t / 5 in
    let f0 := - 1e-5 * 1 / 2 in
    let f := f0 / sqrt 2 in
    let f' := f / sqrt (1 / 2) in
    let value (coefficient : igrf_row -> R) :=
      match next with
      | Some next => coefficient current + (coefficient next - coefficient current) * to5
      | None => coefficient current + coefficient igrf_rates * t
      end in
    Returns {| datel := date; gb2 := value g10 * f0; gb3 := value g11 * f'; gb4 := value h11 * f' |}.

(** apex.f90:2425; the decimals are those of 180 / PI.  The same for 2821 with PI / 180. *)
Definition RTOD : R := 180 / PI.
Definition DTOR : R := PI / 180.

(** apex.f90:2428-2434, DYPOL: the colatitude and the longitude of the pole *)
Definition dypol (saved : magcof) : R * R :=
  let gpl := sqrt (gb2 saved ^ 2 + gb3 saved ^ 2 + gb4 saved ^ 2) in
  let ctp := gb2 saved / gpl in
  (acos ctp * RTOD, atan2 (gb4 saved) (gb3 saved) * RTOD).

(** apex.f90:2806-2845, SOLGMLON *)
Definition solgmlon (xlat xlon colat elon : R) : R :=
  let ctp := cos (colat * DTOR) in
  let stp := sqrt (1 - ctp * ctp) in
  let ang := (xlon - elon) * DTOR in
  let cang := cos ang in
  let sang := sin ang in
  let cte := sin (xlat * DTOR) in
  let ste := sqrt (1 - cte * cte) in
  let stfcpa := ste * ctp * cang - cte * stp in
  let stfspa := sang * ste in
  atan2 stfspa stfcpa * RTOD.

(** apex.f90:2779-2783, MAGLOCTM *)
Definition magloctm (alon sbsllat sbsllon clatp polon : R) : R :=
  let smlon := solgmlon sbsllat sbsllon clatp polon in
  let mlt := (alon - smlon) / 15 + 12 in
  let mlt := if Rle_dec 24 mlt then mlt - 24 else mlt in
  if Rlt_dec mlt 0 then mlt + 24 else mlt.

(** eval_mlt.f90:47: epoch_limit *)
Definition epoch_limit : R := 1 / 365.25.

(** eval_mlt.f90:51-75: the loop.  [epoch_old] and [pole] are the local variables epoch_old,
    dp_colat and dp_elon (the latter two are not initialised, here they have any value), the
    elements of the list are those of qdlon and t_mjd2k. *)
Fixpoint mlt_loop (points : list (R * R)) (saved : magcof) (epoch_old : R) (pole : R * R)
  : outcome (list R * magcof) :=
  match points with
  | [] => Returns ([], saved)
  | (qdlon, t_mjd2k) :: rest =>
      let epoch := t_mjd2k / 365.25 + 2000 in
      let reloaded :=
        if Rlt_dec epoch_limit (Rabs (epoch - epoch_old)) then
          match cofrm epoch saved with
          | Returns saved => Returns (saved, epoch, dypol saved)
          | Terminated => Terminated
          end
        else Returns (saved, epoch_old, pole) in
      match reloaded with
      | Terminated => Terminated
      | Returns (saved, epoch_old, pole) =>
          match eval_subsol_item t_mjd2k with
          | Terminated => Terminated
          | Returns (sbsllat, sbsllon) =>
              let mlt := magloctm qdlon sbsllat sbsllon (fst pole) (snd pole) in
              match mlt_loop rest saved epoch_old pole with
              | Returns (mlts, saved) => Returns (mlt :: mlts, saved)
              | Terminated => Terminated
              end
          end
      end
  end.

(** eval_mlt.f90:35-78; [any] are the values of the local variables which are not initialised *)
Definition eval_mlt (any : R * R) (points : list (R * R)) (saved : magcof) : outcome (list R * magcof) :=
  mlt_loop points saved (-9999.9) any.

(** The state at the start of the process: DATEL (918); the common block has any values *)
Definition initial_magcof (b2 b3 b4 : R) : magcof := {| datel := -999; gb2 := b2; gb3 := b3; gb4 := b4 |}.

(** A sequence of calls in one process; every call has values of the local variables which are
    not initialised, and the points *)
Fixpoint mlt_session (calls : list ((R * R) * list (R * R))) (saved : magcof) : outcome (list (list R) * magcof) :=
  match calls with
  | [] => Returns ([], saved)
  | (any, points) :: rest =>
      match eval_mlt any points saved with
      | Terminated => Terminated
      | Returns (mlts, saved) =>
          match mlt_session rest saved with
          | Terminated => Terminated
          | Returns (results, saved) => Returns (mlts :: results, saved)
          end
      end
  end.
