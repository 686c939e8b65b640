(** Model of the quasi-dipole coordinates: LOADAPXSH and APXG2Q of qdipole/apexsh.f90, CONVRT of
    qdipole/apex.f90 and the subroutines of qdipole/eval_qdlatlon.f90.  The numbers of both
    precisions are real numbers; a time is [None] when it is not a number. *)

From Coq Require Import Bool List String Reals Arith.
From Verif Require Import ArrModel GeoModel QdSunModel QdMltModel QdBasisModel.
Import ListNotations.
Open Scope R_scope.

(** The content of a file of coefficients (apexsh.f90:176 and 178): the numbers of the epochs, the
    degrees, the orders and the powers, the length of the expansion, the epochs, and the
    coefficients by the term, the epoch and the coordinate.  The coordinates 3 to 5, of the
    inverse expansion, are not modelled. *)
Record apex_file := {
  nepoch : nat;
  nmax : nat;
  mmax : nat;
  lmax : nat;
  nterm : nat;
  epochgrid : nat -> R;
  coeff0 : nat -> nat -> nat -> R }.

(** The files which exist; those which cannot be opened or read to the end are [Some None]. *)
Definition files := string -> option (option apex_file).

(** apexsh.f90:255 *)
Definition ntermsh (f : apex_file) : nat := (mmax f * (2 * nmax f - mmax f + 1) + nmax f + 1)%nat.

(** The variables of apxshmodule (apexsh.f90:117-157) and the saved variables of LOADAPXSH
    (apexsh.f90:167-168) *)
Record apex := {
  loadflag : bool;
  datafilelast : string;
  epochlast : R;
  file : apex_file;             (* nepoch to nterm, epochgrid, coeff0 *)
  qcoeff0 : nat -> nat -> R;
  altlastq : R;
  v_h : R;
  v_Reph : R;
  polynomq : arr;
  xqcoeff : arr;
  yqcoeff : arr;
  zqcoeff : arr;
  arrays : sh_arrays }.

(** apexsh.f90:141-145; the decimals of pi are those of the number *)
Definition Req : R := 6378.1370.
Definition eps : R := 1 / 298.257223563.
Definition Re : R := Req * (1 - eps / 3).
Definition ecc2 : R := eps * (2 - eps).
Definition missing : R := -9999.
Definition dtor : R := PI / 180.

(** apexsh.f90:193-196: the search of the epoch, from [i] down *)
Fixpoint find_epoch (grid : nat -> R) (epoch : R) (i : nat) : nat :=
  match i with
  | O => O
  | S k => if Rle_dec epoch (grid i) then find_epoch grid epoch k else i
  end.

(** apexsh.f90:184-200: the indices and the weights of the epochs *)
Definition epoch_weights (f : apex_file) (epochnew : R) : (nat * R) * (nat * R) :=
  let epoch := epochnew in
  let epoch := if Rlt_dec epoch (epochgrid f 0%nat) then epochgrid f 0%nat else epoch in
  let epoch := if Rlt_dec (epochgrid f (nepoch f - 1)%nat) epoch then epochgrid f (nepoch f - 1)%nat else epoch in
  if Nat.eqb (nepoch f) 1 then ((0%nat, 1), (0%nat, 0))
  else
    let iepoch0 := find_epoch (epochgrid f) epoch (nepoch f - 1) in
    let iepoch1 := (iepoch0 + 1)%nat in
    let we0 := (epochgrid f iepoch1 - epoch) / (epochgrid f iepoch1 - epochgrid f iepoch0) in
    let we1 := 1 - we0 in
    ((iepoch0, we0), (iepoch1, we1)).

(** apexsh.f90:222-288, ALLOCATEARRAYS with the reading of the file (apexsh.f90:174-179).  The
    content of the arrays which are not set is [any]: the arrays are allocated again. *)
Definition allocate (any : apex) (f : apex_file) (st : apex) : apex :=
  {| loadflag := loadflag st; datafilelast := datafilelast st; epochlast := epochlast st;
     file := f; qcoeff0 := qcoeff0 any; altlastq := altlastq st; v_h := v_h st; v_Reph := v_Reph st;
     polynomq := upd (polynomq any) 0 1; xqcoeff := xqcoeff any; yqcoeff := yqcoeff any; zqcoeff := zqcoeff any;
     arrays := {| pvw := (fun _ _ => 0, fun _ _ => 0, fun _ _ => 0); a_sh := a_sh (arrays any);
                  a_shgradtheta := a_shgradtheta (arrays any); a_shgradphi := a_shgradphi (arrays any) |} |}.

(** apexsh.f90:183-209: the coefficients of the epoch.  Every element of qcoeff0 is assigned
    once. *)
Definition interpolate (epochnew : R) (st : apex) : apex :=
  let '((iepoch0, we0), (iepoch1, we1)) := epoch_weights (file st) epochnew in
  {| loadflag := loadflag st; datafilelast := datafilelast st; epochlast := epochlast st;
     file := file st;
     qcoeff0 := fun iterm icoord =>
       if Nat.ltb iterm (nterm (file st)) && Nat.ltb icoord 3 then
         we0 * coeff0 (file st) iterm iepoch0 icoord + we1 * coeff0 (file st) iterm iepoch1 icoord
       else qcoeff0 st iterm icoord;
     altlastq := -999.0; v_h := v_h st; v_Reph := v_Reph st; polynomq := polynomq st;
     xqcoeff := xqcoeff st; yqcoeff := yqcoeff st; zqcoeff := zqcoeff st; arrays := arrays st |}.

Definition Rneb (x y : R) : bool := if Req_EM_T x y then false else true.

(** apexsh.f90:161-218, LOADAPXSH.  A file which is missing or too short ends the process. *)
Definition loadapxsh (any : apex) (fs : files) (datafilenew : string) (epochnew : R) (st : apex) : outcome apex :=
  let newfile := negb (String.eqb datafilenew (datafilelast st)) || loadflag st in
  let loaded :=
    if newfile then
      match fs datafilenew with
      | Some (Some f) => Returns (allocate any f st)
      | _ => Terminated
      end
    else Returns st in
  match loaded with
  | Terminated => Terminated
  | Returns st =>
      let st := if Rneb epochnew (epochlast st) || newfile then interpolate epochnew st else st in
      Returns {| loadflag := false; datafilelast := datafilenew; epochlast := epochnew;
                 file := file st; qcoeff0 := qcoeff0 st; altlastq := altlastq st; v_h := v_h st; v_Reph := v_Reph st;
                 polynomq := polynomq st; xqcoeff := xqcoeff st; yqcoeff := yqcoeff st; zqcoeff := zqcoeff st;
                 arrays := arrays st |}
  end.

(** apexsh.f90:328-331 *)
Definition powers (rho : R) (lmax : nat) (polynomq : arr) : arr :=
  loop 1 lmax (fun l p => upd p l (p (l - 1)%nat * rho)) polynomq.

(** apexsh.f90:332-348, for one of the coordinates: the coefficients of the harmonics.  The loops
    are exchanged with the coordinates, the values are the same. *)
Definition height_coefficients (f : apex_file) (q : nat -> R) (polynomq : arr) : arr :=
  fun itermsh =>
    if Nat.ltb itermsh (ntermsh f) then
      loop 0 (lmax f) (fun l s => s + q (l * ntermsh f + itermsh)%nat * polynomq l) 0
    else 0.

(** apexsh.f90:325-350 *)
Definition set_height (alt : R) (st : apex) : apex :=
  let h := alt in
  let Reph := Re + h in
  let rho := Re / Reph in
  let p := powers rho (lmax (file st)) (polynomq st) in
  {| loadflag := loadflag st; datafilelast := datafilelast st; epochlast := epochlast st;
     file := file st; qcoeff0 := qcoeff0 st; altlastq := alt; v_h := h; v_Reph := Reph; polynomq := p;
     xqcoeff := height_coefficients (file st) (fun k => qcoeff0 st k 0%nat) p;
     yqcoeff := height_coefficients (file st) (fun k => qcoeff0 st k 1%nat) p;
     zqcoeff := height_coefficients (file st) (fun k => qcoeff0 st k 2%nat) p;
     arrays := arrays st |}.

(** The function DOT_PRODUCT, for the arrays of the length [n] *)
Definition dot_product (n : nat) (a b : arr) : R :=
  match n with
  | O => 0
  | S k => loop 0 k (fun i s => s + a i * b i) 0
  end.

Record base_vectors := { f11 : R; f12 : R; f21 : R; f22 : R; f_ : R }.

(** apexsh.f90:370-401: the base vectors.  [theta], [qlat] and [qlon] are in radians, r' is the
    second value of the variable r. *)
Definition apex_base (st : apex) (theta qlat qlon : R) : base_vectors :=
  let n := ntermsh (file st) in
  let gphi := a_shgradphi (arrays st) in
  let gtheta := a_shgradtheta (arrays st) in
  let cosqlon := cos qlon in
  let sinqlon := sin qlon in
  let cosqlat := cos qlat in
  let sinqlat := sin qlat in
  let xqgrad1 := dot_product n gphi (xqcoeff st) in
  let yqgrad1 := dot_product n gphi (yqcoeff st) in
  let zqgrad1 := dot_product n gphi (zqcoeff st) in
  let xqgrad2 := - dot_product n gtheta (xqcoeff st) in
  let yqgrad2 := - dot_product n gtheta (yqcoeff st) in
  let zqgrad2 := - dot_product n gtheta (zqcoeff st) in
  let costheta := cos theta in
  let Jtemp := 1 - ecc2 * costheta * costheta in
  let r := Req / sqrt Jtemp in
  let J := (v_h st + (1 - ecc2) * r / Jtemp) / v_Reph st in
  let r' := (v_h st + r) / v_Reph st in
  let qlatgrad1 := (- (cosqlon * xqgrad1 + sinqlon * yqgrad1) * sinqlat + cosqlat * zqgrad1) / r' in
  let qlatgrad2 := (- (cosqlon * xqgrad2 + sinqlon * yqgrad2) * sinqlat + cosqlat * zqgrad2) / J in
  let qlongrad1 := (- sinqlon * xqgrad1 + cosqlon * yqgrad1) / r' in
  let qlongrad2 := (- sinqlon * xqgrad2 + cosqlon * yqgrad2) / J in
  {| f11 := qlatgrad2; f12 := - qlatgrad1; f21 := - qlongrad2; f22 := qlongrad1;
     f_ := qlatgrad2 * qlongrad1 - - qlatgrad1 * - qlongrad2 |}.

Definition missing_base : base_vectors := {| f11 := missing; f12 := missing; f21 := missing; f22 := missing; f_ := missing |}.

Definition with_arrays (st : apex) (a : sh_arrays) : apex :=
  {| loadflag := loadflag st; datafilelast := datafilelast st; epochlast := epochlast st;
     file := file st; qcoeff0 := qcoeff0 st; altlastq := altlastq st; v_h := v_h st; v_Reph := v_Reph st;
     polynomq := polynomq st; xqcoeff := xqcoeff st; yqcoeff := yqcoeff st; zqcoeff := zqcoeff st; arrays := a |}.

(** apexsh.f90:292-405, APXG2Q: the latitude and the longitude, the base vectors and the new state.
    [out] is the content of qlatout and qlonout before the call. *)
Definition apxg2q (vecflag : bool) (glat glon alt : R) (out : R * R) (st : apex) : (R * R) * base_vectors * apex :=
  if loadflag st then (out, missing_base, st)
  else
    let st := if Rneb alt (altlastq st) then set_height alt st else st in
    let theta := (90 - glat) * dtor in
    let phi := glon * dtor in
    let st := with_arrays st (shcalc vecflag (nmax (file st)) (mmax (file st)) theta phi (arrays st)) in
    let n := ntermsh (file st) in
    let sh := a_sh (arrays st) in
    let xq := dot_product n sh (xqcoeff st) in
    let yq := dot_product n sh (yqcoeff st) in
    let zq := dot_product n sh (zqcoeff st) in
    let qlon := atan2 yq xq in
    let qlat := atan2 zq (sqrt (xq * xq + yq * yq)) in
    let base := if vecflag then apex_base st theta qlat qlon else missing_base in
    ((qlat / dtor, qlon / dtor), base, st).

(** apex.f90:704-720 *)
Definition REP : R := 6356.752.
Definition REQ : R := 6378.137.
Definition E2 : R := 1 - (REP / REQ) * (REP / REQ).
Definition E4 : R := E2 * E2.
Definition E6 : R := E4 * E2.
Definition E8 : R := E4 * E4.
Definition A21 : R := (512 * E2 + 128 * E4 + 60 * E6 + 35 * E8) / 1024.
Definition A22 : R := (E6 + E8) / 32.
Definition A23 : R := -3 * (4 * E6 + 3 * E8) / 256.
Definition A41 : R := - (64 * E4 + 48 * E6 + 35 * E8) / 1024.
Definition A42 : R := (4 * E4 + 2 * E6 + E8) / 16.
Definition A43 : R := 15 * E8 / 256.
Definition A44 : R := - E8 / 16.
Definition A61 : R := 3 * (4 * E6 + 5 * E8) / 1024.
Definition A62 : R := -3 * (E6 + E8) / 32.
Definition A63 : R := 35 * (4 * E6 + 3 * E8) / 768.
Definition A81 : R := -5 * E8 / 2048.
Definition A82 : R := 64 * E8 / 2048.
Definition A83 : R := -252 * E8 / 2048.
Definition A84 : R := 320 * E8 / 2048.

(** apex.f90:653-774, CONVRT with the flag 4: the geodetic latitude and the altitude of the
    geocentric latitude and distance; the decimals of RTOD and DTOR are those of 180 / PI and
    PI / 180 *)
Definition convrt4 (gclat rkm : R) : R * R :=
  let scl := sin (gclat * DTOR) in
  let ri := REQ / rkm in
  let a2 := ri * (A21 + ri * (A22 + ri * A23)) in
  let a4 := ri * (A41 + ri * (A42 + ri * (A43 + ri * A44))) in
  let a6 := ri * (A61 + ri * (A62 + ri * A63)) in
  let a8 := ri * (A81 + ri * (A82 + ri * (A83 + ri * A84))) in
  let ccl := sqrt (1 - scl * scl) in
  let s2cl := 2 * scl * ccl in
  let c2cl := 2 * ccl * ccl - 1 in
  let s4cl := 2 * s2cl * c2cl in
  let c4cl := 2 * c2cl * c2cl - 1 in
  let s8cl := 2 * s4cl * c4cl in
  let s6cl := s2cl * c4cl + c2cl * s4cl in
  let dltcl := s2cl * a2 + s4cl * a4 + s6cl * a6 + s8cl * a8 in
  let gdlat := dltcl * RTOD + gclat in
  let sgl := sin (gdlat * DTOR) in
  let alt := rkm * cos dltcl - REQ * sqrt (1 - E2 * sgl * sgl) in
  (gdlat, alt).

(** A point of the arrays: t_dy, gcrad, gclat, gclon *)
Record point := { t_dy : option R; gcrad : R; gclat : R; gclon : R }.

(** eval_qdlatlon.f90:78-95 and 114-136, the loops of both subroutines; [out] are the variables
    xqdlat and xqdlon, which are not initialised.  Every pass has an [any] content of the arrays
    which are allocated.  The comparison of the times is false with a time which is not a number;
    epoch_limit has the value of the one of eval_mlt.f90. *)
Fixpoint qd_loop (any : nat -> apex) (vecflag : bool) (fs : files) (coeff_file : string) (points : list point)
  (st : apex) (epoch_old : R) (out : R * R) : outcome (list ((R * R) * base_vectors) * apex) :=
  match points with
  | [] => Returns ([], st)
  | p :: rest =>
      let reloaded :=
        match t_dy p with
        | Some epoch =>
            if Rlt_dec epoch_limit (Rabs (epoch - epoch_old)) then
              match loadapxsh (any 0%nat) fs coeff_file epoch st with
              | Returns st => Returns (st, epoch)
              | Terminated => Terminated
              end
            else Returns (st, epoch_old)
        | None => Returns (st, epoch_old)
        end in
      match reloaded with
      | Terminated => Terminated
      | Returns (st, epoch_old) =>
          let '(gdlat, gdalt) := convrt4 (gclat p) (gcrad p) in
          let '(out, base, st) := apxg2q vecflag gdlat (gclon p) gdalt out st in
          match qd_loop (fun k => any (S k)) vecflag fs coeff_file rest st epoch_old out with
          | Terminated => Terminated
          | Returns (values, st) => Returns ((out, base) :: values, st)
          end
      end
  end.

(** What is not initialised in a call: the local variables and the allocated arrays *)
Record unset := { u_out : R * R; u_arrays : nat -> apex }.

(** eval_qdlatlon.f90:66-98 and 102-139: without and with the base vectors.  The subroutine
    without the vectors does not return the base vectors, here they are [missing]. *)
Definition eval_qdlatlon (any : unset) (vecflag : bool) (fs : files) (coeff_file : string) (points : list point)
  (st : apex) : outcome (list ((R * R) * base_vectors) * apex) :=
  qd_loop (u_arrays any) vecflag fs coeff_file points st (-9999.9) (u_out any).

(** The state at the start of the process: the initial values (apexsh.f90:155 and 167-168), and
    [any] of the other variables *)
Definition initial_apex (any : apex) : apex :=
  {| loadflag := true; datafilelast := EmptyString; epochlast := -999.0; file := file any; qcoeff0 := qcoeff0 any;
     altlastq := altlastq any; v_h := v_h any; v_Reph := v_Reph any; polynomq := polynomq any;
     xqcoeff := xqcoeff any; yqcoeff := yqcoeff any; zqcoeff := zqcoeff any; arrays := arrays any |}.

(** A call in a process, and a sequence of calls with the same files *)
Record call := { c_any : unset; c_vecflag : bool; c_file : string; c_points : list point }.

Fixpoint qd_session (fs : files) (calls : list call) (st : apex)
  : outcome (list (list ((R * R) * base_vectors)) * apex) :=
  match calls with
  | [] => Returns ([], st)
  | c :: rest =>
      match eval_qdlatlon (c_any c) (c_vecflag c) fs (c_file c) (c_points c) st with
      | Terminated => Terminated
      | Returns (values, st) =>
          match qd_session fs rest st with
          | Terminated => Terminated
          | Returns (results, st) => Returns (values :: results, st)
          end
      end
  end.
