(** Model of include/interpolation.h and pymm_interp.h with IEEE 754 double precision
    arithmetic (round to nearest even, from Flocq) instead of the real numbers of
    [InterpModel].

    Every operation on doubles is rounded; the comparisons are exact.  The operations are
    not contracted to fused multiply-adds.  The exponent range of [rnd] is not bounded from
    above: the theorems hold as long as there is no overflow.  NaN is [None]; an outer
    [None] stands for a read outside of an array. *)

From Coq Require Import Bool List ZArith Reals.
From Verif Require Import Ord ROrd BisectModel InterpModel SizeModel.
Open Scope R_scope.

(** include/interpolation.h:90-99 *)
Definition get_interp1_basis_fl (x : option R) (v : list R) : option basis :=
  let n := Z.of_nat (length v) in
  match bisect_right x v with
  | None => None
  | Some idx0 =>
      let idx := clip idx0 0 (n - 2) in
      match aread v idx, aread v (idx + 1)%Z with
      | Some v0, Some v1 =>
          let alpha := nmap (fun y => rnd (rnd (y - v0) / rnd (v1 - v0))) x in
          Some {| b_i0 := idx0; b_i := idx; b_0 := nmap (fun a => rnd (1 - a)) alpha; b_1 := alpha |}
      | _, _ => None
      end
  end.

(** include/interpolation.h:113-122 *)
Definition get_interp1d1_basis_fl (x : option R) (v : list R) : option basis :=
  let n := Z.of_nat (length v) in
  match bisect_right x v with
  | None => None
  | Some idx0 =>
      let idx := clip idx0 0 (n - 2) in
      match aread v idx, aread v (idx + 1)%Z with
      | Some v0, Some v1 =>
          let alpha := rnd (1 / rnd (v1 - v0)) in
          Some {| b_i0 := idx0; b_i := idx; b_0 := Some (- alpha); b_1 := Some alpha |}
      | _, _ => None
      end
  end.

(** include/interpolation.h:136-138 *)
Definition interp1_eval_fl (b : basis) (v : list R) : option (option R) :=
  match aread v (b_i b), aread v (b_i b + 1)%Z with
  | Some v0, Some v1 =>
      Some (nmap2 (fun p q => rnd (p + q))
              (nmap (fun w => rnd (w * v0)) (b_0 b)) (nmap (fun w => rnd (w * v1)) (b_1 b)))
  | _, _ => None
  end.

(** pymm_interp.h:108-128; the piecewise constant kind (include/interpolation.h:69-77,
    128-130) has no arithmetic of doubles *)
Definition get_interp_basis_fl (kind : interp_kind) : option R -> list R -> option basis :=
  match kind with
  | INTERP_C0 => get_interp0_basis
  | INTERP_C1 => get_interp1_basis_fl
  | INTERP_C1D1 => get_interp1d1_basis_fl
  end.
Definition interp_eval_fl (kind : interp_kind) : basis -> list R -> option (option R) :=
  match kind with INTERP_C0 => interp0_eval | _ => interp1_eval_fl end.

(** pymm_interp.h:228-246: one time and one series of values *)
Definition interp_one_fl (t0 c0 : list R) (kind : interp_kind) (extrapolate : bool)
  (t : option R) : option (option R) :=
  match get_interp_basis_fl kind t t0, is_last t t0 with
  | Some b, Some last =>
      if extrapolate || Z.eqb (b_i0 b) (b_i b) || last
      then interp_eval_fl kind b c0
      else Some None
  | _, _ => None
  end.

(** interp(time, time0, coeff0, kind, extrapolate), pymm_interp.h:75-208 *)
Definition interp_fl (time : list (option R)) (time0 : list R) (coeff0 : list (list R))
  (kind : interp_kind) (extrapolate : bool) : outcome (list (list (option (option R)))) :=
  if forallb (fun c0 => length c0 =? length time0)%nat coeff0 &&
     (min_nt kind <=? length time0)%nat
  then Returned (map (fun t => map (fun c0 => interp_one_fl time0 c0 kind extrapolate t) coeff0) time)
  else Raised.
