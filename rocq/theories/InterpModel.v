(** Model of include/interpolation.h and pymm_interp.h.

    Numbers are reals, NaN is [None]; an outer [None] stands for a read outside of an
    array. *)

From Coq Require Import Bool List ZArith Reals.
From Verif Require Import Ord ROrd BisectModel.
Import ListNotations.

(** include/interpolation.h:38, the CLIP macro *)
Definition clip (v v_min v_max : Z) : Z :=
  if Z.ltb v v_min then v_min else if Z.ltb v_max v then v_max else v.

(** include/interpolation.h:44-49; the basis functions [b] may be NaN *)
Record basis := { b_i0 : Z; b_i : Z; b_0 : option R; b_1 : option R }.

(** Arithmetic with NaN propagation *)
Definition nmap (f : R -> R) (a : option R) : option R :=
  match a with Some x => Some (f x) | None => None end.
Definition nmap2 (f : R -> R -> R) (a b : option R) : option R :=
  match a, b with Some x, Some y => Some (f x y) | _, _ => None end.

(** include/interpolation.h:69-77 *)
Definition get_interp0_basis (x : option R) (v : list R) : option basis :=
  let n := Z.of_nat (length v) in
  match bisect_right x v with
  | None => None
  | Some idx0 =>
      Some {| b_i0 := idx0; b_i := clip idx0 0 (n - 1); b_0 := Some 1%R; b_1 := None |}
  end.

(** include/interpolation.h:90-99 *)
Definition get_interp1_basis (x : option R) (v : list R) : option basis :=
  let n := Z.of_nat (length v) in
  match bisect_right x v with
  | None => None
  | Some idx0 =>
      let idx := clip idx0 0 (n - 2) in
      match aread v idx, aread v (idx + 1)%Z with
      | Some v0, Some v1 =>
          let alpha := nmap (fun y => (y - v0) / (v1 - v0))%R x in
          Some {| b_i0 := idx0; b_i := idx; b_0 := nmap (fun a => 1 - a)%R alpha; b_1 := alpha |}
      | _, _ => None
      end
  end.

(** include/interpolation.h:113-122 *)
Definition get_interp1d1_basis (x : option R) (v : list R) : option basis :=
  let n := Z.of_nat (length v) in
  match bisect_right x v with
  | None => None
  | Some idx0 =>
      let idx := clip idx0 0 (n - 2) in
      match aread v idx, aread v (idx + 1)%Z with
      | Some v0, Some v1 =>
          let alpha := (1 / (v1 - v0))%R in
          Some {| b_i0 := idx0; b_i := idx; b_0 := Some (- alpha)%R; b_1 := Some alpha |}
      | _, _ => None
      end
  end.

(** include/interpolation.h:128-130 *)
Definition interp0_eval (b : basis) (v : list R) : option (option R) :=
  match aread v (b_i b) with None => None | Some a => Some (Some a) end.

(** include/interpolation.h:136-138 *)
Definition interp1_eval (b : basis) (v : list R) : option (option R) :=
  match aread v (b_i b), aread v (b_i b + 1)%Z with
  | Some v0, Some v1 =>
      Some (nmap2 Rplus (nmap (fun w => w * v0)%R (b_0 b)) (nmap (fun w => w * v1)%R (b_1 b)))
  | _, _ => None
  end.

Inductive interp_kind := INTERP_C0 | INTERP_C1 | INTERP_C1D1.

(** pymm_interp.h:108-128 *)
Definition min_nt (kind : interp_kind) : nat :=
  match kind with INTERP_C0 => 1 | INTERP_C1 => 2 | INTERP_C1D1 => 2 end.
Definition get_interp_basis (kind : interp_kind) : option R -> list R -> option basis :=
  match kind with
  | INTERP_C0 => get_interp0_basis
  | INTERP_C1 => get_interp1_basis
  | INTERP_C1D1 => get_interp1d1_basis
  end.
Definition interp_eval (kind : interp_kind) : basis -> list R -> option (option R) :=
  match kind with INTERP_C0 => interp0_eval | _ => interp1_eval end.

(** t == t0[nt-1] *)
Definition is_last (t : option R) (t0 : list R) : option bool :=
  match aread t0 (Z.of_nat (length t0) - 1) with
  | None => None
  | Some a => Some (match t with Some y => Reqb y a | None => false end)
  end.

(** pymm_interp.h:228-246: one time and one series of values *)
Definition interp_one (t0 c0 : list R) (kind : interp_kind) (extrapolate : bool)
  (t : option R) : option (option R) :=
  match get_interp_basis kind t t0, is_last t t0 with
  | Some b, Some last =>
      if extrapolate || Z.eqb (b_i0 b) (b_i b) || last
      then interp_eval kind b c0
      else Some None
  | _, _ => None
  end.

(** interp(time, time0, coeff0, kind, extrapolate), pymm_interp.h:75-208, for a 1D array
    of times and a 2D array of coefficient series.  [Raised] is the ValueError. *)
Inductive outcome A := Raised | Returned (a : A).
Arguments Raised {A}.
Arguments Returned {A} a.

Definition interp (time : list (option R)) (time0 : list R) (coeff0 : list (list R))
  (kind : interp_kind) (extrapolate : bool) : outcome (list (list (option (option R)))) :=
  if forallb (fun c0 => length c0 =? length time0)%nat coeff0 &&
     (min_nt kind <=? length time0)%nat
  then Returned (map (fun t => map (fun c0 => interp_one time0 c0 kind extrapolate t) coeff0) time)
  else Raised.
