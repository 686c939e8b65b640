(** Model of the evaluation of time series of coefficients at one time,
    magnetic_model/coefficients.py:469-510. *)

From Coq Require Import Bool List ZArith Reals.
From Verif Require Import Ord ROrd BisectModel InterpModel SparseModel.
Import ListNotations.

(** coefficients.py:453-457 *)
Definition td_kind (order : Z) : interp_kind := if (order =? 1)%Z then INTERP_C0 else INTERP_C1.

(** coefficients.py:469-479, SparseSHCoefficientsTimeDependent.__call__ for one time;
    [convert] is the time conversion of the decimal year sets (513-531), the identity
    otherwise.  [None] is the ValueError of interp (pymm_interp.h:171-179).  The cells
    are [None] for a read outside of an array and [Some None] for NaN. *)
Definition td_call (td : @time_dependent R R) (convert : R -> R) (t : option R)
  (min_degree max_degree : Z) : option (list (option (option R) * option (option R)) * Z) :=
  let kind := td_kind (td_order td) in
  if (min_nt kind <=? length (td_times td))%nat then
    sparse_call (Some (Some 0%R)) (td_sparse td)
      (fun c => interp_one (td_times td) c kind true (nmap convert t)) min_degree max_degree
  else None.

Section Constant.
Context {T : Type} {OT : TOrd T} {OI : TInf T} {V : Type}.

(** coefficients.py:482-510, SparseSHCoefficientsConstant: a series with the single time
    -inf, so a single value per coefficient.  Here times are only compared, so they can be any ordered
    type with infinite bounds.  The check of the shapes is that of [mk_time_dependent]. *)
Definition mk_constant (indices : list (Z * Z)) (coefficients : list V) (vstart vend : option T)
  (to_mjd2000 : T -> T) : option (@time_dependent T V) :=
  mk_time_dependent indices (map (fun v => [v]) coefficients) [ninf] 1
    (Some (match vstart with Some x => x | None => ninf end))
    (Some (match vend with Some x => x | None => pinf end)) to_mjd2000.

(** Piecewise constant interpolation with extrapolation, include/interpolation.h:69-77
    and 128-130, for times which are only compared. *)
Definition interp0_series (times : list T) (c : list V) (t : option T) : option V :=
  match bisect_right t times with
  | None => None
  | Some i => aread c (clip i 0 (Z.of_nat (length times) - 1))
  end.

(** coefficients.py:469-479 for a constant set *)
Definition constant_call (vzero : V) (td : @time_dependent T V) (t : option T)
  (min_degree max_degree : Z) : option (list (option V * option V) * Z) :=
  sparse_call (Some vzero) (td_sparse td)
    (fun c => interp0_series (td_times td) c t) min_degree max_degree.

End Constant.
