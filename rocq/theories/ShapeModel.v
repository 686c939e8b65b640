(** Model of the broadcasting of times and coordinates: magnetic_model/util.py:66-123.

    A NumPy array is the memory with the shape and the strides of the array: the address of the
    element (i, j, ...) is i*strides[0] + j*strides[1] + ... (relative to the first element). *)

From Coq Require Import Bool List ZArith.
From Verif Require Import CoefModel.
Import ListNotations.
Open Scope Z_scope.

Record sarr (A : Type) := { s_shape : list nat; s_strides : list Z; s_mem : Z -> A }.
Arguments s_shape {A}. Arguments s_strides {A}. Arguments s_mem {A}.

Fixpoint address (ix : list nat) (strides : list Z) : Z :=
  match ix, strides with
  | i :: ix', s :: strides' => Z.of_nat i * s + address ix' strides'
  | _, _ => 0
  end.
Definition s_get {A} (a : sarr A) (ix : list nat) : A := s_mem a (address ix (s_strides a)).
Definition ndim {A} (a : sarr A) : Z := Z.of_nat (length (s_shape a)).

(** shape[:k] of Python, k may be negative *)
Definition slice_to {B} (l : list B) (k : Z) : list B :=
  firstn (Z.to_nat (if k <? 0 then Z.of_nat (length l) + k else k)) l.
(** shape[:-1], shape[-1] *)
Definition shape_last (l : list nat) : result nat :=
  match rev l with [] => Err IndexError | d :: _ => Ok d end.

Fixpoint shape_eqb (a b : list nat) : bool :=
  match a, b with
  | [], [] => true
  | x :: a', y :: b' => Nat.eqb x y && shape_eqb a' b'
  | _, _ => false
  end.

(** numpy.lib.stride_tricks.as_strided: the same memory with another shape and other strides *)
Definition as_strided {A} (a : sarr A) (shape : list nat) (strides : list Z) : result (sarr A) :=
  if Nat.eqb (length shape) (length strides)
  then Ok {| s_shape := shape; s_strides := strides; s_mem := s_mem a |}
  else Err ValueError.

(** util.py:66-94.  Line 83 subscripts the integer coords.ndim, which raises TypeError, after
    the shape has been evaluated (line 79). *)
Definition reshape_times_and_coordinates {A B} (time : sarr A) (coords : sarr B) : result (sarr A * sarr B) :=
  let ndim_common := Z.min (ndim time) (ndim coords - 1) in
  let ndim_result := Z.max (ndim time) (ndim coords - 1) in
  if negb (shape_eqb (slice_to (s_shape time) ndim_common) (slice_to (s_shape coords) ndim_common))
  then Err ValueError
  else
    bind (if ndim coords - 1 <? ndim_result
          then bind (shape_last (s_shape coords)) (fun _ => Err TypeError)
          else Ok coords)
      (fun coords =>
         bind (if (0 <? ndim time) && (ndim time <? ndim_result)
               then as_strided time (slice_to (s_shape coords) (-1))
                      (s_strides time ++ repeat 0 (Z.to_nat (ndim_result - ndim_common)))
               else Ok time)
           (fun time => Ok (time, coords))).

(** util.py:104-123 *)
Definition reshape_array {A} (shape : list nat) (array : sarr A) : result (sarr A) :=
  let ndim_common := Z.min (Z.of_nat (length shape)) (ndim array) in
  if negb (shape_eqb (slice_to shape ndim_common) (slice_to (s_shape array) ndim_common))
     || (Z.of_nat (length shape) <? ndim array)
  then Err ValueError
  else if ndim array <? Z.of_nat (length shape)
  then as_strided array shape
         (s_strides array ++ repeat 0 (Z.to_nat (Z.of_nat (length shape) - ndim array)))
  else Ok array.
