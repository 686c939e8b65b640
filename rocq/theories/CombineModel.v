(** Model of the sums of coefficient arrays evaluated at one time, magnetic_model/coefficients.py:324-337. *)

From Coq Require Import List ZArith Reals.
From Verif Require Import SparseModel.
Import ListNotations.

(** A cell of an array: [None] for a read outside of an array, [Some None] for NaN. *)
Definition cell_t := option (option R).
Definition cells := (list (cell_t * cell_t) * Z)%type.

Definition cell_plus (a b : cell_t) : cell_t :=
  match a, b with
  | Some (Some x), Some (Some y) => Some (Some (x + y)%R)
  | None, _ | _, None => None
  | _, _ => Some None
  end.
(** coeff[..., :item_coeff.shape[-2], :] += item_coeff *)
Fixpoint add_cells (base new : list (cell_t * cell_t)) : list (cell_t * cell_t) :=
  match base, new with
  | (a, b) :: base', (c, d) :: new' => (cell_plus a c, cell_plus b d) :: add_cells base' new'
  | _, [] => base
  | [], _ => []
  end.
(** coefficients.py:324-337, CombinedSHCoefficients.__call__ for one time, given the results of the items *)
Definition combine_cells (results : list cells) : cells :=
  let degree := fold_left Z.max (map snd results) 0%Z in
  (fold_left add_cells (map fst results)
     (repeat (Some (Some 0%R), Some (Some 0%R)) (Z.to_nat (coeff_size_z degree))), degree).
