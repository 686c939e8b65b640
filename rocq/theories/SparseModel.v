(** Model of the sparse coefficients of magnetic_model/coefficients.py:341-531. *)

From Coq Require Import Bool List ZArith Arith.
From Verif Require Import Ord CoefModel.
Import ListNotations.
Open Scope Z_scope.

(** magnetic_model/util.py:45-47, integer division *)
Definition coeff_size_z (degree : Z) : Z := ((degree + 2) * (degree + 1)) / 2.

(** coefficients.py:355-358: the position of the coefficient of degree n and order m *)
Definition index_of (n m : Z) : Z * Z :=
  (Z.abs m + n * (n + 1) / 2, if m <? 0 then 1 else 0).

Section Sparse.
Context {C V : Type}.         (* stored coefficient (a series), evaluated coefficient *)
Variable vzero : V.

(** A coefficient with its degree and order; [C] is one element of the coefficient
    array, i.e., one row of it for time series. *)
Record entry := { e_n : Z; e_m : Z; e_c : C }.

(** coefficients.py:349-359; [None] is the ValueError of max()/min() of an empty array. *)
Record sparse := { s_entries : list entry; s_degree : Z; s_min_degree : Z }.
Definition mk_sparse (entries : list entry) : option sparse :=
  match entries with
  | [] => None
  | e :: rest =>
      Some {| s_entries := entries;
              s_degree := fold_left (fun d x => Z.max d (e_n x)) rest (e_n e);
              s_min_degree := fold_left (fun d x => Z.min d (e_n x)) rest (e_n e) |}
  end.

(** coefficients.py:369-402; the coefficients, the nm array and the index array are kept
    together in the entries. *)
Definition subset_degree (s : sparse) (min_degree max_degree : Z) : Z * list entry :=
  let max_degree := if max_degree <? 0 then s_degree s else max_degree in
  let min_degree := if min_degree <? 0 then s_min_degree s else min_degree in
  if (s_min_degree s <? min_degree) || (max_degree <? s_degree s)
  then
    let sel := filter (fun e => (e_n e <=? max_degree) && (min_degree <=? e_n e)) (s_entries s) in
    match sel with
    | [] => (0, [])
    | e :: rest => (fold_left (fun d x => Z.max d (e_n x)) rest (e_n e), sel)
    end
  else (s_degree s, s_entries s).

(** Assignment of one cell of the full array; [None] is an IndexError.  Negative row
    indices do not occur (the rows are not negative for n >= 0). *)
Fixpoint set_row {A} (l : list A) (k : nat) (f : A -> A) : option (list A) :=
  match l, k with
  | [], _ => None
  | x :: l', O => Some (f x :: l')
  | x :: l', S k' => match set_row l' k' f with None => None | Some r => Some (x :: r) end
  end.
Definition set_cell (full : list (V * V)) (rc : Z * Z) (v : V) : option (list (V * V)) :=
  let '(row, col) := rc in
  if row <? 0 then None
  else set_row full (Z.to_nat row) (fun r => if col =? 0 then (v, snd r) else (fst r, v)).

(** coeff_full[..., index[:, 0], index[:, 1]] = values: the elements are assigned in
    the order of the index. *)
Fixpoint assign_cells (full : list (V * V)) (cells : list ((Z * Z) * V)) : option (list (V * V)) :=
  match cells with
  | [] => Some full
  | (rc, v) :: rest =>
      match set_cell full rc v with None => None | Some full' => assign_cells full' rest end
  end.

(** coefficients.py:469-479 for one time; [val] is the interpolation at the time. *)
Definition sparse_call (s : sparse) (val : C -> V) (min_degree max_degree : Z)
  : option (list (V * V) * Z) :=
  let '(degree, entries) := subset_degree s min_degree max_degree in
  match assign_cells (repeat (vzero, vzero) (Z.to_nat (coeff_size_z degree)))
          (map (fun e => (index_of (e_n e) (e_m e), val (e_c e))) entries) with
  | None => None
  | Some full => Some (full, degree)
  end.

End Sparse.

Section TimeDependent.
Context {T : Type} {OT : TOrd T} {V : Type}.

(** numpy's argsort; replaced by a stable sort, which gives the same result for
    distinct times *)
Definition argsort (times : list T) : list nat :=
  map snd (sort_by (fun a b => leb (fst a) (fst b)) (combine times (seq 0 (length times)))).

(** a[order] *)
Fixpoint gather {A} (l : list A) (order : list nat) : option (list A) :=
  match order with
  | [] => Some []
  | k :: order' =>
      match nth_error l k, gather l order' with
      | Some x, Some r => Some (x :: r)
      | _, _ => None
      end
  end.

Fixpoint all_some {A} (l : list (option A)) : option (list A) :=
  match l with
  | [] => Some []
  | Some x :: l' => match all_some l' with Some r => Some (x :: r) | None => None end
  | None :: _ => None
  end.

(** coefficients.py:412-459: SparseSHCoefficientsTimeDependent(indices, coefficients,
    times, spline_order, validity_start, validity_end, to_mjd2000).
    [coefficients] has one series for each index.  [None]: an exception is raised. *)
Record time_dependent := {
  td_sparse : @sparse (list V);
  td_validity : T * T;
  td_times : list T;
  td_order : Z
}.

Definition mk_time_dependent (indices : list (Z * Z)) (coefficients : list (list V))
  (times : list T) (spline_order : Z) (vstart vend : option T) (to_mjd2000 : T -> T)
  : option time_dependent :=
  if (length indices =? length coefficients)%nat &&                  (* 427-431 *)
     forallb (fun c => length c =? length times)%nat coefficients    (* 433-437 *)
  then
    let order := argsort times in                                    (* 440 *)
    match gather times order, all_some (map (fun c => gather c order) coefficients) with
    | Some times', Some coefficients' =>
        match times', last times' with
        | first :: _, last_of =>
            let entries := map (fun x => {| e_n := fst (fst x); e_m := snd (fst x); e_c := snd x |})
                             (combine indices coefficients') in
            match mk_sparse entries with                             (* 448 *)
            | None => None
            | Some s =>
                if (spline_order =? 1) || (spline_order =? 2)        (* 453-459 *)
                then Some {|
                  td_sparse := s;
                  td_validity :=                                     (* 445-446, 59-79 *)
                    (to_mjd2000 (match vstart with Some x => x | None => first end),
                     to_mjd2000 (match vend with Some x => x | None => last_of first end));
                  td_times := map to_mjd2000 times';                 (* 450 *)
                  td_order := spline_order |}
                else None
            end
        | [], _ => None                                              (* 445, IndexError *)
        end
    | _, _ => None
    end
  else None.

End TimeDependent.
