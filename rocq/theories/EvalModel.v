(** Model of SphericalHarmomicGeomagneticModel.eval (magnetic_model/model.py:121-157):
    the selection of the components of a model by time.

    The evaluation of one component at one time and location is an arbitrary function
    [ev]; the batch evaluation of a component is its map over the elements (model.py
    198-220 iterates over the elements, shevaltemp is the subject of C21).  [None] as a
    result stands for the NaN vector. *)

From Coq Require Import Bool List.
From Verif Require Import Ord IntervalsModel CoefModel.
Import ListNotations.

Section Eval.
Context {T : Type} {OT : TOrd T} {C L F : Type}.
Variable ev : C -> option T -> L -> F.

(** model.py:131-132 *)
Definition comp_valid (x : interval T C) (t : option T) : bool :=
  nleb (istart x) t && nleb' t (iend x).

(** model.py:143-148, scalar time *)
Fixpoint eval_scalar (comps : list (interval T C)) (t : option T) (x : L) : option F :=
  match comps with
  | [] => None
  | c :: comps' => if comp_valid c t then Some (ev (iobj c) t x) else eval_scalar comps' t x
  end.

(** model.py:150-157, array of times *)
Definition eval_array (comps : list (interval T C)) (txs : list (option T * L))
  : list (option F) :=
  fold_left
    (fun result c =>
       let mask := map (fun tx => comp_valid c (fst tx)) txs in
       scatter (fun _ v => Some v) mask result
         (map (fun tx => ev (iobj c) (fst tx) (snd tx)) (select mask txs)))
    comps (map (fun _ => None) txs).

End Eval.
