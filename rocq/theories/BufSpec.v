(** Specification of the buffers of the evaluation. *)

From Coq Require Import List Reals Arith.
From Verif Require Import ShEvalModel BufModel.
Import ListNotations.

(** [b] has [n] elements, all of them with a value, those of [a]. *)
Definition initialised {A} (n : nat) (b : buf A) (a : nat -> A) : Prop :=
  bf_size b = n /\ forall k, (k < n)%nat -> bf_cell b k = Some (a k).

(** [cb] is the array of the sets of coefficients [cn], [n] pairs in each set. *)
Definition coef_buffers (n : nat) (cb : nd (buf (R * R))) (cn : nd coefs) : Prop :=
  dims cb = dims cn /\
  forall idx, Forall2 (fun i d => (i < d)%nat) idx (dims cn) -> initialised n (get cb idx) (get cn idx).
