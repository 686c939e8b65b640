(** C arrays of doubles and for-loops.

    An array is a function from indices to numbers.  The theorems quantify over the
    initial content of the output arrays, so reading an element which was not written
    would show in the result, and they state which elements are left untouched. *)

From Coq Require Import List Reals Arith.

Definition arr := nat -> R.

(** a[i] = v *)
Definition upd {A} (a : nat -> A) (i : nat) (v : A) : nat -> A :=
  fun k => if Nat.eqb k i then v else a k.

(** for (i = lo; i <= hi; ++i) s = body(i, s) *)
Definition loop {S : Type} (lo hi : nat) (body : nat -> S -> S) (s : S) : S :=
  fold_left (fun s i => body i s) (seq lo (Datatypes.S hi - lo)) s.
