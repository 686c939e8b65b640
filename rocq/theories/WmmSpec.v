(** Specification of the WMM files and of the coefficients they define. *)

From Coq Require Import List Ascii ZArith Reals.
From Verif Require Import TextModel TextSpec.
Import ListNotations.

(** A row of the file: degree, order, the cosine and sine coefficients and their rates per year *)
Record wmm_row := { w_n : Z; w_m : Z; w_g : R; w_h : R; w_dg : R; w_dh : R }.

Section Spec.
Variables (to_int : text -> option Z) (to_float : text -> option R).

Definition wmm_line (line : text) (r : wmm_row) : Prop :=
  exists a b c d e f more, has_fields line (a :: b :: c :: d :: e :: f :: more) /\
    to_int a = Some (w_n r) /\ to_int b = Some (w_m r) /\ to_float c = Some (w_g r) /\ to_float d = Some (w_h r) /\
    to_float e = Some (w_dg r) /\ to_float f = Some (w_dh r).
Definition last_line (line : text) : Prop :=
  exists f, has_fields line [f] /\ Forall (fun c => c = "9"%char) f.

(** The file: the header with the epoch, name and version, the rows, and optionally a line of nines, behind
    which anything can follow *)
Definition wmm_file (file : list text) (epoch : R) (rows : list wmm_row) : Prop :=
  exists header lines rest e name version more,
    file = header :: lines ++ rest /\ has_fields header (e :: name :: version :: more) /\ to_float e = Some epoch /\
    Forall2 wmm_line lines rows /\ (rest = [] \/ exists l r, rest = l :: r /\ last_line l).
End Spec.

(** one row for each degree and order *)
Definition proper_rows (rows : list wmm_row) : Prop :=
  (forall r, In r rows -> (0 <= w_m r <= w_n r)%Z) /\
  (forall i j a b, nth_error rows i = Some a -> nth_error rows j = Some b -> w_n a = w_n b -> w_m a = w_m b -> i = j).
(** some coefficient is not always zero *)
Definition some_nonzero (rows : list wmm_row) : Prop :=
  exists r, In r rows /\ (w_g r <> 0 \/ w_dg r <> 0 \/ (0 < w_m r)%Z /\ (w_h r <> 0 \/ w_dh r <> 0))%R.

(** The coefficient of degree n and order m, of the sine if m < 0, at the time given as a decimal year: the value at the
    epoch plus the rate times the elapsed years; zero if the file has no such row *)
Definition wmm_coefficient (epoch : R) (rows : list wmm_row) (n m : Z) (year v : R) : Prop :=
  (exists r, In r rows /\ w_n r = n /\ w_m r = Z.abs m /\
     ((0 <= m)%Z /\ v = w_g r + w_dg r * (year - epoch) \/ (m < 0)%Z /\ v = w_h r + w_dh r * (year - epoch))%R) \/
  (forall r, In r rows -> ~ (w_n r = n /\ w_m r = Z.abs m)) /\ v = 0%R.
