(** The rates of a WMM file. *)
From Coq Require Import List ZArith Reals.
From Verif Require Import WmmModel WmmSpec.
Import ListNotations.
Open Scope R_scope.

(** The rate of the coefficient of degree [n] and order [m] per year: the columns of the secular variation; zero if the file has no such row *)
Definition wmm_rate (rows : list wmm_row) (n m : Z) (v : R) : Prop :=
  (exists r, In r rows /\ w_n r = n /\ w_m r = Z.abs m /\ ((0 <= m)%Z /\ v = w_dg r \/ (m < 0)%Z /\ v = w_dh r)) \/
  (forall r, In r rows -> ~ (w_n r = n /\ w_m r = Z.abs m)) /\ v = 0.
