(** The rates of the IGRF and EMM files. *)
From Coq Require Import List ZArith Reals.
From Verif Require Import InterpSpec IgrfSpec EmmSpec.
Import ListNotations.
Open Scope R_scope.

(** The year is between the [k]-th time of the file and the next one; from the last time on *)
Definition in_span (times : list R) (k : nat) (year : R) : Prop :=
  (exists ta, nth_error times k = Some ta /\ ta <= year) /\ (forall tb, nth_error times (S k) = Some tb -> year <= tb).

(** The rate of the coefficient of degree [n] and order [m] per year in that span: the slope between the values at the two times, the predicted rate
    from the last time on; zero if the file has no such row *)
Definition igrf_rate (times : list R) (rows : list igrf_row) (k : nat) (n m : Z) (v : R) : Prop :=
  (exists r, In r rows /\ i_n r = n /\ i_m r = m /\
     ((exists ta ca tb cb, segment times (i_values r) k ta ca tb cb /\ v = (cb - ca) / (tb - ta)) \/ S k = length times /\ v = i_rate r)) \/
  (forall r, In r rows -> ~ (i_n r = n /\ i_m r = m)) /\ v = 0.

(** The rate of an EMM model: the value of the row of the second file; zero if it has no such row *)
Definition emm_rate (secvar : list emm_row) (n m : Z) (v : R) : Prop :=
  (exists w, In w secvar /\ of_order w n m v) \/ (forall w, In w secvar -> ~ (m_n w = n /\ m_m w = Z.abs m)) /\ v = 0.
