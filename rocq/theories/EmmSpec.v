(** Specification of the EMM files and of the coefficients they define. *)

From Coq Require Import List Ascii String ZArith Reals.
From Verif Require Import TextModel TextSpec.
Import ListNotations.
Open Scope list_scope.

(** A row of a file: degree, order and the cosine and sine coefficients *)
Record emm_row := { m_n : Z; m_m : Z; m_g : R; m_h : R }.

Section Spec.
Variables (to_int : text -> option Z) (to_float : text -> option R).

Definition emm_line (line : text) (r : emm_row) : Prop :=
  exists a b c d more, has_fields line (a :: b :: c :: d :: more) /\
    to_int a = Some (m_n r) /\ to_int b = Some (m_m r) /\ to_float c = Some (m_g r) /\ to_float d = Some (m_h r).

(** the last line of the header *)
Definition dash_line (line : text) : Prop := exists f, has_fields line [f] /\ Forall (fun c => c = "-"%char) f.
Definition epoch_line (line : text) (epoch : R) : Prop :=
  exists v, has_fields line [list_ascii_of_string "Epoch:"; v] /\ to_float v = Some epoch.
Definition other_line (line : text) : Prop := forall v, ~ has_fields line [list_ascii_of_string "Epoch:"; v].

(** The file: the header with the epoch (the last one, if there are more), a line of dashes and the rows *)
Definition emm_file (file : list text) (epoch : R) (rows : list emm_row) : Prop :=
  exists before line after dashes lines,
    file = before ++ line :: after ++ dashes :: lines /\
    Forall (fun l => ~ dash_line l /\ (other_line l \/ exists x, epoch_line l x)) before /\ epoch_line line epoch /\
    Forall (fun l => ~ dash_line l /\ other_line l) after /\ dash_line dashes /\ Forall2 emm_line lines rows.
(** The same without an epoch in the header *)
Definition emm_file_without_epoch (file : list text) (rows : list emm_row) : Prop :=
  exists before dashes lines,
    file = before ++ dashes :: lines /\ Forall (fun l => ~ dash_line l /\ other_line l) before /\ dash_line dashes /\
    Forall2 emm_line lines rows.
End Spec.

(** one row for each degree and order *)
Definition proper_emm (rows : list emm_row) : Prop :=
  (forall r, In r rows -> (0 <= m_m r <= m_n r)%Z) /\
  (forall i j a b, nth_error rows i = Some a -> nth_error rows j = Some b -> m_n a = m_n b -> m_m a = m_m b -> i = j).
(** The static coefficients start with those of the secular variation. *)
Definition same_rows (variable secvar : list emm_row) : Prop :=
  Forall2 (fun s v => m_n s = m_n v /\ m_m s = m_m v) variable secvar.
Definition nonzero_rows (rows : list emm_row) : Prop :=
  exists r, In r rows /\ (m_g r <> 0 \/ (0 < m_m r)%Z /\ m_h r <> 0)%R.

Definition of_order (r : emm_row) (n m : Z) (v : R) : Prop :=
  m_n r = n /\ m_m r = Z.abs m /\ ((0 <= m)%Z /\ v = m_g r \/ (m < 0)%Z /\ v = m_h r).

(** The coefficient of degree n and order m at a decimal year: the static value plus the rate times the elapsed years, or just
    the static value if there is no rate; zero if the files have no such row *)
Definition emm_coefficient (epoch : R) (variable constant secvar : list emm_row) (n m : Z) (year v : R) : Prop :=
  (exists i s w a b, nth_error variable i = Some s /\ nth_error secvar i = Some w /\ of_order s n m a /\ of_order w n m b /\
     v = (a + b * (year - epoch))%R) \/
  (exists s, In s constant /\ of_order s n m v) \/
  (forall s, In s (variable ++ constant) -> ~ (m_n s = n /\ m_m s = Z.abs m)) /\ v = 0%R.
