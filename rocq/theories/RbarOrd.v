(** The real numbers with the two infinities as times (the idealisation of doubles with infinite values). *)

From Coq Require Import Bool Reals Lra.
From Coquelicot Require Import Rbar.
From Verif Require Import Ord ROrd.
Open Scope R_scope.

Definition Rbar_leb (a b : Rbar) : bool :=
  match a, b with
  | m_infty, _ => true
  | _, p_infty => true
  | Finite x, Finite y => Rleb x y
  | _, _ => false
  end.

#[export] Instance TOrd_Rbar : TOrd Rbar.
Proof.
  refine {| leb := Rbar_leb |}.
  - intros [x| |] [y| |]; cbn; rewrite ?Rleb_le; try (now left); try (now right); lra.
  - intros [x| |] [y| |] [z| |]; cbn; rewrite ?Rleb_le; try (now intros); try lra; intros; discriminate.
Defined.
#[export] Instance TInf_Rbar : TInf Rbar.
Proof. refine {| ninf := m_infty; pinf := p_infty |}; intros [x| |]; reflexivity. Defined.

Lemma le_Rbar_finite x y : le (Finite x) (Finite y) <-> x <= y.
Proof. rewrite <- leb_le. apply Rleb_le. Qed.
