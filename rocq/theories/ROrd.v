(** The real numbers as times (the idealisation of doubles used where the code does
    arithmetic on times). *)

From Coq Require Import Bool Reals Lra.
From Verif Require Import Ord.
Open Scope R_scope.

Definition Rleb (a b : R) : bool := if Rle_dec a b then true else false.
Definition Rltb (a b : R) : bool := if Rlt_dec a b then true else false.
Definition Reqb (a b : R) : bool := if Req_EM_T a b then true else false.

Lemma Rleb_le a b : Rleb a b = true <-> a <= b.
Proof. unfold Rleb. destruct (Rle_dec a b); split; auto; discriminate. Qed.
Lemma Rleb_gt a b : Rleb a b = false <-> b < a.
Proof. unfold Rleb. destruct (Rle_dec a b); split; try discriminate; intros; auto; lra. Qed.
Lemma Rltb_lt a b : Rltb a b = true <-> a < b.
Proof. unfold Rltb. destruct (Rlt_dec a b); split; auto; discriminate. Qed.
Lemma Rltb_ge a b : Rltb a b = false <-> b <= a.
Proof. unfold Rltb. destruct (Rlt_dec a b); split; try discriminate; intros; auto; lra. Qed.
Lemma Reqb_eq a b : Reqb a b = true <-> a = b.
Proof. unfold Reqb. destruct (Req_EM_T a b); split; auto; discriminate. Qed.
Lemma Reqb_neq a b : Reqb a b = false <-> a <> b.
Proof. unfold Reqb. destruct (Req_EM_T a b); split; auto; congruence. Qed.

#[export] Instance TOrd_R : TOrd R.
Proof.
  refine {| leb := Rleb |}; intros; rewrite ?Rleb_le in *; lra.
Defined.

Lemma le_R (a b : R) : le a b <-> a <= b.
Proof. rewrite <- leb_le. apply Rleb_le. Qed.
Lemma lt_R (a b : R) : lt a b <-> a < b.
Proof. rewrite <- leb_gt. apply Rleb_gt. Qed.
