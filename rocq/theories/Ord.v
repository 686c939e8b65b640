(** Times which are only compared: a decidable total preorder.

    The interval, validity and bisection code of the package only compares
    times.  IEEE doubles other than NaN compared with [<=] form a decidable
    total preorder (a preorder only, because of [-0.0 == 0.0]) with the bounds
    [-inf] and [+inf], so results proved for an arbitrary [TOrd] hold for the
    floating point numbers used by the code without any idealisation. *)

From Coq Require Import Bool ZArith Lia.

Class TOrd (T : Type) := {
  leb : T -> T -> bool;
  leb_total : forall a b, leb a b = true \/ leb b a = true;
  leb_trans : forall a b c, leb a b = true -> leb b c = true -> leb a c = true
}.

Definition ltb {T} `{TOrd T} (a b : T) : bool := negb (leb b a).
Definition le {T} `{TOrd T} (a b : T) : Prop := leb a b = true.
Definition lt {T} `{TOrd T} (a b : T) : Prop := leb b a = false.

(** Bounds [-inf] and [+inf]. *)
Class TInf (T : Type) `{TOrd T} := {
  ninf : T;
  pinf : T;
  ninf_least : forall a, leb ninf a = true;
  pinf_greatest : forall a, leb a pinf = true
}.

(** Python's [max]/[min] of two values: [max(a, b)] is [b] if [b > a] else [a]. *)
Definition tmax {T} `{TOrd T} (a b : T) : T := if ltb a b then b else a.
Definition tmin {T} `{TOrd T} (a b : T) : T := if ltb b a then b else a.

Section Facts.
Context {T : Type} `{TOrd T}.

Lemma le_refl (a : T) : le a a.
Proof. unfold le. destruct (leb_total a a); assumption. Qed.
Lemma le_trans (a b c : T) : le a b -> le b c -> le a c.
Proof. apply leb_trans. Qed.
Lemma lt_le (a b : T) : lt a b -> le a b.
Proof. unfold le, lt. destruct (leb_total a b) as [E|E]; congruence. Qed.
Lemma lt_le_trans (a b c : T) : lt a b -> le b c -> lt a c.
Proof.
  unfold le, lt. intros H1 H2. destruct (leb c a) eqn:E; [|reflexivity].
  rewrite <- H1. symmetry. eapply leb_trans; eauto.
Qed.
Lemma le_lt_trans (a b c : T) : le a b -> lt b c -> lt a c.
Proof.
  unfold le, lt. intros H1 H2. destruct (leb c a) eqn:E; [|reflexivity].
  rewrite <- H2. symmetry. eapply leb_trans; eauto.
Qed.
Lemma lt_trans (a b c : T) : lt a b -> lt b c -> lt a c.
Proof. intros H1 H2. eapply lt_le_trans; [exact H1|apply lt_le; exact H2]. Qed.
Lemma lt_irrefl (a : T) : lt a a -> False.
Proof. unfold lt. intro E. pose proof (le_refl a) as E2. unfold le in E2. congruence. Qed.
Lemma le_lt_absurd (a b : T) : le a b -> lt b a -> False.
Proof. unfold le, lt. congruence. Qed.
Lemma not_le (a b : T) : ~ le a b -> lt b a.
Proof. unfold le, lt. destruct (leb a b); congruence. Qed.
Lemma not_lt (a b : T) : ~ lt a b -> le b a.
Proof. unfold le, lt. destruct (leb b a); congruence. Qed.
Lemma le_or_lt (a b : T) : le a b \/ lt b a.
Proof. unfold le, lt. destruct (leb a b); auto. Qed.
Lemma ltb_lt (a b : T) : ltb a b = true <-> lt a b.
Proof. unfold ltb, lt. destruct (leb b a); simpl; split; congruence. Qed.
Lemma ltb_ge (a b : T) : ltb a b = false <-> le b a.
Proof. unfold ltb, le. destruct (leb b a); simpl; split; congruence. Qed.
Lemma leb_le (a b : T) : leb a b = true <-> le a b.
Proof. reflexivity. Qed.
Lemma leb_gt (a b : T) : leb a b = false <-> lt b a.
Proof. reflexivity. Qed.
Lemma le_tmax (a b c : T) : le (tmax a b) c <-> le a c /\ le b c.
Proof.
  unfold tmax. destruct (ltb a b) eqn:E.
  - apply ltb_lt in E. split; [|tauto]. intro L. split; [|exact L].
    eapply le_trans; [apply lt_le; exact E|exact L].
  - apply ltb_ge in E. split; [|tauto]. intro L. split; [exact L|].
    eapply le_trans; eauto.
Qed.
Lemma tmin_le (a b c : T) : le c (tmin a b) <-> le c a /\ le c b.
Proof.
  unfold tmin. destruct (ltb b a) eqn:E.
  - apply ltb_lt in E. split; [|tauto]. intro L. split; [|exact L].
    eapply le_trans; [exact L|apply lt_le; exact E].
  - apply ltb_ge in E. split; [|tauto]. intro L. split; [exact L|].
    eapply le_trans; eauto.
Qed.
Lemma lt_tmin (a b c : T) : lt c (tmin a b) <-> lt c a /\ lt c b.
Proof.
  unfold tmin. destruct (ltb b a) eqn:E.
  - apply ltb_lt in E. split; [|tauto]. intro L. split; [|exact L].
    eapply lt_trans; eauto.
  - apply ltb_ge in E. split; [|tauto]. intro L. split; [exact L|].
    eapply lt_le_trans; eauto.
Qed.
Lemma tmin_le_l (a b : T) : le (tmin a b) a.
Proof. apply (tmin_le a b (tmin a b)). apply le_refl. Qed.
Lemma tmin_le_r (a b : T) : le (tmin a b) b.
Proof. apply (tmin_le a b (tmin a b)). apply le_refl. Qed.
Lemma tmax_ge_l (a b : T) : le a (tmax a b).
Proof. apply (le_tmax a b (tmax a b)). apply le_refl. Qed.
Lemma tmax_ge_r (a b : T) : le b (tmax a b).
Proof. apply (le_tmax a b (tmax a b)). apply le_refl. Qed.
Lemma tmax_cases (a b : T) : tmax a b = a \/ tmax a b = b.
Proof. unfold tmax. destruct (ltb a b); auto. Qed.
Lemma tmin_cases (a b : T) : tmin a b = a \/ tmin a b = b.
Proof. unfold tmin. destruct (ltb b a); auto. Qed.
End Facts.

Global Opaque le lt.
Global Arguments ltb : simpl never.
Global Arguments leb : simpl never.
Global Arguments tmax : simpl never.
Global Arguments tmin : simpl never.

(** Decide goals about [le]/[lt] by saturating the hypotheses. *)
Ltac ord_bool :=
  repeat match goal with
  | H : leb _ _ = true |- _ => apply leb_le in H
  | H : leb _ _ = false |- _ => apply leb_gt in H
  | H : ltb _ _ = true |- _ => apply ltb_lt in H
  | H : ltb _ _ = false |- _ => apply ltb_ge in H
  | H : andb _ _ = true |- _ => apply andb_true_iff in H; destruct H
  | |- leb _ _ = true => apply leb_le
  | |- leb _ _ = false => apply leb_gt
  | |- ltb _ _ = true => apply ltb_lt
  | |- ltb _ _ = false => apply ltb_ge
  | |- andb _ _ = true => apply andb_true_iff; split
  end.

Ltac ord_neg :=
  match goal with
  | |- le ?a ?b => apply not_lt; intro
  | |- lt ?a ?b => apply not_le; intro
  | |- False => idtac
  | _ => exfalso
  end.

Ltac ord_fin :=
  match goal with
  | H : lt ?a ?a |- _ => exact (False_ind _ (lt_irrefl _ H))
  | H1 : le ?a ?b, H2 : lt ?b ?a |- _ => exact (False_ind _ (le_lt_absurd _ _ H1 H2))
  | H1 : lt ?a ?b, H2 : lt ?b ?a |- _ =>
      exact (False_ind _ (le_lt_absurd _ _ (lt_le _ _ H1) H2))
  end.

Ltac ord_step :=
  match goal with
  | H1 : lt ?a ?b, H2 : lt ?b ?c |- _ =>
      lazymatch goal with
      | _ : lt a c |- _ => fail
      | _ => pose proof (lt_trans _ _ _ H1 H2)
      end
  | H1 : lt ?a ?b, H2 : le ?b ?c |- _ =>
      lazymatch goal with
      | _ : lt a c |- _ => fail
      | _ => pose proof (lt_le_trans _ _ _ H1 H2)
      end
  | H1 : le ?a ?b, H2 : lt ?b ?c |- _ =>
      lazymatch goal with
      | _ : lt a c |- _ => fail
      | _ => pose proof (le_lt_trans _ _ _ H1 H2)
      end
  | H1 : le ?a ?b, H2 : le ?b ?c |- _ =>
      lazymatch goal with
      | _ : le a c |- _ => fail
      | _ : lt a c |- _ => fail
      | _ => lazymatch a with c => fail | _ => pose proof (le_trans _ _ _ H1 H2) end
      end
  end.

Ltac ord := cbv beta in *; ord_bool; ord_neg; solve [repeat (first [ord_fin | ord_step])].

(** The integers, used by the computable examples. *)
#[export] Instance TOrd_Z : TOrd Z.
Proof.
  refine {| leb := Z.leb |}; intros; rewrite ?Z.leb_le in *; lia.
Defined.

(** Integers extended with infinities, used by the computable examples. *)
Inductive Zx := ZNInf | ZFin (z : Z) | ZPInf.
Definition Zx_leb (a b : Zx) : bool :=
  match a, b with
  | ZNInf, _ => true
  | _, ZPInf => true
  | ZFin x, ZFin y => Z.leb x y
  | _, _ => false
  end.
#[export] Instance TOrd_Zx : TOrd Zx.
Proof.
  refine {| leb := Zx_leb |}.
  - intros [|a|] [|b|]; simpl; auto. rewrite !Z.leb_le. lia.
  - intros [|a|] [|b|] [|c|]; simpl; auto; try congruence. rewrite !Z.leb_le. lia.
Defined.
#[export] Instance TInf_Zx : TInf Zx.
Proof.
  refine {| ninf := ZNInf; pinf := ZPInf |}.
  - reflexivity.
  - intros [|a|]; reflexivity.
Defined.
Notation zf := ZFin.
