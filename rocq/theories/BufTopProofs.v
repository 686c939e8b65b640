(** Calls of sheval with buffers. *)

From Coq Require Import Bool List Reals Arith ZArith Lia Lra.
From Verif Require Import ArrModel LegendreModel LegendreSpec LoopProofs GeoModel SizeModel SizeProofs CoefModel ShEvalModel BufModel BufSpec BufProofs BufEvalProofs.
Import ListNotations.
Open Scope R_scope.

Lemma initialised_holds {A} n n' (b : buf A) a : initialised n b a -> (n' <= n)%nat -> holds b n' a.
Proof.
  intros (E & H) L k Hk. unfold rd. rewrite E. destruct (Nat.ltb_spec k n); [apply H; lia|lia].
Qed.

Lemma T_double n : (2 * Z.of_nat (T n) = Z.of_nat n * (Z.of_nat n + 1))%Z.
Proof. induction n as [|n IH]; [reflexivity|]. rewrite T_S. nia. Qed.

Lemma set_fits csize d : (0 <= csize < 2 ^ 50)%Z -> (0 <= size_to_degree csize)%Z ->
  (Z.of_nat d <= size_to_degree csize)%Z -> (T (S d) <= Z.to_nat csize)%nat.
Proof.
  intros Hc H0 Hd. set (m := size_to_degree csize) in *.
  assert (M : ((m + 1) * (m + 2) <= 2 * csize < (m + 2) * (m + 3))%Z). { apply (degree_fits csize m); [lia|lia|reflexivity]. }
  pose proof (T_double (S d)). nia.
Qed.

Lemma positive_degree csize : (3 <= csize < 2 ^ 50)%Z -> (1 <= size_to_degree csize)%Z.
Proof.
  intro H. destruct (degree_exists csize ltac:(lia)) as (d & Hd & E). rewrite (size_to_degree_spec d csize Hd E) by lia. nia.
Qed.
Lemma zero_degree csize : (1 <= csize <= 2)%Z -> size_to_degree csize = 0%Z.
Proof. intro H. apply size_to_degree_spec; lia. Qed.
Lemma no_degree : size_to_degree 0 = (-1)%Z.
Proof. apply size_to_degree_spec; lia. Qed.
Lemma any_degree csize : (1 <= csize < 2 ^ 50)%Z -> (0 <= size_to_degree csize)%Z.
Proof.
  intro H. destruct (degree_exists csize ltac:(lia)) as (d & Hd & E). rewrite (size_to_degree_spec d csize Hd E) by lia. nia.
Qed.

Lemma sheval_safe x csize cb cn ct_in ct_out mode internal deg sp sg mem :
  (0 <= csize < 2 ^ 50)%Z -> coef_buffers (Z.to_nat csize) cb cn -> deg <> 0%Z -> csize = 0%Z \/ (3 <= csize)%Z ->
  b_sheval x csize cb ct_in ct_out mode internal deg sp sg = Some (sheval x csize cn ct_in ct_out mode internal deg sp sg mem).
Proof.
  intros Hc (Dc & HC) Hd Hs. unfold b_sheval, sheval.
  destruct (Z.ltb_spec (size_to_degree csize) 0); [reflexivity|].
  destruct Hs as [->|Hs]; [rewrite no_degree in *; lia|]. pose proof (positive_degree csize ltac:(lia)) as P.
  destruct (_ && _); [reflexivity|].
  set (dg := if (deg <? 0)%Z || (size_to_degree csize <? deg)%Z then size_to_degree csize else deg).
  assert (B : (1 <= dg <= size_to_degree csize)%Z).
  { unfold dg. destruct (Z.ltb_spec deg 0); cbn [orb]; [lia|]. destruct (Z.ltb_spec (size_to_degree csize) deg); lia. }
  rewrite <- Dc. set (odims := if Nat.ltb (length (dims x)) (length (dims cb)) then dims cb else dims x).
  destruct (compare_dimensions odims (dims x) || compare_dimensions odims (dims cb)) eqn:C; [reflexivity|].
  apply orb_false_iff in C. destruct C as (_ & C).
  destruct sg as [[s0 s1] s2]. destruct mem as [[[[[m_lp m_ldp] m_lcs] m_rrp] m_ps] m_rs]. cbn [model_init].
  destruct (init_safe (Z.to_nat dg) m_lp m_ldp m_lcs m_rrp m_ps m_rs) as (sb & -> & K).
  match goal with |- context [b_sheval_items ?c1 mode odims x cb sb] =>
    match goal with |- context [sheval_items ?c2 mode odims x cn ?s0] =>
    destruct (items_safe c1 c2 mode) with (odims := odims) (x := x) (cob := cb) (co := cn) (sb := sb) (s := s0) as (sb' & E & _) end end.
  - repeat split.
  - cbn [degree]. lia.
  - exact C.
  - unfold odims. destruct (Nat.ltb_spec (length (dims x)) (length (dims cb))); lia.
  - cbn [degree]. split; [exact Dc|]. intros ix Hx. rewrite Dc in Hx. apply (initialised_holds (Z.to_nat csize)); [now apply HC|].
    apply set_fits; lia.
  - cbn [degree psqrt prsqrt]. exact K.
  - rewrite E. reflexivity.
Qed.

Lemma items_overrun c mode : degree c = 0%nat -> forall odims x cob sb,
  bf_size (bs_lp sb) = 1%nat -> bs_clat_last sb = None -> Forall (fun d => (0 < d)%nat) odims ->
  b_sheval_items c mode odims x cob sb = None.
Proof.
  intros Hd. induction odims as [|d ds IH]; intros x cob sb L N F; cbn [b_sheval_items].
  - unfold b_model_eval. destruct (get x []) as [[a b] e]. destruct (input_coordinates c a b e) as [[[clat clon] crad] glat].
    rewrite N. cbn [neq_last]. rewrite Hd. unfold b_legendre. cbn [Nat.leb orb]. cbv zeta. unfold b_legendre_low, wr.
    rewrite L. cbn [Nat.ltb Nat.leb bf_size]. rewrite ?L. reflexivity.
  - inversion F as [|d' ds' Hd' F' E1]. subst. destruct d as [|d]; [lia|]. cbn [seq]. rewrite IH by assumption. reflexivity.
Qed.

Lemma sheval_overrun x csize cb ct_in ct_out mode internal deg sp sg :
  (1 <= csize < 2 ^ 50)%Z -> deg = 0%Z \/ (csize <= 2)%Z ->
  (forall odims, odims = dims x \/ odims = dims cb -> Forall (fun d => (0 < d)%nat) odims) ->
  let odims := if Nat.ltb (length (dims x)) (length (dims cb)) then dims cb else dims x in
  compare_dimensions odims (dims x) = false -> compare_dimensions odims (dims cb) = false ->
  b_sheval x csize cb ct_in ct_out mode internal deg sp sg = None.
Proof.
  intros Hc Hz Hp odims C1 C2. unfold b_sheval. fold odims. rewrite C1, C2. cbn [orb].
  pose proof (any_degree csize Hc) as P. destruct (Z.ltb_spec (size_to_degree csize) 0); [lia|].
  assert (G : (2147483647 <? size_to_degree csize)%Z && (deg <? 0)%Z = false).
  { destruct Hz as [->|Hz]; [now rewrite andb_false_r|]. rewrite zero_degree by lia. reflexivity. }
  rewrite G. clear G.
  assert (D : (if (deg <? 0)%Z || (size_to_degree csize <? deg)%Z then size_to_degree csize else deg) = 0%Z).
  { destruct Hz as [->|Hz]; [destruct (Z.ltb_spec (size_to_degree csize) 0); [lia|reflexivity]|].
    rewrite zero_degree by lia. destruct (Z.ltb_spec deg 0), (Z.ltb_spec 0 deg); cbn [orb]; lia. }
  rewrite D. destruct sg as [[s0 s1] s2]. destruct (init_safe (Z.to_nat 0) (fun _ => 0) (fun _ => 0) (fun _ => (0, 0)) (fun _ => 0) (fun _ => 0) (fun _ => 0)) as (sb & E & K).
  rewrite E. destruct K as (Ea & _ & _ & _ & _ & (_ & L & _) & _).
  rewrite items_overrun; [reflexivity|reflexivity| |exact Ea|].
  - rewrite L. reflexivity.
  - apply Hp. unfold odims. destruct (Nat.ltb _ _); tauto.
Qed.

(** the calls of an evaluation without buffers *)
Lemma evals_safe c mode : (1 <= degree c)%nat -> forall (items : list ((R * R * R) * coefs)) bufs sb s ps rs,
  Forall2 (fun it ib => fst ib = fst it /\ holds (snd ib) (T (S (degree c))) (snd it)) items bufs ->
  kept (degree c) sb s ps rs -> exists out, b_evals c mode bufs sb = Some out.
Proof.
  intro Hd. intros items bufs sb s ps rs H. revert sb s. induction H as [|[xyz co] [xyz' cb] items bufs (E & H) _ IH]; intros sb s K.
  - eexists. reflexivity.
  - cbn [fst snd] in E, H. subst xyz'. cbn [b_evals].
    set (c' := {| is_internal := is_internal c; degree := degree c; coord_in := coord_in c; coord_out := coord_out c; elps_a := elps_a c;
      elps_eps2 := elps_eps2 c; crad_ref := crad_ref c; scale_potential := scale_potential c; scale_gradient0 := scale_gradient0 c;
      scale_gradient1 := scale_gradient1 c; scale_gradient2 := scale_gradient2 c; psqrt := ps; prsqrt := rs |}).
    destruct (model_eval_safe c c' mode xyz cb co sb s) as (sb' & -> & K'); [unfold c'; repeat split|exact Hd|exact H|exact K|].
    cbv beta iota. destruct (IH sb' _ K') as (out & ->). eexists. reflexivity.
Qed.

Lemma workspace_safe c mode st items : (1 <= degree c)%nat -> b_model_init (degree c) = Some st ->
  Forall (fun it => exists a, initialised (nm_size (degree c)) (snd it) a) items ->
  exists out, b_evals c mode items st = Some out.
Proof.
  intros Hd Hi H.
  assert (G : exists its : list ((R * R * R) * coefs),
    Forall2 (fun it ib => fst ib = fst it /\ holds (snd ib) (T (S (degree c))) (snd it)) its items).
  { induction H as [|[xyz b] items (a & Ha) _ (its & IH)]; [exists []; constructor|]. exists ((xyz, a) :: its). constructor; [|exact IH].
    split; [reflexivity|]. cbn [snd]. rewrite <- T_size. eapply initialised_holds; [exact Ha|lia]. }
  destruct G as (its & G).
  destruct (init_safe (degree c) (fun _ => 0) (fun _ => 0) (fun _ => (0, 0)) (fun _ => 0) (fun _ => 0) (fun _ => 0)) as (sb & E & K).
  rewrite E in Hi. injection Hi as <-. eapply evals_safe; eauto.
Qed.

Lemma workspace_overrun c mode st xyz b items : degree c = 0%nat -> b_model_init 0 = Some st ->
  b_evals c mode ((xyz, b) :: items) st = None.
Proof.
  intros Hd Hi. destruct (init_safe 0 (fun _ => 0) (fun _ => 0) (fun _ => (0, 0)) (fun _ => 0) (fun _ => 0) (fun _ => 0)) as (sb & E & K).
  rewrite E in Hi. injection Hi as <-. destruct K as (Ea & _ & _ & _ & _ & (_ & L & _) & _). cbn [clat_last] in Ea.
  pose proof (items_overrun c mode Hd [] {| dims := []; get := fun _ => xyz |} {| dims := []; get := fun _ => b |} sb L Ea ltac:(constructor)) as G.
  cbn [b_sheval_items get] in G. cbn [b_evals]. destruct (b_model_eval c mode xyz b sb) as [[o s]|]; [discriminate G|reflexivity].
Qed.
