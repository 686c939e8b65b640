(** The evaluation of the spherical harmonics stays inside of its buffers and reads what was written. *)

From Coq Require Import Bool List Reals Arith ZArith Lia Lra.
From Verif Require Import ArrModel LegendreModel LegendreSpec LoopProofs GeoModel SizeModel CoefModel ShEvalModel BufModel BufProofs.
Import ListNotations.
Open Scope R_scope.

Lemma legendre_safe lpb ldpb lp ldp d elv pb rb psqrt prsqrt : (1 <= d)%nat ->
  upto lpb (T (S d)) 0 lp -> upto ldpb (T (S d)) 0 ldp ->
  full pb (2 * d + 2) psqrt -> full rb (2 * d + 2) prsqrt ->
  exists lpb' ldpb', b_legendre lpb ldpb d elv pb rb = Some (lpb', ldpb') /\
    full lpb' (T (S d)) (fst (shc_legendre lp ldp d elv psqrt prsqrt)) /\
    full ldpb' (T (S d)) (snd (shc_legendre lp ldp d elv psqrt prsqrt)).
Proof.
  intros Hd H1 H2 Hp Hr. unfold b_legendre, shc_legendre. cbv zeta.
  destruct (Nat.leb_spec d 16); cbn [orb]; [now apply low_safe|].
  destruct (Rltb _ _); [now apply low_safe|]. apply high_safe; auto. lia.
Qed.

Lemma internal_safe b a d r : upto b (d + 1) 0 a ->
  exists b', b_relradpow_internal b d r = Some b' /\ full b' (d + 1) (shc_relradpow_internal a d r).
Proof.
  intros H. unfold b_relradpow_internal, shc_relradpow_internal. cbv zeta.
  match goal with |- context [loopb ?lo ?hi ?fb ?sb0] => match goal with |- context [loop lo hi ?f ?s0] =>
    destruct (loop_sim (fun i '(b, v) '(a, v') => upto b (d + 1) i a /\ v' = v) lo hi fb f sb0 s0) as ([b' v] & E & G) end end.
  - lia.
  - split; [exact H|reflexivity].
  - intros i [b1 v] [a1 v'] Hi (G & ->). next G. eexists. split; [reflexivity|]. split; [exact G|reflexivity].
  - rewrite E. destruct (loop _ _ _ _) as [a' v']. destruct G as (G & _). cbv beta iota. eexists. split; [reflexivity|].
    unfold full. replace (d + 1)%nat with (S d) at 2 by lia. exact G.
Qed.

Lemma external_safe b a d r : upto b (d + 1) 0 a ->
  exists b', b_relradpow_external b d r = Some b' /\ full b' (d + 1) (shc_relradpow_external a d r).
Proof.
  intros H. unfold b_relradpow_external, shc_relradpow_external. cbv zeta. next H.
  destruct (Nat.leb_spec 1 d) as [L|L].
  - next H.
    match goal with |- context [loopb ?lo ?hi ?fb ?sb0] => match goal with |- context [loop lo hi ?f ?s0] =>
      destruct (loop_sim (fun i '(b, v) '(a, v') => upto b (d + 1) i a /\ v' = v) lo hi fb f sb0 s0) as ([b' v] & E & G) end end.
    + lia.
    + split; [exact H|reflexivity].
    + intros i [b1 v] [a1 v'] Hi (G & ->). next G. eexists. split; [reflexivity|]. split; [exact G|reflexivity].
    + rewrite E. destruct (loop _ _ _ _) as [a' v']. destruct G as (G & _). cbv beta iota. eexists. split; [reflexivity|].
      unfold full. replace (d + 1)%nat with (S d) at 2 by lia. exact G.
  - rewrite loopb_empty, loop_empty by lia. eexists. split; [reflexivity|]. unfold full.
    replace (d + 1)%nat with 1%nat in * by lia. exact H.
Qed.

Lemma cos_sin_safe b a d x : upto b (d + 1) 0 a ->
  exists b', b_cos_sin b d x = Some b' /\ full b' (d + 1) (fs_cos_sin a d x).
Proof.
  intros H. unfold b_cos_sin, fs_cos_sin. cbv zeta. next H.
  destruct (Nat.leb_spec 1 d) as [L|L].
  - next H.
    match goal with |- context [loopb ?lo ?hi ?fb ?sb0] => match goal with |- context [loop lo hi ?f ?s0] =>
      destruct (loop_sim (fun i '(b, v) '(a, v') => upto b (d + 1) i a /\ v' = v) lo hi fb f sb0 s0) as ([b' v] & E & G) end end.
    + lia.
    + split; [exact H|reflexivity].
    + intros i [b1 [v w]] [a1 v'] Hi (G & ->). next G. eexists. split; [reflexivity|]. split; [exact G|reflexivity].
    + rewrite E. destruct (loop _ _ _ _) as [a' v']. destruct G as (G & _). cbv beta iota. eexists. split; [reflexivity|].
      unfold full. replace (d + 1)%nat with (S d) at 2 by lia. exact G.
  - eexists. split; [reflexivity|]. unfold full. replace (d + 1)%nat with 1%nat in * by lia. exact H.
Qed.

(** ** Sums *)
(** [n] readable elements at least *)
Definition holds {A} (b : buf A) (n : nat) (a : nat -> A) : Prop := forall k, (k < n)%nat -> rd b k = Some (a k).
Lemma full_holds {A} (b : buf A) n a : full b n a -> holds b n a.
Proof. intros H k Hk. exact (rd_upto b n n a k H Hk). Qed.

Ltac get H := try (rewrite H by lia); cbv beta iota.

Section Sums.
Variables (d : nat) (coefb lcsb : buf (R * R)) (lpb ldpb rrpb : buf R) (coef lcs : coefs) (lp ldp rrp : arr).
Hypothesis Hc : holds coefb (T (S d)) coef.
Hypothesis Hl : holds lcsb (d + 1) lcs.
Hypothesis Hp : holds lpb (T (S d)) lp.
Hypothesis Hq : holds ldpb (T (S d)) ldp.
Hypothesis Hr : holds rrpb (d + 1) rrp.

Lemma T_pos n : (0 < T (S n))%nat.
Proof. rewrite T_S. lia. Qed.

Lemma eval_v_safe rad : b_eval_v d rad coefb lcsb lpb rrpb = Some (shc_eval_v d rad coef lcs lp rrp).
Proof.
  unfold b_eval_v, shc_eval_v. fold_T. pose proof (T_pos d). get Hc. get Hr. cbv zeta.
  match goal with |- context [loopb ?lo ?hi ?fb ?s0] => match goal with |- context [loop lo hi ?f s0] =>
    rewrite (loop_same lo hi fb f s0) end end; [reflexivity|].
  intros i s Hi. fold_T. pose proof (T_le (S i) (S d) ltac:(lia)). pose proof (T_S i). get Hc. get Hp.
  match goal with |- context [loopb ?lo ?hi ?fb ?s0] => match goal with |- context [loop lo hi ?f s0] =>
    rewrite (loop_same lo hi fb f s0) end end.
  - get Hr. reflexivity.
  - intros j s' Hj. get Hc. get Hl. get Hp. reflexivity.
Qed.

Lemma pole_safe elv : (1 <= d)%nat -> b_eval_dvaz_pole d elv coefb lcsb rrpb = Some (shc_eval_dvaz_pole d elv coef lcs rrp).
Proof.
  intro Hd. unfold b_eval_dvaz_pole, shc_eval_dvaz_pole. pose proof (T_le 2 (S d) ltac:(lia)) as T2. change (T 2) with 3%nat in T2.
  get Hl. get Hc. get Hr. cbv zeta.
  match goal with |- context [loopb ?lo ?hi ?fb ?s0] => match goal with |- context [loop lo hi ?f s0] =>
    rewrite (loop_same lo hi fb f s0) end end.
  - destruct (loop _ _ _ _) as [[[a b] c] e]. reflexivity.
  - intros i [[[a b] c] e] Hi. fold_T. pose proof (T_le (S i) (S d) ltac:(lia)). pose proof (T_S i). get Hc. get Hr. reflexivity.
Qed.

Lemma eval_dv_safe elv int : b_eval_dv d elv coefb lcsb lpb ldpb rrpb int = Some (shc_eval_dv d elv coef lcs lp ldp rrp int).
Proof.
  unfold b_eval_dv, shc_eval_dv. pose proof (T_pos d). get Hc. get Hr. cbv zeta.
  match goal with |- context [loopb ?lo ?hi ?fb ?s0] => match goal with |- context [loop lo hi ?f s0] =>
    rewrite (loop_same lo hi fb f s0) end end.
  - destruct (loop _ _ _ _) as [[a b] c]. destruct (Nat.ltb_spec 0 d) as [L|L]; cbn [andb]; [|reflexivity].
    destruct (Rltb _ _); [|reflexivity]. rewrite pole_safe by lia. reflexivity.
  - intros i [[a b] c] Hi. fold_T. pose proof (T_le (S i) (S d) ltac:(lia)). pose proof (T_S i). get Hc. get Hq. get Hp.
    match goal with |- context [loopb ?lo ?hi ?fb ?s0] => match goal with |- context [loop lo hi ?f s0] =>
      rewrite (loop_same lo hi fb f s0) end end.
    + get Hr. destruct (loop _ _ _ _) as [[a1 b1] c1]. reflexivity.
    + intros j [[a1 b1] c1] Hj. get Hc. get Hl. get Hq. get Hp. reflexivity.
Qed.

Lemma eval_v_dv_safe elv rad int :
  b_eval_v_dv d elv rad coefb lcsb lpb ldpb rrpb int = Some (shc_eval_v_dv d elv rad coef lcs lp ldp rrp int).
Proof.
  unfold b_eval_v_dv, shc_eval_v_dv. pose proof (T_pos d). get Hc. get Hr. cbv zeta.
  match goal with |- context [loopb ?lo ?hi ?fb ?s0] => match goal with |- context [loop lo hi ?f s0] =>
    rewrite (loop_same lo hi fb f s0) end end.
  - destruct (loop _ _ _ _) as [[[v a] b] c]. destruct (Nat.ltb_spec 0 d) as [L|L]; cbn [andb]; [|reflexivity].
    destruct (Rltb _ _); [|reflexivity]. rewrite pole_safe by lia. reflexivity.
  - intros i [[[v a] b] c] Hi. fold_T. pose proof (T_le (S i) (S d) ltac:(lia)). pose proof (T_S i). get Hc. get Hq. get Hp.
    match goal with |- context [loopb ?lo ?hi ?fb ?s0] => match goal with |- context [loop lo hi ?f s0] =>
      rewrite (loop_same lo hi fb f s0) end end.
    + get Hr. destruct (loop _ _ _ _) as [[[v1 a1] b1] c1]. reflexivity.
    + intros j [[[v1 a1] b1] c1] Hj. get Hc. get Hl. get Hq. get Hp. reflexivity.
Qed.

Lemma eval_safe mode elv rad int :
  b_eval d mode elv rad coefb lcsb lpb ldpb rrpb int = Some (shc_eval d mode elv rad coef lcs lp ldp rrp int).
Proof.
  destruct mode; unfold b_eval, shc_eval; rewrite ?eval_v_safe, ?eval_dv_safe, ?eval_v_dv_safe; try reflexivity.
  destruct (shc_eval_v_dv _ _ _ _ _ _ _ _ _). reflexivity.
Qed.
End Sums.

(** ** Items *)
(** the state with the buffers represents the one without: what was computed is in the buffers *)
Definition kept (d : nat) (sb : buf_state) (s : model_state) (ps rs : arr) : Prop :=
  bs_clat_last sb = clat_last s /\ bs_clon_last sb = clon_last s /\ bs_crad_last sb = crad_last s /\
  full (bs_psqrt sb) (2 * d + 2) ps /\ full (bs_prsqrt sb) (2 * d + 2) rs /\
  upto (bs_lp sb) (T (S d)) 0 (lp s) /\ upto (bs_ldp sb) (T (S d)) 0 (ldp s) /\
  upto (bs_lcs sb) (d + 1) 0 (lcs s) /\ upto (bs_rrp sb) (d + 1) 0 (rrp s) /\
  (clat_last s <> None -> full (bs_lp sb) (T (S d)) (lp s) /\ full (bs_ldp sb) (T (S d)) (ldp s)) /\
  (clon_last s <> None -> full (bs_lcs sb) (d + 1) (lcs s)) /\
  (crad_last s <> None -> full (bs_rrp sb) (d + 1) (rrp s)).

(** same configuration, apart from the tables *)
Definition same_cfg (c1 c2 : model_cfg) : Prop :=
  is_internal c1 = is_internal c2 /\ degree c1 = degree c2 /\ coord_in c1 = coord_in c2 /\ coord_out c1 = coord_out c2 /\
  elps_a c1 = elps_a c2 /\ elps_eps2 c1 = elps_eps2 c2 /\ crad_ref c1 = crad_ref c2 /\ scale_potential c1 = scale_potential c2 /\
  scale_gradient0 c1 = scale_gradient0 c2 /\ scale_gradient1 c1 = scale_gradient1 c2 /\ scale_gradient2 c1 = scale_gradient2 c2.

Lemma neq_none l x : neq_last l x = false -> l <> None.
Proof. destruct l; [discriminate|]. cbn. discriminate. Qed.

Lemma full_0 {A} (b : buf A) n a : full b n a -> upto b n 0 a.
Proof. apply upto_0. Qed.

Lemma model_eval_safe cb c mode xyz coefb coef sb s : same_cfg cb c -> (1 <= degree c)%nat ->
  holds coefb (T (S (degree c))) coef -> kept (degree c) sb s (psqrt c) (prsqrt c) ->
  exists sb', b_model_eval cb mode xyz coefb sb = Some (fst (model_eval c mode xyz coef s), sb') /\
    kept (degree c) sb' (snd (model_eval c mode xyz coef s)) (psqrt c) (prsqrt c).
Proof.
  destruct cb as [i1 d1 ci1 co1 ea1 ee1 cr1 sp1 g01 g11 g21 ps1 rs1], c as [i2 d2 ci2 co2 ea2 ee2 cr2 sp2 g02 g12 g22 ps2 rs2].
  unfold same_cfg. cbn [is_internal degree coord_in coord_out elps_a elps_eps2 crad_ref scale_potential scale_gradient0 scale_gradient1 scale_gradient2 psqrt prsqrt].
  intros (-> & -> & -> & -> & -> & -> & -> & -> & -> & -> & ->) Hd Hc K.
  destruct K as (Ea & Eo & Er & Kp & Kr & L1 & L2 & L3 & L4 & F1 & F2 & F3).
  destruct xyz as [[x y] z]. unfold b_model_eval, model_eval.
  cbn [is_internal degree coord_in coord_out elps_a elps_eps2 crad_ref scale_potential scale_gradient0 scale_gradient1 scale_gradient2 psqrt prsqrt].
  match goal with |- context [input_coordinates ?a x y z] =>
    match goal with |- context [input_coordinates ?b x y z] =>
      tryif constr_eq a b then fail else change (input_coordinates a x y z) with (input_coordinates b x y z) end end.
  destruct (input_coordinates _ x y z) as [[[clat clon] crad] glat].
  rewrite Ea, Eo, Er.
  assert (A1 : exists lb db, (if neq_last (clat_last s) clat
       then b_legendre (bs_lp sb) (bs_ldp sb) d2 clat (bs_psqrt sb) (bs_prsqrt sb) else Some (bs_lp sb, bs_ldp sb)) = Some (lb, db) /\
     full lb (T (S d2)) (fst (if neq_last (clat_last s) clat then shc_legendre (lp s) (ldp s) d2 clat ps2 rs2 else (lp s, ldp s))) /\
     full db (T (S d2)) (snd (if neq_last (clat_last s) clat then shc_legendre (lp s) (ldp s) d2 clat ps2 rs2 else (lp s, ldp s)))).
  { destruct (neq_last (clat_last s) clat) eqn:N; [now apply legendre_safe|]. apply neq_none, F1 in N. destruct N.
    do 2 eexists. split; [reflexivity|]. now split. }
  assert (A2 : exists cb, (if neq_last (clon_last s) clon then b_cos_sin (bs_lcs sb) d2 clon else Some (bs_lcs sb)) = Some cb /\
     full cb (d2 + 1) (if neq_last (clon_last s) clon then fs_cos_sin (lcs s) d2 clon else lcs s)).
  { destruct (neq_last (clon_last s) clon) eqn:N; [now apply cos_sin_safe|]. apply neq_none, F2 in N. eexists. split; [reflexivity|exact N]. }
  assert (A3 : exists rb, (if neq_last (crad_last s) crad
       then (if i2 then b_relradpow_internal else b_relradpow_external) (bs_rrp sb) d2 (crad / cr2) else Some (bs_rrp sb)) = Some rb /\
     full rb (d2 + 1) (if neq_last (crad_last s) crad
       then (if i2 then shc_relradpow_internal else shc_relradpow_external) (rrp s) d2 (crad / cr2) else rrp s)).
  { destruct (neq_last (crad_last s) crad) eqn:N.
    - destruct i2; [now apply internal_safe|now apply external_safe].
    - apply neq_none, F3 in N. eexists. split; [reflexivity|exact N]. }
  destruct A1 as (lb & db & -> & B1 & B2). destruct A2 as (csb & -> & B3). destruct A3 as (rb & -> & B4). cbv beta iota zeta.
  destruct (if neq_last (clat_last s) clat then shc_legendre (lp s) (ldp s) d2 clat ps2 rs2 else (lp s, ldp s)) as [l dl].
  cbn [fst snd] in B1, B2.
  rewrite (eval_safe d2 coefb csb lb db rb coef _ l dl _ Hc (full_holds _ _ _ B3) (full_holds _ _ _ B1) (full_holds _ _ _ B2) (full_holds _ _ _ B4)).
  destruct (shc_eval _ _ _ _ _ _ _ _ _ _) as [fp fg]. cbv beta iota. eexists. split; [reflexivity|]. cbn [snd]. unfold kept.
  cbn [bs_clat_last bs_clon_last bs_crad_last bs_lp bs_ldp bs_lcs bs_rrp bs_psqrt bs_prsqrt clat_last clon_last crad_last lp ldp lcs rrp].
  repeat match goal with |- _ /\ _ => split end; auto using full_0.
Qed.

(** the coefficients of an array of sets *)
Definition holds_all (n : nat) (cb : nd (buf (R * R))) (cn : nd coefs) : Prop :=
  dims cb = dims cn /\ forall ix, Forall2 (fun i d => (i < d)%nat) ix (dims cb) -> holds (get cb ix) n (get cn ix).

(** what one call sees of an array with at most the dimensions of the output *)
Lemma holds_item n cb cn d ds i : holds_all n cb cn -> (i < d)%nat -> compare_dimensions (d :: ds) (dims cb) = false ->
  holds_all n (nd_item cb i) (nd_item cn i) /\ compare_dimensions ds (dims (nd_item cb i)) = false.
Proof.
  intros (E & H) Hi C. unfold nd_item. rewrite <- E. destruct (dims cb) as [|d1 ds1] eqn:D.
  - split; [split; [now rewrite D|]|]. { rewrite D. exact H. } rewrite D. destruct ds; reflexivity.
  - cbn [compare_dimensions] in C. destruct (Nat.eqb_spec d d1) as [->|]; [|discriminate].
    split; [|exact C]. split; [reflexivity|]. cbn [dims get]. intros ix Hx. apply H. constructor; [exact Hi|exact Hx].
Qed.

Lemma items_safe cb c mode : same_cfg cb c -> (1 <= degree c)%nat -> forall odims x cob co sb s,
  compare_dimensions odims (dims cob) = false -> (length (dims cob) <= length odims)%nat ->
  holds_all (T (S (degree c))) cob co -> kept (degree c) sb s (psqrt c) (prsqrt c) ->
  exists sb', b_sheval_items cb mode odims x cob sb = Some (fst (sheval_items c mode odims x co s), sb') /\
    kept (degree c) sb' (snd (sheval_items c mode odims x co s)) (psqrt c) (prsqrt c).
Proof.
  intros Hs Hd. induction odims as [|d ds IH]; intros x cob co sb s C L H K.
  - cbn [b_sheval_items sheval_items]. destruct H as (E & H). destruct (dims cob) as [|? ?] eqn:D; [|cbn in L; lia].
    destruct (model_eval_safe cb c mode (get x []) (get cob []) (get co []) sb s Hs Hd (H [] ltac:(constructor)) K) as (sb' & -> & K').
    cbv beta iota. destruct (model_eval c mode (get x []) (get co []) s). eexists. split; [reflexivity|exact K'].
  - cbn [b_sheval_items sheval_items].
    assert (G : forall is, (forall i, In i is -> (i < d)%nat) -> forall sb s, kept (degree c) sb s (psqrt c) (prsqrt c) ->
      exists sb', (fix items (is : list nat) (st : buf_state) :=
         match is with
         | [] => Some ([], st)
         | i :: is' =>
             match b_sheval_items cb mode ds (nd_item x i) (nd_item cob i) st with
             | Some (o, st1) => match items is' st1 with Some (os, st2) => Some (o ++ os, st2) | None => None end
             | None => None end
         end) is sb = Some (fst ((fix items (is : list nat) (st : model_state) :=
         match is with
         | [] => ([], st)
         | i :: is' =>
             let '(o, st1) := sheval_items c mode ds (nd_item x i) (nd_item co i) st in
             let '(os, st2) := items is' st1 in
             (o ++ os, st2)
         end) is s), sb') /\ kept (degree c) sb' (snd ((fix items (is : list nat) (st : model_state) :=
         match is with
         | [] => ([], st)
         | i :: is' =>
             let '(o, st1) := sheval_items c mode ds (nd_item x i) (nd_item co i) st in
             let '(os, st2) := items is' st1 in
             (o ++ os, st2)
         end) is s)) (psqrt c) (prsqrt c)).
    { induction is as [|i is IHi]; intros Hi sb1 s1 K1.
      - eexists. split; [reflexivity|exact K1].
      - destruct (holds_item _ _ _ _ _ i H (Hi i (or_introl eq_refl)) C) as (H' & C').
        assert (L' : (length (dims (nd_item cob i)) <= length ds)%nat).
        { unfold nd_item. destruct (dims cob) eqn:D; cbn [dims length] in *; rewrite ?D; cbn [length]; lia. }
        destruct (IH (nd_item x i) (nd_item cob i) (nd_item co i) sb1 s1 C' L' H' K1) as (sb2 & -> & K2).
        cbv beta iota. destruct (sheval_items c mode ds (nd_item x i) (nd_item co i) s1) as [o s2]. cbn [fst snd] in K2 |- *.
        destruct (IHi (fun j Hj => Hi j (or_intror Hj)) sb2 s2 K2) as (sb3 & -> & K3).
        cbv beta iota. match goal with |- context [let '(_, _) := ?e in _] => destruct e as [os s3] end. cbn [fst snd] in K3 |- *.
        eexists. split; [reflexivity|exact K3]. }
    apply G; [|exact K]. intros i Hi. apply in_seq in Hi. lia.
Qed.

Lemma init_safe d m_lp m_ldp m_lcs m_rrp m_ps m_rs : exists sb, b_model_init d = Some sb /\
  kept d sb {| clat_last := None; clon_last := None; crad_last := None; lp := m_lp; ldp := m_ldp; lcs := m_lcs; rrp := m_rrp |}
    (shc_presqrt d m_ps) (shc_prersqrt d m_rs).
Proof.
  unfold b_model_init. destruct (presqrt_full d m_ps) as (pb & -> & Hp). destruct (prersqrt_full d m_rs) as (rb & -> & Hr).
  eexists. split; [reflexivity|]. unfold kept.
  cbn [bs_clat_last bs_clon_last bs_crad_last bs_lp bs_ldp bs_lcs bs_rrp bs_psqrt bs_prsqrt clat_last clon_last crad_last lp ldp lcs rrp].
  assert (E : ((d + 1) * (d + 2) / 2)%nat = T (S d)). { unfold T. f_equal. lia. } rewrite E.
  repeat match goal with |- _ /\ _ => split end; auto using malloc_upto; try (intro Q; now destruct Q).
Qed.
