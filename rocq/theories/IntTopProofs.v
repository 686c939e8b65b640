(** Proofs about the functions of the library which calculate with the type int. *)

From Coq Require Import Bool List Reals Arith ZArith Lia Lra.
From Verif Require Import ArrModel LegendreModel GeoModel SizeModel CoefModel ShEvalModel BufModel TempModel
  IntModel IntSpec IntProofs.
Import ListNotations.
Open Scope Z_scope.

(** ** The functions of the values *)

Lemma legendre_exact ar lp ldp degree elv ps prs : conforming ar ->
  Z.of_nat degree <= 23171 \/
  (~ (Rabs (cos elv) < 1 / 10 ^ 10)%R /\ Z.of_nat degree <= 65533) ->
  i_legendre ar lp ldp degree elv ps prs = Some (shc_legendre lp ldp degree elv ps prs).
Proof.
  intros C H. unfold i_legendre, shc_legendre. cbv zeta.
  assert (E : (Rabs (sqrt ((1 - sin elv) * (1 + sin elv))) = Rabs (cos elv))%R).
  { replace ((1 - sin elv) * (1 + sin elv))%R with (Rsqr (cos elv)).
    - rewrite sqrt_Rsqr_abs, Rabs_Rabsolu. reflexivity.
    - rewrite cos2. unfold Rsqr. ring. }
  rewrite E. destruct (Nat.leb_spec degree 16) as [L|L]; cbn [orb].
  - apply low_exact; [assumption|lia].
  - unfold Rltb. destruct (Rlt_dec (Rabs (cos elv)) (1 / 10 ^ 10)) as [P|P].
    + apply low_exact; [assumption|]. destruct H as [H|[H _]]; [assumption|contradiction].
    + apply high_exact; [assumption|]. destruct H as [H|[_ H]]; lia.
Qed.

Lemma legendre_items_exact ar degree ps prs : conforming ar -> forall lats off size p dp,
  Z.of_nat degree <= 23171 \/ (Z.of_nat degree <= 65533 /\ forall lat, In lat lats -> ~ near_pole lat) ->
  i_legendre_items ar lats off size degree ps prs p dp = Some (legendre_items lats off size degree ps prs p dp).
Proof.
  intros C. induction lats as [|lat lats IH]; intros off size p dp H; [reflexivity|].
  cbn [i_legendre_items legendre_items].
  rewrite (legendre_exact ar) by
    (exact C || (destruct H as [H|[H P]]; [left; lia|right; split; [apply P; left; reflexivity|assumption]])).
  destruct (shc_legendre _ _ _ _ _ _) as [p' dp'].
  apply IH. destruct H as [H|[H P]]; [left; assumption|right; split; [assumption|]].
  intros l Hl. apply P. right. assumption.
Qed.

Lemma legendre_call_exact ar lats degree mem junk : conforming ar ->
  Z.of_nat degree <= 23171 \/ (Z.of_nat degree <= 65533 /\ forall lat, In lat lats -> ~ near_pole lat) ->
  i_legendre_call ar lats degree mem junk = Some (legendre lats degree mem junk).
Proof.
  intros C H. unfold i_legendre_call, legendre.
  rewrite presqrt_exact, prersqrt_exact by (try assumption; lia).
  apply legendre_items_exact; assumption.
Qed.

Lemma relradpow_internal_exact ar rrp degree rr : conforming ar -> Z.of_nat degree < 2147483647 ->
  i_relradpow_internal ar rrp degree rr = Some (shc_relradpow_internal rrp degree rr).
Proof.
  intros C H. unfold i_relradpow_internal, shc_relradpow_internal. cbv zeta.
  match goal with |- context [loopi ar 0 degree ?bi ?x0] =>
    match goal with |- context [loop 0 degree ?bn x0] =>
      rewrite (loopi_eq ar bi bn 0 degree x0 C ltac:(lia) ltac:(lia)) end end.
  - destruct (loop 0 degree _ _). reflexivity.
  - intros i [s v] Hi. rewrite (ix_val ar (Z.of_nat i) i C) by (cbn [fits val]; trivial). reflexivity.
Qed.

Lemma relradpow_external_exact ar rrp degree rr : conforming ar -> Z.of_nat degree < 2147483647 ->
  i_relradpow_external ar rrp degree rr = Some (shc_relradpow_external rrp degree rr).
Proof.
  intros C H. unfold i_relradpow_external, shc_relradpow_external. cbv zeta.
  match goal with |- context [loopi ar 2 degree ?bi ?x0] =>
    match goal with |- context [loop 2 degree ?bn x0] =>
      rewrite (loopi_eq ar bi bn 2 degree x0 C ltac:(lia) ltac:(lia)) end end.
  - destruct (loop 2 degree _ _). reflexivity.
  - intros i [s v] Hi. rewrite (ix_val ar (Z.of_nat i) i C) by (cbn [fits val]; trivial). reflexivity.
Qed.

(** ** Models *)

Lemma half_exact degree : 0 <= degree -> Z.quot ((degree + 1) * (degree + 2)) 2 = pairs degree.
Proof. intros H. unfold pairs. apply Z.quot_div_nonneg; nia. Qed.

Lemma pairs_double degree : 0 <= degree -> 2 * pairs degree = (degree + 1) * (degree + 2).
Proof.
  intros H. unfold pairs. pose proof (triangle_z (Z.to_nat (degree + 1))) as T.
  rewrite Z2Nat.id in T by lia. replace (degree + 2) with (degree + 1 + 1) by ring.
  rewrite <- T, (Z.mul_comm 2 (Z.of_nat _)), Z.div_mul by lia. lia.
Qed.

Lemma nterm_exact ar degree : conforming ar -> 0 <= degree <= 46339 -> i_nterm ar degree = Some (pairs degree).
Proof.
  intros C H. unfold i_nterm. apply ev_val; [assumption| |].
  - pose proof (pairs_double degree). cbn [fits val]. rewrite half_exact by lia. unfold int32. nia.
  - cbn [val]. apply half_exact. lia.
Qed.

Lemma bytes_exact n size : 0 <= n < 2 ^ 32 -> 0 <= size <= 16 -> bytes n size = n * size.
Proof. intros H Hs. unfold bytes. rewrite (Z.mod_small n), Z.mod_small by nia. reflexivity. Qed.

Lemma sizes_exact ar degree : conforming ar -> 0 <= degree <= 46339 ->
  i_sizes ar degree = Some [8 * pairs degree; 8 * pairs degree; 16 * (degree + 1); 8 * (degree + 1);
                            8 * (2 * degree + 2); 8 * (2 * degree + 2)].
Proof.
  intros C H. unfold i_sizes. rewrite nterm_exact by assumption.
  pose proof (pairs_double degree). assert (degree * degree <= 46339 * 46339) by nia.
  rewrite (ev_val ar (degree + 1) (degree + 1) C), (ev_val ar (2 * degree + 2) (2 * degree + 2) C) by fit.
  rewrite !bytes_exact by nia. rewrite !(Z.mul_comm _ 8), (Z.mul_comm _ 16).
  reflexivity.
Qed.

Lemma model_init_exact ar internal degree ci co sp sg mem : conforming ar -> Z.of_nat degree <= 46339 ->
  i_model_init ar internal degree ci co sp sg mem = Some (model_init internal degree ci co sp sg mem).
Proof.
  intros C H. unfold i_model_init, model_init.
  destruct mem as [[[[[m_lp m_ldp] m_lcs] m_rrp] m_psqrt] m_prsqrt]. destruct sg as [[s0 s1] s2].
  rewrite sizes_exact, presqrt_exact, prersqrt_exact by (try assumption; lia). reflexivity.
Qed.

(** the geocentric latitude of the position is not close to a pole *)
Definition far (cfg : model_cfg) (xyz : R * R * R) : Prop :=
  let '(x, y, z) := xyz in let '(clat, _, _, _) := input_coordinates cfg x y z in ~ (Rabs (cos clat) < 1 / 10 ^ 10)%R.

Lemma model_eval_exact ar cfg mode xyz coeff st : conforming ar ->
  Z.of_nat (degree cfg) <= 23171 \/ (Z.of_nat (degree cfg) <= 46339 /\ far cfg xyz) ->
  i_model_eval ar cfg mode xyz coeff st = Some (model_eval cfg mode xyz coeff st).
Proof.
  intros C H. unfold i_model_eval, model_eval. destruct xyz as [[x y] z]. unfold far in H.
  destruct (input_coordinates cfg x y z) as [[[clat clon] crad] glat].
  assert (EL : (if neq_last (clat_last st) clat
     then i_legendre ar (lp st) (ldp st) (degree cfg) clat (psqrt cfg) (prsqrt cfg)
     else Some (lp st, ldp st)) = Some (if neq_last (clat_last st) clat
    then shc_legendre (lp st) (ldp st) (degree cfg) clat (psqrt cfg) (prsqrt cfg)
    else (lp st, ldp st))).
  { destruct (neq_last _ _); [|reflexivity]. apply legendre_exact; [assumption|].
    destruct H as [H|[H F]]; [left; assumption|right; split; [assumption|lia]]. }
  rewrite EL. match type of EL with _ = Some ?L => destruct L as [lp' ldp'] end. clear EL.
  assert (ER : (if neq_last (crad_last st) crad
     then (if is_internal cfg then i_relradpow_internal else i_relradpow_external)
            ar (rrp st) (degree cfg) (crad / crad_ref cfg)%R
     else Some (rrp st)) = Some (if neq_last (crad_last st) crad
    then (if is_internal cfg then shc_relradpow_internal else shc_relradpow_external)
           (rrp st) (degree cfg) (crad / crad_ref cfg)%R
    else rrp st)).
  { destruct (neq_last _ _); [|reflexivity].
    destruct (is_internal cfg); [apply relradpow_internal_exact|apply relradpow_external_exact]; (assumption || lia). }
  rewrite ER. destruct (shc_eval _ _ _ _ _ _ _ _ _ _) as [fpot fgrd]. reflexivity.
Qed.

Lemma sheval_items_exact ar cfg mode : conforming ar ->
  forall odims x coef st,
  Z.of_nat (degree cfg) <= 23171 \/ (Z.of_nat (degree cfg) <= 46339 /\ forall ix, far cfg (get x ix)) ->
  i_sheval_items ar cfg mode odims x coef st = Some (sheval_items cfg mode odims x coef st).
Proof.
  intros C. induction odims as [|d ds IH]; intros x coef st H; cbn [i_sheval_items sheval_items].
  - rewrite model_eval_exact; [|assumption|destruct H as [H|[H F]]; [left; assumption|right; split; [assumption|apply F]]].
    destruct (model_eval _ _ _ _ _) as [o st']. reflexivity.
  - generalize (seq 0 d) as is. intros is. revert st. induction is as [|i is IHs]; intros st; [reflexivity|].
    assert (H1 : Z.of_nat (degree cfg) <= 23171 \/ (Z.of_nat (degree cfg) <= 46339 /\ forall ix, far cfg (get (nd_item x i) ix))).
    { destruct H as [H|[H F]]; [left; assumption|right; split; [assumption|]].
      intros ix. unfold nd_item. destruct (dims x); apply F. }
    rewrite (IH _ _ _ H1).
    destruct (sheval_items cfg mode ds (nd_item x i) (nd_item coef i) st) as [o st1].
    rewrite IHs. destruct ((fix items (is : list nat) (st : model_state) {struct is} := _) is st1) as [os st2].
    reflexivity.
Qed.

Lemma sheval_exact_far ar x csize coef ci co mode internal deg sp sg mem : conforming ar ->
  used_degree csize deg <= 23171 \/
  (used_degree csize deg <= 46339 /\ forall ix, far (fst (model_init internal 0 ci co sp sg mem)) (get x ix)) ->
  i_sheval ar x csize coef ci co mode internal deg sp sg mem =
  Some (sheval x csize coef ci co mode internal deg sp sg mem).
Proof.
  intros C H. unfold i_sheval, sheval. cbv zeta. fold (used_degree csize deg).
  destruct (size_to_degree csize <? 0) eqn:E0; [reflexivity|].
  destruct ((2147483647 <? size_to_degree csize) && (deg <? 0)); [reflexivity|].
  destruct (_ || _) eqn:Ed; [reflexivity|].
  assert (Z.of_nat (Z.to_nat (used_degree csize deg)) <= 46339) by lia.
  rewrite model_init_exact by (try assumption; lia).
  destruct (model_init internal (Z.to_nat (used_degree csize deg)) ci co sp sg mem) as [cfg st] eqn:Ei.
  rewrite sheval_items_exact.
  - destruct (sheval_items _ _ _ _ _ _). reflexivity.
  - assumption.
  - unfold model_init in *. destruct mem as [[[[[? ?] ?] ?] ?] ?]. destruct sg as [[? ?] ?]. cbn [fst] in H.
    injection Ei as <- _. cbn [degree]. destruct H as [H|[H F]]; [left; lia|right; split; [lia|exact F]].
Qed.

Lemma sheval_exact ar x csize coef ci co mode internal deg sp sg mem : conforming ar ->
  used_degree csize deg <= 23171 ->
  i_sheval ar x csize coef ci co mode internal deg sp sg mem =
  Some (sheval x csize coef ci co mode internal deg sp sg mem).
Proof. intros C H. apply sheval_exact_far; [assumption|left; assumption]. Qed.

(** Spherical coordinates: the latitude is that of the position. *)
Lemma sheval_exact_sph ar x csize coef co mode internal deg sp sg mem : conforming ar ->
  used_degree csize deg <= 46339 -> (forall ix lat lon r, get x ix = (lat, lon, r) -> ~ near_pole lat) ->
  i_sheval ar x csize coef CT_GEOCENTRIC_SPHERICAL co mode internal deg sp sg mem =
  Some (sheval x csize coef CT_GEOCENTRIC_SPHERICAL co mode internal deg sp sg mem).
Proof.
  intros C H F. apply sheval_exact_far; [assumption|]. right. split; [assumption|].
  intros ix. destruct (get x ix) as [[lat lon] r] eqn:E. pose proof (F ix lat lon r E) as N.
  unfold model_init. destruct mem as [[[[[? ?] ?] ?] ?] ?]. destruct sg as [[? ?] ?]. cbn [fst].
  unfold far, input_coordinates. cbn [coord_in]. unfold near_pole in N. rewrite (Rmult_comm DG2RAD). exact N.
Qed.

(** ** Overflow *)

Lemma trapping_conforming : conforming trapping.
Proof. intros x H. unfold trapping, int32 in *. destruct (Z.leb_spec (-2 ^ 31) x), (Z.ltb_spec x (2 ^ 31)); cbn [andb]; (reflexivity || lia). Qed.
Lemma wrapping_conforming : conforming wrapping.
Proof. intros x H. unfold wrapping, wrap32, int32 in *. rewrite Z.mod_small by lia. f_equal. lia. Qed.
Lemma trap x : ~ int32 x -> trapping x = None.
Proof. intros H. unfold trapping, int32 in *. destruct (Z.leb_spec (-2 ^ 31) x), (Z.ltb_spec x (2 ^ 31)); cbn [andb]; (reflexivity || lia). Qed.

(** A loop fails when one of its passes does, in the states which are reached. *)
Lemma loopi_fails {A} ar (bi : Z -> A -> option A) (Inv : nat -> A -> Prop) k lo hi s : (lo <= k <= hi)%nat ->
  Inv lo s -> (forall i s t, (lo <= i)%nat -> Inv i s -> bi (Z.of_nat i) s = Some t -> Inv (S i) t) ->
  (forall s, Inv k s -> bi (Z.of_nat k) s = None) -> loopi ar lo hi bi s = None.
Proof.
  intros Hk Hi Hstep Hfail. unfold loopi.
  assert (HN : forall l, fold_left (fun s i => try s <- s; try s <- bi (Z.of_nat i) s;
      try _ <- ev ar (Z.of_nat i + 1%Z)%cint; Some s) l None = None).
  { induction l; [reflexivity|assumption]. }
  remember (S hi - lo)%nat as n eqn:En. revert lo s Hk Hi Hstep En.
  induction n as [|n IH]; intros lo s Hk Hi Hstep En; [lia|].
  cbn [seq fold_left].
  destruct (bi (Z.of_nat lo) s) as [t|] eqn:Et; [|apply HN].
  destruct (ev ar _) as [z|]; [|apply HN].
  destruct (Nat.eq_dec lo k) as [->|Ne].
  - rewrite Hfail in Et by assumption. discriminate Et.
  - apply IH; [lia| |intros i u v Hl; apply Hstep; lia|lia]. eapply Hstep; [lia|exact Hi|exact Et].
Qed.

Lemma low_overflow lp ldp degree s c ps prs : 23172 <= Z.of_nat degree ->
  i_legendre_low trapping lp ldp degree s c ps prs = None.
Proof.
  intros H. unfold i_legendre_low.
  rewrite (loopi_fails trapping _ (fun _ _ => True) (Z.to_nat 23172) 2 degree); [reflexivity|lia|exact I|auto|].
  intros [a b] _. rewrite Z2Nat.id by lia.
  assert (E1 : ev trapping (Half (23172 * (23172 + 1))) = Some 268482378) by reflexivity.
  assert (E2 : ev trapping ((23172 - 1) * (23172 - 1)) = Some 536895241) by reflexivity.
  assert (E : ev trapping ((2%Z * 23172 - 1%Z) * (2%Z * 23172 - 3%Z)) = None) by reflexivity.
  rewrite E1, E2, E. reflexivity.
Qed.

Lemma high_overflow lp ldp degree s c ps prs : 65534 <= Z.of_nat degree ->
  i_legendre_high trapping lp ldp degree s c ps prs = None.
Proof.
  intros H. unfold i_legendre_high. cbv zeta.
  match goal with |- context [loopi trapping 2 degree ?bi ?x0] => destruct (loopi trapping 2 degree bi x0) as [[[[[a b] z] x] y]|]; [|reflexivity] end.
  rewrite (loopi_fails trapping _ (fun j '(_, _, idx0, _, _) => 2 * idx0 = Z.of_nat j * (Z.of_nat j + 3)) (Z.to_nat 65533)).
  - reflexivity.
  - lia.
  - reflexivity.
  - intros j [[[[lp1 ldp1] z1] x1] y1] [[[[lp2 ldp2] z2] x2] y2] Hj Hz E. cbv beta iota in E.
    repeat match type of E with (match ?e with Some _ => _ | None => None end) = Some _ =>
      lazymatch e with loopi _ _ _ _ _ => destruct e as [[[[[? ?] ?] ?] ?]|] eqn:? | _ => destruct e as [?|] eqn:? end;
      [|discriminate E] end.
    injection E as _ _ <- _ _.
    match goal with H : ev trapping _ = Some ?z |- 2 * ?z = _ => revert H end.
    cbn [ev]. unfold trapping. repeat (destruct (_ && _); [|discriminate]). intros [= <-]. lia.
  - intros [[[[lp1 ldp1] z1] x1] y1] Hz. rewrite Z2Nat.id in * by lia.
    assert (z1 = 2147385344) as -> by lia.
    repeat match goal with |- context [ix trapping ?e] => destruct (ix trapping e) as [?|]; [|reflexivity] end.
    rewrite (ev_val trapping (2147385344 + 65533 + 1) 2147450878 trapping_conforming) by fit.
    repeat match goal with |- context [ix trapping ?e] => destruct (ix trapping e) as [?|]; [|reflexivity] end.
    rewrite (ev_val trapping (65533 + 1) 65534 trapping_conforming) by fit.
    assert (E : ev trapping (2147450878 + (65533 + 2)) = None) by reflexivity.
    rewrite E. reflexivity.
Qed.

Lemma legendre_overflow lp ldp degree elv ps prs :
  65534 <= Z.of_nat degree \/ (23172 <= Z.of_nat degree /\ (Rabs (cos elv) < 1 / 10 ^ 10)%R) ->
  i_legendre trapping lp ldp degree elv ps prs = None.
Proof.
  intros H. unfold i_legendre. cbv zeta.
  assert (E : (Rabs (sqrt ((1 - sin elv) * (1 + sin elv))) = Rabs (cos elv))%R).
  { replace ((1 - sin elv) * (1 + sin elv))%R with (Rsqr (cos elv)).
    - rewrite sqrt_Rsqr_abs, Rabs_Rabsolu. reflexivity.
    - rewrite cos2. unfold Rsqr. ring. }
  rewrite E. destruct (Nat.leb_spec degree 16) as [L|L]; cbn [orb]; [lia|].
  unfold Rltb. destruct (Rlt_dec (Rabs (cos elv)) (1 / 10 ^ 10)) as [P|P].
  - apply low_overflow. lia.
  - apply high_overflow. destruct H as [H|[_ H]]; [assumption|contradiction].
Qed.

Lemma legendre_items_overflow degree ps prs : forall lats off size p dp,
  (exists lat, In lat lats /\ (65534 <= Z.of_nat degree \/ (23172 <= Z.of_nat degree /\ near_pole lat))) ->
  i_legendre_items trapping lats off size degree ps prs p dp = None.
Proof.
  induction lats as [|lat lats IH]; intros off size p dp (l & Hl & H); [destruct Hl|].
  cbn [i_legendre_items]. destruct Hl as [->|Hl].
  - rewrite legendre_overflow by (destruct H as [H|[H P]]; [left; assumption|right; split; assumption]). reflexivity.
  - destruct (i_legendre _ _ _ _ _ _ _) as [[p' dp']|]; [|reflexivity]. apply IH. exists l. split; assumption.
Qed.

Lemma legendre_call_overflow lats degree mem junk :
  (exists lat, In lat lats /\ (65534 <= Z.of_nat degree \/ (23172 <= Z.of_nat degree /\ near_pole lat))) ->
  i_legendre_call trapping lats degree mem junk = None.
Proof.
  intros H. unfold i_legendre_call.
  destruct (i_presqrt trapping degree junk); [|reflexivity].
  destruct (i_prersqrt trapping degree junk); [|reflexivity].
  apply legendre_items_overflow, H.
Qed.

Lemma loopi_last {A} (bi : Z -> A -> option A) lo hi s : (lo <= hi)%nat -> 2147483647 <= Z.of_nat hi ->
  loopi trapping lo hi bi s = None.
Proof.
  intros H Hh. unfold loopi. replace (S hi - lo)%nat with (S (hi - lo)) by lia.
  rewrite seq_S, fold_left_app. cbn [fold_left].
  destruct (fold_left _ _ _) as [t|]; [|reflexivity].
  destruct (bi _ t); [|reflexivity].
  cbn [ev]. rewrite trap by (unfold int32; lia). reflexivity.
Qed.

Lemma relradpow_overflow degree reference internal radius rrp : 2147483647 <= Z.of_nat degree ->
  i_relradpow_item trapping degree reference internal radius rrp = None.
Proof.
  intros H. unfold i_relradpow_item, i_relradpow_internal, i_relradpow_external.
  destruct internal; rewrite loopi_last by lia; reflexivity.
Qed.

Lemma relradpow_item_exact ar degree reference internal radius rrp : conforming ar -> Z.of_nat degree < 2147483647 ->
  i_relradpow_item ar degree reference internal radius rrp =
  Some ((if internal then shc_relradpow_internal else shc_relradpow_external) rrp degree (radius / reference)%R).
Proof.
  intros C H. unfold i_relradpow_item.
  destruct internal; [apply relradpow_internal_exact|apply relradpow_external_exact]; assumption.
Qed.

Lemma nterm_overflow degree : 46340 <= degree -> i_nterm trapping degree = None.
Proof.
  intros H. unfold i_nterm. cbn [ev].
  destruct (trapping (degree + 1)) as [a|] eqn:Ea; [|reflexivity].
  destruct (trapping (degree + 2)) as [b|] eqn:Eb; [|reflexivity].
  assert (a = degree + 1) by (unfold trapping in Ea; destruct (_ && _); [injection Ea; auto|discriminate]).
  assert (b = degree + 2) by (unfold trapping in Eb; destruct (_ && _); [injection Eb; auto|discriminate]).
  subst. rewrite trap by (unfold int32; nia). reflexivity.
Qed.

Lemma sheval_overflow x csize coef ci co mode internal deg sp sg mem :
  46340 <= used_degree csize deg <= 2147483647 ->
  let odims := if Nat.ltb (length (dims x)) (length (dims coef)) then dims coef else dims x in
  compare_dimensions odims (dims x) = false -> compare_dimensions odims (dims coef) = false ->
  i_sheval trapping x csize coef ci co mode internal deg sp sg mem = None.
Proof.
  intros H odims D1 D2. unfold i_sheval. cbv zeta. fold (used_degree csize deg).
  unfold odims in D1, D2. rewrite D1, D2. cbn [orb].
  assert (46340 <= size_to_degree csize /\ ((2147483647 <? size_to_degree csize) && (deg <? 0) = false)).
  { unfold used_degree in H.
    destruct (Z.ltb_spec deg 0), (Z.ltb_spec (size_to_degree csize) deg), (Z.ltb_spec 2147483647 (size_to_degree csize));
      cbn [orb andb] in *; split; (reflexivity || lia). }
  destruct H0 as [H0 ->]. destruct (Z.ltb_spec (size_to_degree csize) 0); [lia|].
  unfold i_model_init. destruct mem as [[[[[? ?] ?] ?] ?] ?]. destruct sg as [[? ?] ?].
  unfold i_sizes. rewrite nterm_overflow by lia. reflexivity.
Qed.

(** a position of which the geocentric latitude is close to a pole *)
Lemma sheval_pole_overflow lat lon r csize cf co mode internal deg sp sg mem :
  23172 <= used_degree csize deg <= 46339 -> near_pole lat ->
  i_sheval trapping {| dims := []; get := fun _ => (lat, lon, r) |} csize {| dims := []; get := fun _ => cf |}
    CT_GEOCENTRIC_SPHERICAL co mode internal deg sp sg mem = None.
Proof.
  intros H P. unfold i_sheval. cbv zeta. fold (used_degree csize deg). cbn [dims length Nat.ltb Nat.leb compare_dimensions orb].
  destruct (Z.ltb_spec (size_to_degree csize) 0).
  { exfalso. unfold used_degree in H. destruct (Z.ltb_spec deg 0), (Z.ltb_spec (size_to_degree csize) deg); cbn [orb] in *; lia. }
  assert ((2147483647 <? size_to_degree csize) && (deg <? 0) = false) as ->.
  { unfold used_degree in H. destruct (Z.ltb_spec deg 0), (Z.ltb_spec 2147483647 (size_to_degree csize)); cbn [orb andb] in *; (reflexivity || lia). }
  rewrite model_init_exact by (try apply trapping_conforming; lia).
  unfold model_init. destruct mem as [[[[[? ?] ?] ?] ?] ?]. destruct sg as [[? ?] ?].
  cbn [i_sheval_items]. unfold i_model_eval. cbn [get].
  unfold input_coordinates. cbn [coord_in coord_out].
  assert (Q : forall l d s1 s2, i_legendre trapping l d (Z.to_nat (used_degree csize deg)) (DG2RAD * lat)%R s1 s2 = None).
  { intros. apply legendre_overflow. right. split; [lia|]. rewrite Rmult_comm. exact P. }
  destruct co; cbn [elps_a elps_eps2];
    repeat match goal with |- context [geocentric_sph2geodetic ?a ?b ?c ?d ?e] =>
      destruct (geocentric_sph2geodetic a b c d e) as [[? ?] ?] end;
    cbn [clat_last neq_last lp ldp degree psqrt prsqrt]; rewrite Q; reflexivity.
Qed.

(** ** Integers which wrap around *)

Lemma wrapped_nterm_large degree : 46340 <= degree <= 65534 ->
  exists n, i_nterm wrapping degree = Some n /\ 2 ^ 63 <= bytes n 8 /\ 2 ^ 63 <= bytes n 16.
Proof.
  intros H. unfold i_nterm. cbn [ev].
  rewrite (wrapping_conforming (degree + 1)), (wrapping_conforming (degree + 2)) by (unfold int32; lia).
  cbv beta iota. set (p := (degree + 1) * (degree + 2)). change (wrapping p) with (Some (wrap32 p)).
  assert (2 ^ 31 <= p < 2 ^ 32) by (unfold p; nia).
  assert (W : wrap32 p = p - 2 ^ 32).
  { unfold wrap32. rewrite <- (Z.mod_add (p + 2 ^ 31) (-1) (2 ^ 32)) by lia. rewrite Z.mod_small by lia. lia. }
  rewrite W. assert (Q : - 2 ^ 30 <= Z.quot (p - 2 ^ 32) 2 < 0).
  { pose proof (pairs_double degree ltac:(lia)) as D. fold p in D.
    replace (p - 2 ^ 32) with ((pairs degree - 2 ^ 31) * 2) by lia. rewrite Z.quot_mul by lia. lia. }
  rewrite wrapping_conforming by (unfold int32; lia).
  eexists. split; [reflexivity|]. set (n := Z.quot (p - 2 ^ 32) 2) in *.
  unfold bytes. replace (n mod 2 ^ 64) with (n + 2 ^ 64)
    by (rewrite <- (Z.mod_add n 1 (2 ^ 64)), Z.mod_small by lia; lia).
  split.
  - replace ((n + 2 ^ 64) * 8) with (n * 8 + 2 ^ 64 + 7 * 2 ^ 64) by ring.
    rewrite Z.mod_add, Z.mod_small by lia. lia.
  - replace ((n + 2 ^ 64) * 16) with (n * 16 + 2 ^ 64 + 15 * 2 ^ 64) by ring.
    rewrite Z.mod_add, Z.mod_small by lia. lia.
Qed.

Lemma wrapped_nterm_small degree : 65535 <= degree <= 80263 ->
  i_nterm wrapping degree = Some (pairs degree - 2 ^ 31) /\
  i_write_in_bounds (pairs degree - 2 ^ 31) (degree, 0) = false /\ 32768 <= pairs degree - 2 ^ 31.
Proof.
  intros H. pose proof (pairs_double degree ltac:(lia)) as D.
  split; [|split].
  - unfold i_nterm. cbn [ev].
    rewrite (wrapping_conforming (degree + 1)), (wrapping_conforming (degree + 2)) by (unfold int32; lia).
    cbv beta iota. rewrite <- D. change (wrapping (2 * pairs degree)) with (Some (wrap32 (2 * pairs degree))).
    assert (W : wrap32 (2 * pairs degree) = (pairs degree - 2 ^ 31) * 2).
    { unfold wrap32. rewrite <- (Z.mod_add (2 * pairs degree + 2 ^ 31) (-1) (2 ^ 32)) by lia.
      rewrite Z.mod_small by nia. lia. }
    rewrite W, Z.quot_mul by lia. apply wrapping_conforming. unfold int32. nia.
  - unfold i_write_in_bounds, i_row, nm_offset. cbn [Z.ltb Z.compare]. rewrite Z.add_0_r, Z.mul_1_l.
    pose proof (half_triangle (Z.to_nat degree)) as T. rewrite Z2Nat.id in T by lia.
    pose proof (triangle_z (Z.to_nat degree)) as T2. rewrite Z2Nat.id in T2 by lia.
    rewrite T. set (o := Z.of_nat _) in *. clearbody o.
    apply Z.ltb_ge. unfold wrap32.
    destruct (Z.lt_ge_cases o (2 ^ 31)).
    + rewrite Z.mod_small by nia. rewrite Z.abs_eq by nia. nia.
    + rewrite <- (Z.mod_add (o + 2 ^ 31) (-1) (2 ^ 32)) by lia. rewrite Z.mod_small by nia.
      rewrite Z.abs_neq by nia. nia.
  - nia.
Qed.

Lemma row_exact n m degree : 0 <= n <= degree -> degree <= 46339 -> Z.abs m <= n ->
  i_row (nm_offset (n, m)) = n * (n + 1) / 2 + Z.abs m /\ i_write_in_bounds (pairs degree) (n, m) = true.
Proof.
  intros Hn Hd Hm.
  pose proof (half_triangle (Z.to_nat n)) as T. rewrite Z2Nat.id in T by lia.
  pose proof (triangle_z (Z.to_nat n)) as T2. rewrite Z2Nat.id in T2 by lia.
  pose proof (pairs_double degree ltac:(lia)) as D.
  assert (E : i_row (nm_offset (n, m)) = n * (n + 1) / 2 + Z.abs m).
  { unfold i_row, nm_offset. rewrite T.
    replace (n * (n + 1) / 2) with (Z.of_nat (Z.to_nat n * (Z.to_nat n + 1) / 2))
      by (rewrite <- T, Z.quot_div_nonneg by nia; reflexivity).
    set (o := Z.of_nat _) in *. clearbody o. unfold wrap32.
    destruct (Z.ltb_spec m 0); rewrite Z.mod_small by nia; lia. }
  split; [exact E|]. unfold i_write_in_bounds. rewrite E.
  replace (n * (n + 1) / 2) with (Z.of_nat (Z.to_nat n * (Z.to_nat n + 1) / 2))
    by (rewrite <- T, Z.quot_div_nonneg by nia; reflexivity).
  apply Z.ltb_lt. nia.
Qed.
