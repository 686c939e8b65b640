(** spharpot and sphargrd *)

From Coq Require Import Bool List Reals Arith ZArith Lra Lia.
From Coquelicot Require Import Coquelicot.
From Verif Require Import ArrModel LegendreModel LegendreSpec LoopProofs LegendrePoly LegendreLow LegendreProofs SizeModel SizeProofs
  CoefModel ShEvalModel ShEvalSpec ShEvalSum ShEvalDeriv ShEvalProofs ShEvalGradProofs ShEvalLinProofs SpharModel SpharSpec.
Import ListNotations.
Open Scope R_scope.

(** ** The shape *)
Lemma common_shape_loop (ss : list (list nat)) : forall s : list nat,
  let r := fold_left (fun dims s' => if Nat.ltb (length dims) (length s') then s' else dims) ss s in
  In r (s :: ss) /\ forall s', In s' (s :: ss) -> (length s' <= length r)%nat.
Proof.
  induction ss as [|x ss IH]; intro s; cbn [fold_left].
  - split; [now left|]. intros s' [->|[]]. lia.
  - destruct (IH (if Nat.ltb (length s) (length x) then x else s)) as [A B]. cbv zeta.
    set (r := fold_left _ ss _) in *. clearbody r. split.
    + destruct A as [A|A]; [|now right; right]. subst r. destruct (Nat.ltb (length s) (length x)); [right; now left|now left].
    + intros s' Hs. destruct (Nat.ltb_spec (length s) (length x)) as [L|L].
      * pose proof (B x (or_introl eq_refl)). destruct Hs as [->|[->|Hs]]; [lia|lia|]. apply B. now right.
      * pose proof (B s (or_introl eq_refl)). destruct Hs as [->|[->|Hs]]; [lia|lia|]. apply B. now right.
Qed.
Lemma common_shape_spec shapes : shapes <> [] ->
  In (extract_common_shape shapes) shapes /\ forall s, In s shapes -> (length s <= length (extract_common_shape shapes))%nat.
Proof. destruct shapes as [|s ss]; [congruence|]. intros _. apply common_shape_loop. Qed.

Lemma prefix_length a b : prefix a b -> (length a <= length b)%nat.
Proof. intros [c ->]. rewrite app_length. lia. Qed.
Lemma prefix_same a b : prefix a b -> length a = length b -> a = b.
Proof. intros [c ->] E. rewrite app_length in E. destruct c; [now rewrite app_nil_r|cbn in E; lia]. Qed.

Lemma output_shape_spec shapes pairs odims : shapes <> [] ->
  (output_shape shapes pairs = Ok odims <->
    In odims shapes /\ (forall s, In s shapes -> prefix s odims) /\ forall d, In d pairs -> d = 2%nat).
Proof.
  intro N. destruct (common_shape_spec shapes N) as [A B]. unfold output_shape.
  set (c := extract_common_shape shapes) in *.
  assert (Q : forall s, In s shapes -> (compare_dimensions c s = false <-> prefix s c)) by (intros s Hs; apply compare_prefix, B, Hs).
  assert (Q1 : existsb (compare_dimensions c) shapes = false <-> forall s, In s shapes -> prefix s c).
  { split.
    - intros E s Hs. apply Q; [exact Hs|]. destruct (compare_dimensions c s) eqn:C; [|reflexivity].
      rewrite <- E. symmetry. apply existsb_exists. eauto.
    - intro P. destruct (existsb (compare_dimensions c) shapes) eqn:E; [|reflexivity]. apply existsb_exists in E.
      destruct E as (s & Hs & C). rewrite (proj2 (Q s Hs) (P s Hs)) in C. discriminate. }
  assert (Q2 : existsb (fun d => negb (Nat.eqb d 2)) pairs = false <-> forall d, In d pairs -> d = 2%nat).
  { split.
    - intros E d Hd. destruct (Nat.eqb_spec d 2); [assumption|]. exfalso. assert (existsb (fun d => negb (Nat.eqb d 2)) pairs = true); [|congruence].
      apply existsb_exists. exists d. split; [exact Hd|]. apply negb_true_iff. now apply Nat.eqb_neq.
    - intro P. destruct (existsb (fun d => negb (Nat.eqb d 2)) pairs) eqn:E; [|reflexivity]. apply existsb_exists in E.
      destruct E as (s & Hs & C). rewrite (P s Hs) in C. discriminate. }
  destruct (existsb (compare_dimensions c) shapes || existsb (fun d => negb (Nat.eqb d 2)) pairs) eqn:E.
  - split; [discriminate|]. intros (I & P & D). exfalso.
    assert (odims = c). { apply prefix_same; [|pose proof (prefix_length _ _ (P c A)); pose proof (B odims I); lia].
      assert (prefix c odims) by now apply P. rewrite <- (prefix_same c odims); [exists []; now rewrite app_nil_r|assumption|].
      pose proof (prefix_length _ _ H); pose proof (B odims I); lia. }
    subst odims. rewrite (proj2 Q1 P), (proj2 Q2 D) in E. discriminate.
  - apply orb_false_iff in E. destruct E as [E1 E2]. split.
    + intro H. assert (odims = c) by congruence. subst odims. split; [exact A|split; [now apply Q1|now apply Q2]].
    + intros (I & P & _). f_equal. apply prefix_same; [now apply P|].
      pose proof (prefix_length _ _ (P c A)); pose proof (B odims I); lia.
Qed.

(** ** The items *)
Lemma spharpot_items_value degree odims : forall rad coef lp rrp lcs,
  spharpot_items degree odims rad coef lp rrp lcs =
  map (fun ix => shc_eval_v degree (at_index rad ix) (at_index coef ix) (at_index lcs ix) (at_index lp ix) (at_index rrp ix))
    (indices odims).
Proof.
  induction odims as [|d ds IH]; intros rad coef lp rrp lcs; cbn [spharpot_items indices].
  - cbn [map]. unfold at_index. now rewrite !firstn_nil.
  - generalize (seq 0 d) as is. intro is. induction is as [|i is IHi]; [reflexivity|].
    cbn [flat_map]. rewrite map_app, map_map, <- IHi, IH. f_equal. apply map_ext. intro ix. now rewrite !at_index_item.
Qed.
Lemma sphargrd_items_value degree int odims : forall lat coef lp ldp rrp lcs,
  sphargrd_items degree int odims lat coef lp ldp rrp lcs =
  map (fun ix => shc_eval_dv degree (at_index lat ix * DG2RAD) (at_index coef ix) (at_index lcs ix) (at_index lp ix)
         (at_index ldp ix) (at_index rrp ix) int) (indices odims).
Proof.
  induction odims as [|d ds IH]; intros lat coef lp ldp rrp lcs; cbn [sphargrd_items indices].
  - cbn [map]. unfold at_index. now rewrite !firstn_nil.
  - generalize (seq 0 d) as is. intro is. induction is as [|i is IHi]; [reflexivity|].
    cbn [flat_map]. rewrite map_app, map_map, <- IHi, IH. f_equal. apply map_ext. intro ix. now rewrite !at_index_item.
Qed.

Lemma nd0_at {A} (a : A) ix : at_index (nd0 a) ix = a.
Proof. reflexivity. Qed.
Lemma prefix_refl a : prefix a a.
Proof. exists []. now rewrite app_nil_r. Qed.

Definition potential_shapes (rad : nd R) (coef : nd coefs) (lp rrp : nd arr) (lcs : nd coefs) : list (list nat) :=
  [dims rad; dims coef; dims lp; dims rrp; dims lcs].

Lemma output_shape_nil shapes pairs : (forall s, In s shapes -> s = []) -> (forall d, In d pairs -> d = 2%nat) ->
  shapes <> [] -> output_shape shapes pairs = Ok [].
Proof.
  intros H D N. apply output_shape_spec; [exact N|]. split; [|split; [|exact D]].
  - destruct shapes as [|s ss]; [congruence|]. left. apply H. now left.
  - intros s Hs. rewrite (H s Hs). apply prefix_refl.
Qed.

Lemma spharpot_pointwise rad csize cpair coef lpsize lp rsize rrp lsize lpair lcs degree odims out :
  spharpot rad csize cpair coef lpsize lp rsize rrp lsize lpair lcs degree = Ok (odims, out) ->
  length out = length (indices odims) /\
  forall k ix, nth_error (indices odims) k = Some ix ->
    exists v, nth_error out k = Some v /\
      spharpot (nd0 (at_index rad ix)) csize cpair (nd0 (at_index coef ix)) lpsize (nd0 (at_index lp ix))
        rsize (nd0 (at_index rrp ix)) lsize lpair (nd0 (at_index lcs ix)) degree = Ok ([], [v]).
Proof.
  unfold spharpot. destruct (applied_degree _ degree) as [d|e]; [|discriminate].
  destruct (output_shape [dims rad; _; _; _; _] _) as [od|e] eqn:E; [|discriminate].
  intro H. assert (od = odims) by congruence. subst od. assert (out = spharpot_items d odims rad coef lp rrp lcs) by congruence. subst out.
  apply output_shape_spec in E; [|discriminate]. destruct E as (_ & _ & D).
  rewrite spharpot_items_value. split; [apply map_length|]. intros k ix Hk. eexists. split; [apply map_nth_error; exact Hk|].
  rewrite output_shape_nil; [reflexivity| |exact D|discriminate].
  cbn [nd0 dims In]. intuition.
Qed.
Lemma sphargrd_pointwise lat csize cpair coef lpsize lp ldpsize ldp rsize rrp lsize lpair lcs int degree odims out :
  sphargrd lat csize cpair coef lpsize lp ldpsize ldp rsize rrp lsize lpair lcs int degree = Ok (odims, out) ->
  length out = length (indices odims) /\
  forall k ix, nth_error (indices odims) k = Some ix ->
    exists v, nth_error out k = Some v /\
      sphargrd (nd0 (at_index lat ix)) csize cpair (nd0 (at_index coef ix)) lpsize (nd0 (at_index lp ix))
        ldpsize (nd0 (at_index ldp ix)) rsize (nd0 (at_index rrp ix)) lsize lpair (nd0 (at_index lcs ix)) int degree
      = Ok ([], [v]).
Proof.
  unfold sphargrd. destruct (applied_degree _ degree) as [d|e]; [|discriminate].
  destruct (output_shape [dims lat; _; _; _; _; _] _) as [od|e] eqn:E; [|discriminate].
  intro H. assert (od = odims) by congruence. subst od.
  assert (out = sphargrd_items d int odims lat coef lp ldp rrp lcs) by congruence. subst out.
  apply output_shape_spec in E; [|discriminate]. destruct E as (_ & _ & D).
  rewrite sphargrd_items_value. split; [apply map_length|]. intros k ix Hk. eexists. split; [apply map_nth_error; exact Hk|].
  rewrite output_shape_nil; [reflexivity| |exact D|discriminate].
  cbn [nd0 dims In]. intuition.
Qed.

(** ** The degree *)
Lemma applied_degree_spec degrees degree d : degrees <> [] ->
  (exists x, In x degrees /\ (x <= 2147483647)%Z) ->
  (applied_degree degrees degree = Ok d <->
    (forall x, In x degrees -> 0 <= x)%Z /\
    (exists x, (In x degrees \/ (0 <= degree)%Z /\ x = degree) /\ Z.of_nat d = x) /\
    (forall x, In x degrees -> (Z.of_nat d <= x)%Z) /\ ((0 <= degree)%Z -> (Z.of_nat d <= degree)%Z)).
Proof.
  intros N [x0 [Hx0 Hx1]]. unfold applied_degree. cbv zeta.
  destruct (get_max_degree degrees) as [idx m] eqn:E. cbn [snd].
  destruct (get_max_degree_spec degrees idx m N E) as (A & _ & B). apply nth_error_In in A.
  assert (m <= 2147483647)%Z by (specialize (B x0 Hx0); lia).
  destruct (Z.ltb_spec m 0).
  { split; [discriminate|]. intros (P & _). specialize (P m A). lia. }
  destruct (Z.ltb_spec 2147483647 m); [lia|]. cbn [andb].
  assert (P : forall x, In x degrees -> (0 <= x)%Z) by (intros x Hx; specialize (B x Hx); lia).
  match goal with |- (Ok (Z.to_nat ?e) = _) <-> _ => set (md := e) end.
  assert (M : (0 <= md <= m)%Z /\ ((0 <= degree)%Z -> (md <= degree)%Z) /\ (md = m \/ (0 <= degree)%Z /\ md = degree)).
  { unfold md. destruct (Z.ltb_spec degree 0); [cbn [orb]; lia|]. destruct (Z.ltb_spec m degree); cbn [orb]; lia. }
  clearbody md. destruct M as (M1 & M2 & M3). split.
  - intro H'. assert (d = Z.to_nat md) by congruence. subst d. rewrite Z2Nat.id by lia.
    split; [exact P|split; [|split; [|exact M2]]].
    + destruct M3 as [->|[? ->]]; [exists m; tauto|exists degree; tauto].
    + intros x Hx. specialize (B x Hx). lia.
  - intros (_ & (x & Hx & Ex) & C & D). f_equal. specialize (C m A).
    assert (Z.of_nat d = md); [|lia]. destruct Hx as [Hx|[Hx ->]].
    + specialize (B x Hx). destruct M3 as [M3|[M3 ->]]; lia.
    + specialize (M2 Hx). destruct M3 as [M3|[M3 ->]]; lia.
Qed.

(** ** The arrays calculated by legendre, relradpow and loncossin *)
Lemma legendre_rows lats dl mem junk i lat d : nth_error lats i = Some lat -> -90 <= lat <= 90 -> (d <= dl)%nat ->
  lp_ok d (DG2RAD * lat)
    (fun k => fst (legendre lats dl mem junk) (i * nm_size dl + k)%nat)
    (fun k => snd (legendre lats dl mem junk) (i * nm_size dl + k)%nat).
Proof.
  intros Hi Hl Hd n m Hn. rewrite asin_sin by now apply lat_range.
  replace (DG2RAD * lat) with (lat * PI / 180) by (unfold DG2RAD; field). split.
  - now apply legendre_value; [..|lia].
  - symmetry. apply is_derive_unique. now apply legendre_derivative; [..|lia].
Qed.
Lemma loncossin_rows lons dc fast mem i lon d : nth_error lons i = Some lon -> (d <= dc)%nat ->
  lcs_ok d (DG2RAD * lon) (fun k => loncossin lons dc fast mem (i * (dc + 1) + k)%nat).
Proof.
  intros Hi Hd k Hk. rewrite (loncossin_value _ _ _ _ _ _ _ Hi) by lia.
  replace (DG2RAD * lon) with (lon * PI / 180) by (unfold DG2RAD; field). reflexivity.
Qed.
Lemma relradpow_rows radii dr ref int mem i rad d : List.Forall (fun x => x <> 0) radii ->
  nth_error radii i = Some rad -> ref <> 0 -> (d <= dr)%nat ->
  rrp_ok int d (rad / ref) (fun k => relradpow radii dr ref int mem (i * (dr + 1) + k)%nat).
Proof.
  intros Hr Hi H0 Hd k Hk.
  assert (Hr0 : rad <> 0) by (rewrite List.Forall_forall in Hr; apply Hr, (nth_error_In _ _ Hi)).
  destruct int.
  - rewrite (relradpow_internal _ _ _ _ _ rad) by (auto; lia). unfold rr. f_equal. field. auto.
  - rewrite (relradpow_external _ _ _ _ _ rad) by (auto; lia). unfold rr. destruct k as [|k].
    + cbn [Z.of_nat]. change (0 - 1)%Z with (-1)%Z. change (powerRZ (rad / ref) (-1)) with (/ (rad / ref) ^ 1). field. auto.
    + replace (Z.of_nat (S k) - 1)%Z with (Z.of_nat k) by lia. now rewrite <- pow_powerRZ.
Qed.

Lemma indices_1 n : indices [n] = map (fun i => [i]) (seq 0 n).
Proof. cbn [indices map]. generalize (seq 0 n) as l. induction l as [|x l IH]; [reflexivity|]. cbn. now rewrite IH. Qed.

Lemma T_double k : (2 * T k = k * (k + 1))%nat.
Proof. induction k as [|k IH]; [reflexivity|]. rewrite T_S. nia. Qed.

Lemma nm_size_degree dl : (Z.of_nat dl < 2 ^ 24)%Z -> size_to_degree (Z.of_nat (nm_size dl)) = Z.of_nat dl.
Proof.
  intro H.
  assert (E : (2 * Z.of_nat (nm_size dl) = (Z.of_nat dl + 1) * (Z.of_nat dl + 2))%Z).
  { rewrite T_size. pose proof (T_double (S dl)) as D. nia. }
  apply degree_of_full_size; [lia|exact E|]. nia.
Qed.

Section Vectors.
Variables (lats lons radii : list R) (n : nat).
Hypotheses (Nlat : length lats = n) (Nlon : length lons = n) (Nrad : length radii = n).
Hypotheses (Hlat : forall x, In x lats -> -90 <= x <= 90) (Hrad : forall x, In x radii -> x <> 0).
Variables (csize deg : Z) (coef : nd coefs) (D0 : nat).
Hypotheses (Hc : (1 <= csize < 2 ^ 50)%Z) (HD : expansion_degree csize deg D0) (Hcoef : dims coef = [] \/ dims coef = [n]).
Variables (internal fast : bool) (ref : R).
Hypothesis Href : ref <> 0.
Variables (dl dr dc : nat) (mem : arr * arr) (junk mem_r : arr) (mem_c : coefs).
Hypothesis Hdl : (Z.of_nat dl < 2 ^ 24)%Z.

Let lp := rows n (nm_size dl) (fst (legendre lats dl mem junk)).
Let ldp := rows n (nm_size dl) (snd (legendre lats dl mem junk)).
Let rrp := rows n (dr + 1) (relradpow radii dr ref internal mem_r).
Let lcs := rows n (dc + 1) (loncossin lons dc fast mem_c).
Let D := Nat.min D0 (Nat.min dl (Nat.min dr dc)).
Let lsz := Z.of_nat (nm_size dl).
Let rsz := Z.of_nat (dr + 1).
Let csz := Z.of_nat (dc + 1).

Lemma csize_degree : exists m : nat, size_to_degree csize = Z.of_nat m /\ D0 = (if (deg <? 0)%Z then m else Nat.min (Z.to_nat deg) m)
  /\ (Z.of_nat m < 2 ^ 26)%Z.
Proof.
  destruct HD as (m & Hm & E). exists m. split; [|split; [exact E|nia]]. apply size_to_degree_spec; lia.
Qed.

Lemma degree_4 : applied_degree [size_to_degree csize; size_to_degree lsz; (rsz - 1)%Z; (csz - 1)%Z] deg = Ok D.
Proof.
  destruct csize_degree as (m & E & ED & Hm). unfold lsz. rewrite nm_size_degree, E by exact Hdl. unfold rsz, csz.
  rewrite !Nat2Z.inj_add. apply applied_degree_spec; [discriminate|exists (Z.of_nat m); split; [now left|lia]|].
  assert (H : forall x, In x [Z.of_nat m; Z.of_nat dl; (Z.of_nat dr + Z.of_nat 1 - 1)%Z; (Z.of_nat dc + Z.of_nat 1 - 1)%Z] <->
    x = Z.of_nat m \/ x = Z.of_nat dl \/ x = Z.of_nat dr \/ x = Z.of_nat dc).
  { intro x. cbn [In]. lia. }
  unfold D. split; [intros x Hx; apply H in Hx; lia|split; [|split]].
  - exists (Z.of_nat (Nat.min D0 (Nat.min dl (Nat.min dr dc)))). rewrite H. split; [|reflexivity].
    rewrite ED. destruct (Z.ltb_spec deg 0); lia.
  - intros x Hx. apply H in Hx. rewrite ED. destruct (Z.ltb_spec deg 0); lia.
  - intro. rewrite ED. destruct (Z.ltb_spec deg 0); lia.
Qed.
Lemma degree_5 : applied_degree [size_to_degree csize; size_to_degree lsz; size_to_degree lsz; (rsz - 1)%Z; (csz - 1)%Z] deg = Ok D.
Proof.
  destruct csize_degree as (m & E & ED & Hm). unfold lsz. rewrite nm_size_degree, E by exact Hdl. unfold rsz, csz.
  rewrite !Nat2Z.inj_add. apply applied_degree_spec; [discriminate|exists (Z.of_nat m); split; [now left|lia]|].
  assert (H : forall x, In x [Z.of_nat m; Z.of_nat dl; Z.of_nat dl; (Z.of_nat dr + Z.of_nat 1 - 1)%Z; (Z.of_nat dc + Z.of_nat 1 - 1)%Z] <->
    x = Z.of_nat m \/ x = Z.of_nat dl \/ x = Z.of_nat dr \/ x = Z.of_nat dc).
  { intro x. cbn [In]. lia. }
  unfold D. split; [intros x Hx; apply H in Hx; lia|split; [|split]].
  - exists (Z.of_nat (Nat.min D0 (Nat.min dl (Nat.min dr dc)))). rewrite H. split; [|reflexivity].
    rewrite ED. destruct (Z.ltb_spec deg 0); lia.
  - intros x Hx. apply H in Hx. rewrite ED. destruct (Z.ltb_spec deg 0); lia.
  - intro. rewrite ED. destruct (Z.ltb_spec deg 0); lia.
Qed.

Lemma coef_prefix : prefix (dims coef) [n].
Proof. destruct Hcoef as [->| ->]; [exists [n]; reflexivity|apply prefix_refl]. Qed.

(** the value at the location i *)
Let item (i : nat) : R * (R * R * R) :=
  let c := at_index coef [i] in
  let la := DG2RAD * nth i lats 0 in
  let lo := DG2RAD * nth i lons 0 in
  let r := nth i radii 0 in
  (val_v D internal la lo r ref c,
   (val_el D internal la lo r ref c, val_az D internal la lo r ref c, val_rd D internal la lo r ref c)).

Lemma nth_error_nth_in {A} (l : list A) i d : (i < length l)%nat -> nth_error l i = Some (nth i l d).
Proof. apply nth_error_nth'. Qed.

Lemma item_value i (mode : sheval_mode) : (i < n)%nat ->
  shc_eval D mode (DG2RAD * nth i lats 0) (nth i radii 0) (at_index coef [i]) (at_index lcs [i]) (at_index lp [i])
    (at_index ldp [i]) (at_index rrp [i]) internal =
  value D internal (DG2RAD * nth i lats 0) (DG2RAD * nth i lons 0) (nth i radii 0) ref (at_index coef [i]) mode.
Proof.
  intro Hi. apply eval_value.
  - apply (legendre_rows lats dl mem junk i); [apply nth_error_nth'; lia|apply Hlat, nth_In; lia|unfold D; lia].
  - apply (loncossin_rows lons dc fast mem_c i); [apply nth_error_nth'; lia|unfold D; lia].
  - apply (relradpow_rows radii dr ref internal mem_r i); [now apply List.Forall_forall|apply nth_error_nth'; lia|exact Href|unfold D; lia].
Qed.

Lemma spharpot_vectors :
  spharpot (vector 0 radii) csize 2 coef lsz lp rsz rrp csz 2 lcs deg = Ok ([n], map (fun i => fst (item i)) (seq 0 n)).
Proof.
  unfold spharpot. rewrite degree_4.
  match goal with |- context [output_shape ?s ?p] => rewrite (proj2 (output_shape_spec s p [n] ltac:(discriminate))) end.
  - rewrite spharpot_items_value, indices_1, map_map. do 2 f_equal. apply map_ext_in. intros i Hi. apply in_seq in Hi.
    pose proof (item_value i SM_POTENTIAL ltac:(lia)) as V. cbn [shc_eval value] in V.
    change (at_index (vector 0 radii) [i]) with (nth i radii 0). 
    exact (f_equal (fun p => match fst p with Some v => v | None => 0 end) V).
  - split; [|split].
    + left. cbn. now rewrite Nrad.
    + intros s Hs. cbn [In vector rows lp rrp lcs dims] in Hs. rewrite Nrad in Hs.
      destruct Hs as [ <- |[ <- |[ <- |[ <- |[ <- |[]]]]]]; auto using prefix_refl, coef_prefix.
    + cbn [In]. lia.
Qed.
Lemma sphargrd_vectors :
  sphargrd (vector 0 lats) csize 2 coef lsz lp lsz ldp rsz rrp csz 2 lcs internal deg = Ok ([n], map (fun i => snd (item i)) (seq 0 n)).
Proof.
  unfold sphargrd. rewrite degree_5.
  match goal with |- context [output_shape ?s ?p] => rewrite (proj2 (output_shape_spec s p [n] ltac:(discriminate))) end.
  - rewrite sphargrd_items_value, indices_1, map_map. do 2 f_equal. apply map_ext_in. intros i Hi. apply in_seq in Hi.
    pose proof (item_value i SM_GRADIENT ltac:(lia)) as V. cbn [shc_eval value] in V.
    change (at_index (vector 0 lats) [i]) with (nth i lats 0). rewrite (Rmult_comm (nth i lats 0)). 
    exact (f_equal (fun p => match snd p with Some v => v | None => (0, 0, 0) end) V).
  - split; [|split].
    + left. cbn. now rewrite Nlat.
    + intros s Hs. cbn [In vector rows lp rrp lcs dims] in Hs. rewrite Nlat in Hs.
      destruct Hs as [ <- |[ <- |[ <- |[ <- |[ <- |[ <- |[]]]]]]]; auto using prefix_refl, coef_prefix.
    + cbn [In]. lia.
Qed.

Lemma item_potential i : (i < n)%nat ->
  fst (item i) = potential internal ref (fun n m => at_index coef [i] (n * (n + 1) / 2 + m)%nat) D
    (nth i radii 0) (nth i lats 0 * (PI / 180)) (nth i lons 0 * (PI / 180)).
Proof.
  intro Hi. unfold item. cbn [fst]. rewrite val_v_eq, !deg_rad; [reflexivity| | |exact Href].
  - apply lat_range, Hlat, nth_In. lia.
  - apply Hrad, nth_In. lia.
Qed.
End Vectors.

(** ** The theorems *)
Lemma nth_of {A} (l : list A) i x d : nth_error l i = Some x -> nth i l d = x.
Proof. intro H. now apply nth_error_nth. Qed.
Lemma nth_error_map_seq {A} (f : nat -> A) n i : (i < n)%nat -> nth_error (map f (seq 0 n)) i = Some (f i).
Proof. intro H. apply map_nth_error. rewrite (nth_error_nth' _ 0%nat) by (rewrite seq_length; lia). now rewrite seq_nth by lia. Qed.

Lemma sphar_potential lats lons radii n csize deg coef D0 internal fast ref dl dr dc mem junk mem_r mem_c :
  length lats = n -> length lons = n -> length radii = n ->
  (forall x, In x lats -> -90 <= x <= 90) -> (forall x, In x radii -> x <> 0) -> ref <> 0 ->
  (1 <= csize < 2 ^ 50)%Z -> expansion_degree csize deg D0 -> dims coef = [] \/ dims coef = [n] -> (Z.of_nat dl < 2 ^ 24)%Z ->
  exists out,
    spharpot (vector 0 radii) csize 2 coef
      (Z.of_nat (nm_size dl)) (rows n (nm_size dl) (fst (legendre lats dl mem junk)))
      (Z.of_nat (dr + 1)) (rows n (dr + 1) (relradpow radii dr ref internal mem_r))
      (Z.of_nat (dc + 1)) 2 (rows n (dc + 1) (loncossin lons dc fast mem_c)) deg = Ok ([n], out) /\
    length out = n /\
    forall i lat lon rad, nth_error lats i = Some lat -> nth_error lons i = Some lon -> nth_error radii i = Some rad ->
      nth_error out i = Some (potential internal ref (fun n m => at_index coef [i] (n * (n + 1) / 2 + m)%nat)
        (Nat.min D0 (Nat.min dl (Nat.min dr dc))) rad (lat * (PI / 180)) (lon * (PI / 180))).
Proof.
  intros N1 N2 N3 Hl Hr H0 Hc HD Hcf Hdl. eexists. split; [apply spharpot_vectors with (D0 := D0); auto|].
  split; [now rewrite map_length, seq_length|]. intros i lat lon rad E1 E2 E3.
  assert (Hi : (i < n)%nat) by (rewrite <- N1; apply nth_error_Some; congruence).
  rewrite nth_error_map_seq by exact Hi. f_equal. rewrite (item_potential lats lons radii n) by auto.
  now rewrite (nth_of _ _ _ 0 E1), (nth_of _ _ _ 0 E2), (nth_of _ _ _ 0 E3).
Qed.

Lemma sphar_gradient lats lons radii n csize deg coef D0 internal fast ref dl dr dc mem junk mem_r mem_c :
  length lats = n -> length lons = n -> length radii = n ->
  (forall x, In x lats -> -90 <= x <= 90) -> (forall x, In x radii -> x <> 0) -> ref <> 0 ->
  (1 <= csize < 2 ^ 50)%Z -> expansion_degree csize deg D0 -> dims coef = [] \/ dims coef = [n] -> (Z.of_nat dl < 2 ^ 24)%Z ->
  exists out,
    sphargrd (vector 0 lats) csize 2 coef
      (Z.of_nat (nm_size dl)) (rows n (nm_size dl) (fst (legendre lats dl mem junk)))
      (Z.of_nat (nm_size dl)) (rows n (nm_size dl) (snd (legendre lats dl mem junk)))
      (Z.of_nat (dr + 1)) (rows n (dr + 1) (relradpow radii dr ref internal mem_r))
      (Z.of_nat (dc + 1)) 2 (rows n (dc + 1) (loncossin lons dc fast mem_c)) internal deg = Ok ([n], out) /\
    length out = n /\
    forall i lat lon rad, nth_error lats i = Some lat -> nth_error lons i = Some lon -> nth_error radii i = Some rad ->
      let V := potential internal ref (fun n m => at_index coef [i] (n * (n + 1) / 2 + m)%nat)
        (Nat.min D0 (Nat.min dl (Nat.min dr dc))) in
      let th := lat * (PI / 180) in
      let ph := lon * (PI / 180) in
      exists north east up, nth_error out i = Some (north, east, up) /\
        is_derive (fun t => V rad t ph) th (rad * north) /\
        (1 / 10 ^ 10 <= cos th -> is_derive (fun p => V rad th p) ph (rad * cos th * east)) /\
        is_derive (fun r => V r th ph) rad up.
Proof.
  intros N1 N2 N3 Hl Hr H0 Hc HD Hcf Hdl. eexists. split; [apply sphargrd_vectors with (D0 := D0); auto|].
  split; [now rewrite map_length, seq_length|]. intros i lat lon rad E1 E2 E3.
  assert (Hi : (i < n)%nat) by (rewrite <- N1; apply nth_error_Some; congruence).
  rewrite nth_error_map_seq by exact Hi. cbn [snd]. rewrite (nth_of _ _ _ 0 E1), (nth_of _ _ _ 0 E2), (nth_of _ _ _ 0 E3).
  cbv zeta. rewrite !deg_rad. do 3 eexists. split; [reflexivity|].
  assert (Hr0 : rad <> 0) by apply Hr, (nth_error_In _ _ E3).
  assert (Hth : - (PI / 2) <= DG2RAD * lat <= PI / 2) by apply lat_range, Hl, (nth_error_In _ _ E1).
  split; [|split].
  - rewrite val_el_eq by auto. now apply potential_el.
  - intro C. rewrite val_az_eq by (auto; rewrite Rabs_pos_eq; lra). now apply potential_az.
  - rewrite val_rd_eq by auto. now apply potential_rd.
Qed.

Lemma nth_combine3 (a b c : list R) i d1 : (i < length a)%nat -> length b = length a -> length c = length a ->
  nth i (combine (combine a b) c) d1 = (nth i a 0, nth i b 0, nth i c 0).
Proof.
  intros H1 H2 H3. rewrite (nth_indep _ d1 (0, 0, 0)) by (rewrite !combine_length; lia).
  rewrite combine_nth by (rewrite combine_length; lia). now rewrite combine_nth by lia.
Qed.
Lemma combine_map {A B C} (f : A -> B) (g : A -> C) l : combine (map f l) (map g l) = map (fun x => (f x, g x)) l.
Proof. induction l as [|x l IH]; [reflexivity|]. cbn. now rewrite IH. Qed.

Lemma sphar_sheval lats lons radii n csize deg coef D0 internal fast dl dr dc mem junk mem_r mem_c mem_s :
  length lats = n -> length lons = n -> length radii = n ->
  (forall x, In x lats -> -90 <= x <= 90) -> (forall x, In x radii -> x <> 0) ->
  (1 <= csize < 2 ^ 50)%Z -> expansion_degree csize deg D0 -> dims coef = [] \/ dims coef = [n] -> (Z.of_nat dl < 2 ^ 24)%Z ->
  exists pot grd,
    spharpot (vector 0 radii) csize 2 coef
      (Z.of_nat (nm_size dl)) (rows n (nm_size dl) (fst (legendre lats dl mem junk)))
      (Z.of_nat (dr + 1)) (rows n (dr + 1) (relradpow radii dr 6371.2 internal mem_r))
      (Z.of_nat (dc + 1)) 2 (rows n (dc + 1) (loncossin lons dc fast mem_c)) deg = Ok ([n], pot) /\
    sphargrd (vector 0 lats) csize 2 coef
      (Z.of_nat (nm_size dl)) (rows n (nm_size dl) (fst (legendre lats dl mem junk)))
      (Z.of_nat (nm_size dl)) (rows n (nm_size dl) (snd (legendre lats dl mem junk)))
      (Z.of_nat (dr + 1)) (rows n (dr + 1) (relradpow radii dr 6371.2 internal mem_r))
      (Z.of_nat (dc + 1)) 2 (rows n (dc + 1) (loncossin lons dc fast mem_c)) internal deg = Ok ([n], grd) /\
    sheval (vector (0, 0, 0) (combine (combine lats lons) radii)) csize coef
      CT_GEOCENTRIC_SPHERICAL CT_GEOCENTRIC_SPHERICAL SM_POTENTIAL_AND_GRADIENT internal
      (Z.of_nat (Nat.min D0 (Nat.min dl (Nat.min dr dc)))) 1 (1, 1, 1) mem_s
    = Ok ([n], map (fun vg => (Some (fst vg), Some (snd vg))) (combine pot grd)).
Proof.
  intros N1 N2 N3 Hl Hr Hc HD Hcf Hdl. set (D := Nat.min D0 _).
  do 2 eexists. split; [apply spharpot_vectors with (D0 := D0); auto using ref_nz|].
  split; [apply sphargrd_vectors with (D0 := D0); auto using ref_nz|].
  rewrite combine_map, map_map. cbn [fst snd]. fold D.
  set (x := vector _ _).
  assert (Hx : dims x = [n]) by (unfold x, vector; cbn [dims]; rewrite !combine_length; do 2 f_equal; lia).
  destruct (call_ok_size csize (Z.of_nat D) Hc) as [C1 C2].
  destruct (proj2 (sheval_succeeds x csize coef CT_GEOCENTRIC_SPHERICAL CT_GEOCENTRIC_SPHERICAL SM_POTENTIAL_AND_GRADIENT internal
    (Z.of_nat D) 1 (1, 1, 1) mem_s)) as [[od out] E].
  { split; [exact C1|split; [exact C2|right]]. rewrite Hx. destruct Hcf as [->| ->]; [exists [n]; reflexivity|apply prefix_refl]. }
  rewrite E. destruct (sheval_value _ _ _ _ _ _ _ _ _ _ _ _ _ E) as [E1 E2].
  assert (E3 : od = [n]). { rewrite E1, Hx. destruct Hcf as [->| ->]; cbn [length Nat.ltb Nat.leb]; reflexivity. }
  rewrite E2, E3. do 2 f_equal. rewrite indices_1, map_map. apply map_ext_in. intros i Hi. apply in_seq in Hi.
  assert (ED : eff_degree csize (Z.of_nat D) = D).
  { apply eff_degree_spec; [exact Hc|]. destruct HD as (m & Hm & ED0). exists m. split; [exact Hm|].
    destruct (Z.ltb_spec (Z.of_nat D) 0); [lia|]. rewrite Nat2Z.id. unfold D. destruct (Z.ltb_spec deg 0); lia. }
  rewrite ED.
  assert (P : at_index x [i] = (nth i lats 0, nth i lons 0, nth i radii 0)).
  { unfold at_index. rewrite Hx. cbn [length firstn]. unfold x, vector. cbn [get hd]. apply nth_combine3; lia. }
  rewrite P. unfold point_value, cfg0. cbn [model_init fst input_coordinates coord_in coord_out project_gradient
    is_internal degree crad_ref scale_potential scale_gradient0 scale_gradient1 scale_gradient2 value].
  now rewrite !Rmult_1_r.
Qed.

Lemma spharpot_shape rad csize coef lpsize lp rsize rrp lsize lcs degree :
  (1 <= csize < 2 ^ 50)%Z -> (1 <= lpsize < 2 ^ 50)%Z -> (1 <= rsize)%Z -> (1 <= lsize)%Z ->
  let shapes := [dims rad; dims coef; dims lp; dims rrp; dims lcs] in
  ((exists odims out, spharpot rad csize 2 coef lpsize lp rsize rrp lsize 2 lcs degree = Ok (odims, out)) <->
    exists s, In s shapes /\ forall s', In s' shapes -> prefix s' s) /\
  forall odims out, spharpot rad csize 2 coef lpsize lp rsize rrp lsize 2 lcs degree = Ok (odims, out) ->
    In odims shapes /\ forall s, In s shapes -> prefix s odims.
Proof.
  intros Hc Hl Hr Hs shapes.
  assert (P : forall s, (1 <= s < 2 ^ 50)%Z -> (0 <= size_to_degree s < 2 ^ 26)%Z).
  { intros s H. destruct (degree_exists s ltac:(lia)) as (d & Hd & E). rewrite (size_to_degree_spec d s Hd E) by lia. nia. }
  assert (A : exists d, applied_degree [size_to_degree csize; size_to_degree lpsize; (rsize - 1)%Z; (lsize - 1)%Z] degree = Ok d).
  { unfold applied_degree. destruct (get_max_degree _) as [i m] eqn:E. cbn [snd].
    destruct (get_max_degree_spec _ i m (not_eq_sym (@nil_cons _ _ _)) E) as (A & _ & B). apply nth_error_In in A.
    pose proof (B _ (or_introl eq_refl)) as B1. pose proof (P _ Hc). pose proof (P _ Hl).
    assert (0 <= m)%Z by (cbn [In] in A; lia).
    destruct (Z.ltb_spec m 0); [lia|]. destruct (Z.ltb_spec 2147483647 m); [lia|]. cbn [andb]. eauto. }
  destruct A as [d A]. unfold spharpot. rewrite A. fold shapes.
  assert (O := fun od => output_shape_spec shapes [2; 2]%nat od ltac:(discriminate)).
  assert (Two : forall d, In d [2; 2]%nat -> d = 2%nat) by (cbn [In]; lia).
  split; [split|].
  - intros (od & out & H). destruct (output_shape shapes [2; 2]%nat) as [o|e] eqn:E; [|discriminate].
    destruct (proj1 (O o) eq_refl) as (S1 & S2 & _). eauto.
  - intros (s & S1 & S2). rewrite (proj2 (O s) (conj S1 (conj S2 Two))). eauto.
  - intros od out H. destruct (output_shape shapes [2; 2]%nat) as [o|e] eqn:E; [|discriminate].
    assert (o = od) by congruence. subst o. destruct (proj1 (O od) eq_refl) as (S1 & S2 & _). auto.
Qed.
Lemma sphargrd_shape lat csize coef lpsize lp ldpsize ldp rsize rrp lsize lcs internal degree :
  (1 <= csize < 2 ^ 50)%Z -> (1 <= lpsize < 2 ^ 50)%Z -> (1 <= ldpsize < 2 ^ 50)%Z -> (1 <= rsize)%Z -> (1 <= lsize)%Z ->
  let shapes := [dims lat; dims coef; dims lp; dims ldp; dims rrp; dims lcs] in
  ((exists odims out, sphargrd lat csize 2 coef lpsize lp ldpsize ldp rsize rrp lsize 2 lcs internal degree = Ok (odims, out)) <->
    exists s, In s shapes /\ forall s', In s' shapes -> prefix s' s) /\
  forall odims out, sphargrd lat csize 2 coef lpsize lp ldpsize ldp rsize rrp lsize 2 lcs internal degree = Ok (odims, out) ->
    In odims shapes /\ forall s, In s shapes -> prefix s odims.
Proof.
  intros Hc Hl Hdl Hr Hs shapes.
  assert (P : forall s, (1 <= s < 2 ^ 50)%Z -> (0 <= size_to_degree s < 2 ^ 26)%Z).
  { intros s H. destruct (degree_exists s ltac:(lia)) as (d & Hd & E). rewrite (size_to_degree_spec d s Hd E) by lia. nia. }
  assert (A : exists d, applied_degree [size_to_degree csize; size_to_degree lpsize; size_to_degree ldpsize; (rsize - 1)%Z; (lsize - 1)%Z] degree = Ok d).
  { unfold applied_degree. destruct (get_max_degree _) as [i m] eqn:E. cbn [snd].
    destruct (get_max_degree_spec _ i m (not_eq_sym (@nil_cons _ _ _)) E) as (A & _ & B). apply nth_error_In in A.
    pose proof (B _ (or_introl eq_refl)) as B1. pose proof (P _ Hc). pose proof (P _ Hl). pose proof (P _ Hdl).
    assert (0 <= m)%Z by (cbn [In] in A; lia).
    destruct (Z.ltb_spec m 0); [lia|]. destruct (Z.ltb_spec 2147483647 m); [lia|]. cbn [andb]. eauto. }
  destruct A as [d A]. unfold sphargrd. rewrite A. fold shapes.
  assert (O := fun od => output_shape_spec shapes [2; 2]%nat od ltac:(discriminate)).
  assert (Two : forall d, In d [2; 2]%nat -> d = 2%nat) by (cbn [In]; lia).
  split; [split|].
  - intros (od & out & H). destruct (output_shape shapes [2; 2]%nat) as [o|e] eqn:E; [|discriminate].
    destruct (proj1 (O o) eq_refl) as (S1 & S2 & _). eauto.
  - intros (s & S1 & S2). rewrite (proj2 (O s) (conj S1 (conj S2 Two))). eauto.
  - intros od out H. destruct (output_shape shapes [2; 2]%nat) as [o|e] eqn:E; [|discriminate].
    assert (o = od) by congruence. subst o. destruct (proj1 (O od) eq_refl) as (S1 & S2 & _). auto.
Qed.

(** ** Example *)
Lemma ex_sphar_arrays :
  (forall x, In x [30; -45] -> -90 <= x <= 90) /\ (forall x, In x [6371.2; 7000] -> x <> 0) /\ expansion_degree 6 (-1) 2.
Proof.
  split; [|split].
  - cbn [In]. intros x H. lra.
  - cbn [In]. intros x H. lra.
  - exists 2%nat. split; [lia|reflexivity].
Qed.
Lemma ex_sphar_shape :
  let shapes := [[2; 3]; [2]; [2; 3]; []; [2; 3]]%nat in
  exists s, In s shapes /\ forall s', In s' shapes -> prefix s' s.
Proof.
  cbv zeta. exists [2; 3]%nat. split; [now left|]. cbn [In].
  intros s' [ <- |[ <- |[ <- |[ <- |[ <- |[]]]]]]; [exists []|exists [3%nat]|exists []|exists [2; 3]%nat|exists []]; reflexivity.
Qed.
