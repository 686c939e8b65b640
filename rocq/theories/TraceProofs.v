From Coq Require Import Bool List ZArith Reals Lia Lra.
From Verif Require Import CoefModel GeoModel ShEvalModel CoordModel CoordSpec FrameProofs CoordProofs ConvertProofs DipoleProofs TraceModel TraceSpec.
Import ListNotations.
Open Scope R_scope.

Lemma vnorm_mag v : vnorm v = magnitude v.
Proof. destruct v as [[a b] c]. reflexivity. Qed.
Lemma mag_nonneg v : 0 <= magnitude v.
Proof. apply sqrt_pos. Qed.

Section Segment.
Variables (ev : nanvec -> nanvec * nanvec) (conv : nanvec -> bool) (step : R).

(** the points of a segment without the first one *)
Fixpoint walk (n : nat) (p : nanvec) : list nanvec :=
  match n with
  | 0%nat => []
  | S n' => let q := nan_add p (nan_scale (Some step) (fst (ev p))) in
            q :: (if conv q then [] else walk n' q)
  end.

Lemma trace_loop_walk n : forall points vectors p,
  trace_loop ev conv step n points vectors p
  = (points ++ walk n p, vectors ++ map (fun p => snd (ev p)) (removelast (p :: walk n p)), last (p :: walk n p) p).
Proof.
  induction n as [|n IH]; intros points vectors p.
  - cbn [trace_loop walk removelast map last]. now rewrite !app_nil_r.
  - cbn [trace_loop walk]. cbv zeta. destruct (ev p) as [d v] eqn:E. cbn [fst].
    set (q := nan_add p (nan_scale (Some step) d)). destruct (conv q).
    + cbn [removelast map last]. rewrite E. reflexivity.
    + rewrite IH. rewrite <- !app_assoc. cbn [app].
      change (removelast (p :: q :: walk n q)) with (p :: removelast (q :: walk n q)). cbn [map]. rewrite E. cbn [snd].
      change (last (p :: q :: walk n q) p) with (last (q :: walk n q) p). f_equal.
      destruct (walk n q) as [|w ws]; [reflexivity|]. clear. revert w.
      induction ws as [|x ws IH]; intro w; [reflexivity|]. cbn [last] in *. apply IH.
Qed.

Lemma segment_walk p n : trace_segment ev conv p step n
  = (p :: walk (Z.to_nat n) p, map (fun p => snd (ev p)) (p :: walk (Z.to_nat n) p)).
Proof.
  unfold trace_segment. rewrite trace_loop_walk. cbn [app]. f_equal.
  rewrite (app_removelast_last p (l := p :: walk (Z.to_nat n) p)) at 3 by discriminate.
  rewrite map_app. reflexivity.
Qed.

Lemma walk_length n : forall p, (length (walk n p) <= n)%nat.
Proof.
  induction n as [|n IH]; intro p; cbn [walk length]; [lia|]. destruct (conv _); cbn [length]; [lia|].
  specialize (IH (nan_add p (nan_scale (Some step) (fst (ev p))))). lia.
Qed.
Lemma walk_step n : forall p i q r, nth_error (p :: walk n p) i = Some q -> nth_error (p :: walk n p) (S i) = Some r ->
  r = nan_add q (nan_scale (Some step) (fst (ev q))).
Proof.
  induction n as [|n IH]; intros p i q r H1 H2; cbn [walk] in H1, H2; [destruct i as [|[|i]]; discriminate|].
  set (q0 := nan_add p (nan_scale (Some step) (fst (ev p)))) in *.
  destruct i as [|i].
  - cbn [nth_error] in H1, H2. assert (p = q) by congruence. assert (q0 = r) by congruence. now subst.
  - change (nth_error (q0 :: (if conv q0 then [] else walk n q0)) i = Some q) in H1.
    change (nth_error (q0 :: (if conv q0 then [] else walk n q0)) (S i) = Some r) in H2.
    destruct (conv q0); [destruct i as [|[|i]]; discriminate|]. apply (IH q0 i q r H1 H2).
Qed.
Lemma walk_inner n : forall p i q, nth_error (walk n p) i = Some q -> (S i < length (walk n p))%nat -> conv q = false.
Proof.
  induction n as [|n IH]; intros p i q H1 H2; cbn [walk] in H1, H2; [destruct i; discriminate|].
  set (q0 := nan_add p (nan_scale (Some step) (fst (ev p)))) in *.
  destruct (conv q0) eqn:E; cbn [length] in H2; [lia|]. destruct i as [|i].
  - cbn [nth_error] in H1. congruence.
  - cbn [nth_error] in H1. apply (IH q0 i q H1). lia.
Qed.
Lemma walk_end n : forall p, length (walk n p) = n \/ exists q, nth_error (walk n p) (length (walk n p) - 1) = Some q /\ conv q = true.
Proof.
  induction n as [|n IH]; intro p; cbn [walk]; [left; reflexivity|].
  set (q0 := nan_add p (nan_scale (Some step) (fst (ev p)))).
  destruct (conv q0) eqn:E.
  - right. exists q0. split; [reflexivity|exact E].
  - destruct (IH q0) as [L|(q & H & C)]; [left; cbn [length]; lia|right]. exists q. split; [|exact C].
    cbn [length]. rewrite Nat.sub_succ, Nat.sub_0_r. destruct (walk n q0) as [|w ws]; [discriminate|].
    cbn [length] in H |- *. rewrite Nat.sub_succ, Nat.sub_0_r in H. exact H.
Qed.
End Segment.

Lemma converged_outside lo hi p : did_converge lo hi p = true <-> outside lo hi p.
Proof.
  unfold did_converge, outside. destruct p as [v|]; [|split; [discriminate|tauto]]. rewrite vnorm_mag.
  destruct (Rle_dec (magnitude v) lo), (Rle_dec hi (magnitude v)); cbn [orb]; split; auto; try discriminate. tauto.
Qed.
Lemma converged_within lo hi p : did_converge lo hi p = false -> within lo hi p.
Proof.
  unfold did_converge, within. destruct p as [v|]; [|tauto]. rewrite vnorm_mag.
  destruct (Rle_dec (magnitude v) lo), (Rle_dec hi (magnitude v)); cbn [orb]; try discriminate. lra.
Qed.

Lemma step_ok F radius step (backward : bool) p :
  one_step F radius (if backward then - step else step) p (nan_add p (nan_scale (Some step) (fst (model_function F backward radius p)))).
Proof.
  unfold one_step, model_function. cbn [fst]. generalize (F p). intro fv. destruct p as [[[x y] z]|].
  - destruct fv as [[[a b] c]|]; cbv beta iota zeta; [|reflexivity]. rewrite !vnorm_mag.
    destruct (Rlt_dec 0 (magnitude (a, b, c))) as [H|H].
    + right. split; [exact H|]. cbn [nan_scale nan_add]. cbv zeta. f_equal. unfold Rdiv.
      destruct backward; apply triple_eq; ring.
    + left. split; [pose proof (mag_nonneg (a, b, c)); lra|]. cbn [nan_scale nan_add]. f_equal. apply triple_eq; ring.
  - destruct fv as [[[a b] c]|]; cbv beta iota zeta; reflexivity.
Qed.
Lemma model_function_field F backward radius p : snd (model_function F backward radius p) = F p.
Proof. reflexivity. Qed.

(** ** Joined segments *)
Lemma nth_error_rev {A} (l : list A) i : (i < length l)%nat -> nth_error (rev l) i = nth_error l (length l - 1 - i).
Proof.
  induction l as [|x l IH]; cbn [length rev]; [lia|]. intro H. destruct (Nat.eq_dec i (length l)) as [->|N].
  - rewrite nth_error_app2 by (rewrite rev_length; lia). rewrite rev_length.
    replace (length l - length l)%nat with 0%nat by lia. replace (S (length l) - 1 - length l)%nat with 0%nat by lia. reflexivity.
  - rewrite nth_error_app1 by (rewrite rev_length; lia). rewrite IH by lia.
    replace (S (length l) - 1 - i)%nat with (S (length l - 1 - i)) by lia. reflexivity.
Qed.
Lemma removelast_rev {A} (x : A) l : removelast (rev (x :: l)) = rev l.
Proof. cbn [rev]. apply removelast_last. Qed.

Lemma rotate_outputs_ok co (fs cs : list nanvec) : length fs = length cs ->
  exists ws, rotate_outputs co fs (map (option_map (fun p => convert p CT_GEOCENTRIC_CARTESIAN co)) cs) = Ok ws /\ length ws = length cs /\
    forall i c f, nth_error cs i = Some c -> nth_error fs i = Some f -> exists w, nth_error ws i = Some w /\ in_frame co c f w.
Proof.
  revert cs. induction fs as [|f fs IH]; intros [|c cs] L; try discriminate.
  - exists []. split; [reflexivity|]. split; [reflexivity|]. intros [|i]; discriminate.
  - cbn [length] in L. destruct (IH cs ltac:(lia)) as (ws & E & Lw & H).
    assert (Ho : exists w, rotate_output co f (option_map (fun p => convert p CT_GEOCENTRIC_CARTESIAN co) c) = Ok w /\ in_frame co c f w).
    { unfold rotate_output, in_frame. destruct f as [u|], c as [p|]; cbn [option_map].
      - destruct co; cbn [ct_eqb].
        + destruct (convert p CT_GEOCENTRIC_CARTESIAN CT_GEODETIC_ABOVE_WGS84) as [[la lo] h] eqn:Ec.
          eexists. split; [reflexivity|]. eexists. split; [reflexivity|]. destruct p as [[a b] cc]. reflexivity.
        + destruct (convert p CT_GEOCENTRIC_CARTESIAN CT_GEOCENTRIC_SPHERICAL) as [[la lo] h] eqn:Ec.
          eexists. split; [reflexivity|]. eexists. split; [reflexivity|]. destruct p as [[a b] cc]. reflexivity.
        + eexists. split; [reflexivity|]. eexists. split; [reflexivity|]. reflexivity.
      - destruct co; cbn [ct_eqb]; eexists; (split; [reflexivity|]); intro N; [reflexivity|reflexivity|contradiction].
      - destruct co; cbn [ct_eqb]; eexists; (split; [reflexivity|]); reflexivity.
      - destruct co; cbn [ct_eqb]; eexists; (split; [reflexivity|]); reflexivity. }
    destruct Ho as (w & Ew & Hw). exists (w :: ws). cbn [map rotate_outputs]. rewrite Ew. cbn [bind]. rewrite E. cbn [bind].
    split; [reflexivity|]. split; [cbn [length]; lia|]. intros [|i] c' f' H1 H2; cbn [nth_error] in *.
    + assert (c = c') by congruence. assert (f = f') by congruence. subst. exists w. auto.
    + apply (H i c' f' H1 H2).
Qed.

Lemma trace_structure F start ci co radius lo hi step max_steps :
  let n := Z.to_nat max_steps in
  exists line k cs fs,
    trace_field_line F start ci co radius lo hi step max_steps = Ok (cs, fs) /\
    length cs = length line /\ length fs = length line /\
    (forall i p, nth_error line i = Some p ->
       nth_error cs i = Some (option_map (fun v => convert v CT_GEOCENTRIC_CARTESIAN co) p) /\
       exists w, nth_error fs i = Some w /\ in_frame co p (F p) w) /\
    (k <= n)%nat /\ (k < length line <= k + n + 1)%nat /\
    nth_error line k = Some (Some (position ci start)) /\
    (forall i p q, nth_error line i = Some p -> nth_error line (S i) = Some q ->
       ((k <= i)%nat -> one_step F radius step p q) /\ ((i < k)%nat -> one_step F radius (- step) q p)) /\
    (forall i p, nth_error line i = Some p -> (0 < i < length line - 1)%nat -> i <> k -> within lo hi p) /\
    (k = n \/ exists p, nth_error line 0 = Some p /\ outside lo hi p) /\
    (length line = k + n + 1 \/ exists p, nth_error line (length line - 1) = Some p /\ outside lo hi p)%nat.
Proof.
  cbv zeta. unfold trace_field_line. cbv zeta. rewrite !segment_walk.
  set (p0 := Some (convert start ci CT_GEOCENTRIC_CARTESIAN)). set (n := Z.to_nat max_steps).
  set (evd := model_function F false radius). set (evu := model_function F true radius). set (cv := did_converge lo hi).
  set (up := walk evu cv step n p0). set (down := walk evd cv step n p0).
  cbn [map]. rewrite !removelast_rev.
  exists (rev up ++ p0 :: down), (length up).
  assert (Ef : rev (map (fun p => snd (evu p)) up) ++ snd (evd p0) :: map (fun p => snd (evd p)) down = map F (rev up ++ p0 :: down)).
  { rewrite map_app, map_rev. reflexivity. }
  assert (Eg : rev (map (fun p => snd (evu p)) up) ++ (snd (evd p0) :: map (fun p => snd (evd p)) down) = map F (rev up ++ p0 :: down)) by exact Ef.
  rewrite Eg. clear Eg Ef.
  destruct (rotate_outputs_ok co (map F (rev up ++ p0 :: down)) (rev up ++ p0 :: down) (map_length _ _)) as (ws & Ew & Lw & Hw).
  match goal with |- context [rotate_outputs co ?a ?b] => replace (rotate_outputs co a b) with (Ok (A := list nanvec) ws) by (symmetry; exact Ew) end.
  cbn [bind]. eexists. exists ws. split; [reflexivity|]. split; [apply map_length|]. split; [exact Lw|].
  assert (Lu : (length up <= n)%nat) by apply walk_length.
  assert (Ld : (length down <= n)%nat) by apply walk_length.
  assert (Ll : length (rev up ++ p0 :: down) = (length up + S (length down))%nat) by (rewrite app_length, rev_length; reflexivity).
  (* the elements of the line *)
  assert (Nd : forall i, (length up <= i)%nat -> nth_error (rev up ++ p0 :: down) i = nth_error (p0 :: down) (i - length up)).
  { intros i Hi. rewrite nth_error_app2 by (rewrite rev_length; exact Hi). now rewrite rev_length. }
  assert (Nu : forall i, (i <= length up)%nat -> nth_error (rev up ++ p0 :: down) i = nth_error (p0 :: up) (length up - i)).
  { intros i Hi. destruct (Nat.eq_dec i (length up)) as [->|N].
    - rewrite Nd by lia. now rewrite Nat.sub_diag.
    - rewrite nth_error_app1 by (rewrite rev_length; lia). rewrite nth_error_rev by lia.
      replace (length up - i)%nat with (S (length up - 1 - i)) by lia. reflexivity. }
  split.
  { intros i p Hi. split; [now apply map_nth_error|]. destruct (Hw i p (F p) Hi (map_nth_error F i _ Hi)) as (w & H1 & H2). eauto. }
  split; [exact Lu|]. split; [lia|]. split.
  { rewrite Nd by lia. rewrite Nat.sub_diag. cbn [nth_error]. unfold p0. now rewrite cart_position. }
  split.
  { intros i p q Hp Hq. split; intro Hi.
    - rewrite Nd in Hp, Hq by lia. replace (S i - length up)%nat with (S (i - length up)) in Hq by lia.
      rewrite (walk_step evd cv step n p0 _ p q Hp Hq). apply (step_ok F radius step false p).
    - rewrite Nu in Hp, Hq by lia. replace (length up - i)%nat with (S (length up - S i)) in Hp by lia.
      rewrite (walk_step evu cv step n p0 _ q p Hq Hp). apply (step_ok F radius step true q). }
  split.
  { intros i p Hp Hi Nk. destruct (Nat.lt_ge_cases i (length up)) as [L|L].
    - rewrite Nu in Hp by lia. replace (length up - i)%nat with (S (length up - 1 - i)) in Hp by lia. cbn [nth_error] in Hp.
      apply converged_within. apply (walk_inner evu cv step n p0 (length up - 1 - i) p Hp). fold up. lia.
    - rewrite Nd in Hp by lia. replace (i - length up)%nat with (S (i - length up - 1)) in Hp by lia. cbn [nth_error] in Hp.
      apply converged_within. apply (walk_inner evd cv step n p0 (i - length up - 1) p Hp). fold down. lia. }
  split.
  { destruct (walk_end evu cv step n p0) as [E|(q & Hq & Cq)]; [left; exact E|right]. fold up in Hq. exists q.
    split; [|apply converged_outside; exact Cq]. rewrite Nu by lia. rewrite Nat.sub_0_r.
    destruct up as [|u us]; [discriminate|]. cbn [length] in Hq |- *. cbn [nth_error]. rewrite Nat.sub_succ, Nat.sub_0_r in Hq. exact Hq. }
  { destruct (walk_end evd cv step n p0) as [E|(q & Hq & Cq)]; [left; fold down in E; lia|right]. fold down in Hq. exists q.
    split; [|apply converged_outside; exact Cq]. rewrite Nd by lia. rewrite Ll.
    replace (length up + S (length down) - 1 - length up)%nat with (length down) by lia.
    destruct down as [|u us]; [discriminate|]. cbn [length] in Hq |- *. cbn [nth_error]. rewrite Nat.sub_succ, Nat.sub_0_r in Hq. exact Hq. }
Qed.

(** the length of a step does not depend on the field *)
Lemma step_length F radius step p q B : one_step F radius step (Some p) q -> F (Some p) = Some B -> B <> (0, 0, 0) -> 0 < radius ->
  exists v, q = Some v /\ distance (let '(a, b, c) := v in let '(x, y, z) := p in (a - x, b - y, c - z)) = Rabs step * magnitude p / radius.
Proof.
  intros H EB NB Hr. unfold one_step in H. destruct p as [[x y] z]. rewrite EB in H. destruct B as [[a b] c].
  assert (Mp : 0 < magnitude (a, b, c)).
  { destruct (Rle_lt_or_eq_dec 0 (magnitude (a, b, c)) (mag_nonneg _)) as [L|E]; [exact L|exfalso]. symmetry in E.
    unfold magnitude, scalar in E. apply sqrt_eq_0 in E; [|nra]. apply NB.
    assert (a = 0) by nra. assert (b = 0) by nra. assert (c = 0) by nra. congruence. }
  destruct H as [[H _]|[_ H]]; [lra|]. cbv zeta in H. subst q. eexists. split; [reflexivity|].
  set (M := magnitude (a, b, c)) in *. set (P := magnitude (x, y, z)).
  assert (HP : 0 <= P) by apply mag_nonneg.
  assert (EM : M * M = a * a + b * b + c * c).
  { unfold M, magnitude, scalar. rewrite sqrt_sqrt; [ring|nra]. }
  set (k := step * P / (radius * M)). unfold distance.
  match goal with |- sqrt ?e = _ => replace e with ((Rabs step * P / radius) * (Rabs step * P / radius)) end.
  - apply sqrt_square. apply Rmult_le_pos; [|left; now apply Rinv_0_lt_compat]. apply Rmult_le_pos; [apply Rabs_pos|exact HP].
  - transitivity (k * k * (M * M)); [|rewrite EM; ring].
    transitivity ((Rabs step * Rabs step) * P * P / (radius * radius)); [field; lra|].
    assert (Ea : Rabs step * Rabs step = step * step) by (rewrite <- Rabs_mult; apply Rabs_pos_eq; nra).
    rewrite Ea. unfold k. field. split; lra.
Qed.
