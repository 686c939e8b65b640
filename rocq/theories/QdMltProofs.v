(** Proofs about the magnetic local time of the quasi-dipole library. *)

From Coq Require Import Bool List ZArith Reals Lra Lia.
From Verif Require Import TimeModel GeoModel SunModel QdTimeModel QdSunModel QdMltModel.
From Verif Require Import CoordSpec SunSpec QdSunSpec QdMltSpec.
From Verif Require Import Atan2Proofs SunProofs QdSunProofs.
Import ListNotations.
Open Scope R_scope.

Lemma triple (a b c a' b' c' : R) : a = a' -> b = b' -> c = c' -> (a, b, c) = (a', b', c').
Proof. now intros -> -> ->. Qed.

(** * The coefficients of the dipole *)

Lemma last_cons (A : Type) (rest : list A) : forall a d, last rest a = last (a :: rest) d.
Proof.
  induction rest as [|b rest IH]; intros a d; [reflexivity|].
  change (last (a :: b :: rest) d) with (last (b :: rest) d). rewrite <- (IH b d). symmetry. apply IH.
Qed.

Lemma rows_spec date : forall rows current, epoch current <= date ->
  match cofrm_rows rows current date with
  | (c, Some n) => exists i, nth_error (current :: rows) i = Some c /\ nth_error (current :: rows) (S i) = Some n /\
      epoch c <= date < epoch n
  | (c, None) => c = last rows current /\ epoch c <= date
  end.
Proof.
  induction rows as [|next rest IH]; intros current H; cbn [cofrm_rows].
  - now split.
  - destruct (Rlt_dec date (epoch next)) as [L|L].
    + exists 0%nat. cbn [nth_error]. repeat split; assumption.
    + specialize (IH next ltac:(lra)). destruct (cofrm_rows rest next date) as [c [n|]].
      * destruct IH as (i & A & B & C). exists (S i). now cbn [nth_error].
      * destruct IH as [-> B]. split; [apply last_cons|exact B].
Qed.

Definition all_rows : list igrf_row := first_rows ++ [last_row].

Lemma all_rows_spec : map (fun r => (epoch r, (g10 r, g11 r, h11 r))) all_rows = igrf_dipole.
Proof. reflexivity. Qed.

Lemma all_rows_steps i c n : nth_error all_rows i = Some c -> nth_error all_rows (S i) = Some n ->
  epoch n - epoch c = 5 /\ 0 < h11 c /\ 0 < h11 n.
Proof.
  unfold all_rows, first_rows, last_row. cbn [app].
  do 25 (destruct i as [|i]; [cbn [nth_error]; intros [= <-] [= <-]; cbn [epoch h11 row]; lra|]).
  intros _ H. destruct i; discriminate H.
Qed.

Definition factor : R := - (1 / 200000).

Lemma factor_root : - 1e-5 * 1 / 2 / sqrt 2 / sqrt (1 / 2) = factor.
Proof.
  assert (A : sqrt 2 * sqrt (1 / 2) = 1) by (rewrite <- sqrt_mult by lra; replace (2 * (1 / 2)) with 1 by lra; apply sqrt_1).
  assert (B : 0 < sqrt 2) by (apply sqrt_lt_R0; lra). assert (C : 0 < sqrt (1 / 2)) by (apply sqrt_lt_R0; lra).
  unfold factor. replace (- 1e-5 * 1 / 2 / sqrt 2 / sqrt (1 / 2)) with (- 1e-5 / 2 * / (sqrt 2 * sqrt (1 / 2))) by (field; lra).
  rewrite A. lra.
Qed.

(** the coefficients which COFRM sets *)
Definition is_field (date : R) (saved : magcof) (c : vector) : Prop :=
  datel saved = date /\ dipole_coefficients date c /\
  let '(c0, c1, c2) := c in gb2 saved = factor * c0 /\ gb3 saved = factor * c1 /\ gb4 saved = factor * c2.

Definition load (date : R) : magcof :=
  let '(current, next) := cofrm_rows (tl first_rows ++ [last_row]) (hd last_row first_rows) date in
  let value (coefficient : igrf_row -> R) :=
    match next with
    | Some next => coefficient current + (coefficient next - coefficient current) * ((date - epoch current) / 5)
    | None => coefficient current + coefficient igrf_rates * (date - epoch current)
    end in
  {| datel := date; gb2 := value g10 * factor; gb3 := value g11 * factor; gb4 := value h11 * factor |}.

Lemma cofrm_load date saved : date <> datel saved -> 1900 <= date -> cofrm date saved = Returns (load date).
Proof.
  intros H L. unfold cofrm, load. destruct (Req_EM_T date (datel saved)); [contradiction|].
  destruct (Rlt_dec date 1900); [lra|]. rewrite factor_root.
  replace (- 1e-5 * 1 / 2) with factor by (unfold factor; lra).
  destruct (cofrm_rows _ _ _) as [current next]. reflexivity.
Qed.

Lemma cofrm_terminated date saved : date <> datel saved -> date < 1900 -> cofrm date saved = Terminated.
Proof.
  intros H L. unfold cofrm. destruct (Req_EM_T date (datel saved)); [contradiction|].
  destruct (Rlt_dec date 1900); [reflexivity|lra].
Qed.

Lemma load_field date : 1900 <= date < 2102 -> exists c0 c1 c2, is_field date (load date) (c0, c1, c2) /\ 0 < c2.
Proof.
  intros H. unfold load.
  assert (R0 : epoch (hd last_row first_rows) <= date) by (cbn; lra).
  pose proof (rows_spec date (tl first_rows ++ [last_row]) _ R0) as S0.
  change (hd last_row first_rows :: tl first_rows ++ [last_row]) with all_rows in S0.
  destruct (cofrm_rows _ _ _) as [c [n|]].
  - destruct S0 as (i & A & B & C). destruct (all_rows_steps i c n A B) as (E & P0 & P1).
    eexists _, _, _. split.
    + split; [reflexivity|]. split; [|split; [apply Rmult_comm|split; apply Rmult_comm]].
      left. exists i, (epoch c), (g10 c, g11 c, h11 c), (epoch n), (g10 n, g11 n, h11 n).
      split; [rewrite <- all_rows_spec; apply (map_nth_error (fun r => (epoch r, (g10 r, g11 r, h11 r)))), A|].
      split; [rewrite <- all_rows_spec; apply (map_nth_error (fun r => (epoch r, (g10 r, g11 r, h11 r)))), B|].
      split; [exact C|]. unfold between. rewrite E. apply triple; field.
    + set (w := (date - epoch c) / 5). assert (0 <= w < 1) by (unfold w; lra).
      replace (h11 c + (h11 n - h11 c) * w) with ((1 - w) * h11 c + w * h11 n) by ring. nra.
  - destruct S0 as [-> C]. change (last (tl first_rows ++ [last_row]) (hd last_row first_rows)) with last_row in *.
    cbn [last_row epoch row] in C.
    eexists _, _, _. split.
    + split; [reflexivity|]. split; [|split; [apply Rmult_comm|split; apply Rmult_comm]].
      right. split; [exact C|]. eexists _, _, _. split; [reflexivity|]. split; [reflexivity|]. split; [reflexivity|].
      unfold between, igrf_dipole_rates. cbn [fst snd last_row igrf_rates row epoch g10 g11 h11].
      apply triple; field.
    + cbn [last_row igrf_rates row epoch h11]. lra.
Qed.

(** * The longitude of the Sun *)

Lemma degrees x : x * RTOD * DTOR = x.
Proof. unfold RTOD, DTOR. field. apply PI_neq0. Qed.

Lemma one_degree_DTOR x : one_degree * x = x * DTOR.
Proof. unfold one_degree, DTOR. lra. Qed.

Lemma unit_scaled k a : 0 < k -> unit_vector (scaled k a) = unit_vector a.
Proof.
  intros Hk. destruct a as [[a0 a1] a2]. unfold unit_vector, scaled, inner.
  set (q := a0 * a0 + a1 * a1 + a2 * a2).
  assert (Hq : 0 <= q) by (unfold q; nra).
  replace (k * a0 * (k * a0) + k * a1 * (k * a1) + k * a2 * (k * a2)) with (k * k * q) by (unfold q; ring).
  rewrite sqrt_mult by nra. rewrite sqrt_square by lra.
  destruct (Req_dec q 0) as [Z|Z].
  - assert (a0 = 0 /\ a1 = 0 /\ a2 = 0) as (-> & -> & ->) by (unfold q in Z; repeat split; nra).
    apply triple; ring.
  - assert (0 < sqrt q) by (apply sqrt_lt_R0; lra). apply triple; field; lra.
Qed.

(** the pole in the terms of the two angles of DYPOL *)
Lemma pole_angles saved date c0 c1 c2 : is_field date saved (c0, c1, c2) -> 0 < c2 ->
  let th := fst (dypol saved) * DTOR in let ph := snd (dypol saved) * DTOR in
  0 < sin th /\ dipole_pole (c0, c1, c2) = (sin th * cos ph, sin th * sin ph, cos th).
Proof.
  intros (_ & _ & E2 & E3 & E4) P. unfold dypol. rewrite E2, E3, E4. cbn [fst snd]. rewrite !degrees.
  set (n := sqrt ((factor * c0) ^ 2 + (factor * c1) ^ 2 + (factor * c2) ^ 2)).
  set (a := factor * c0) in *. set (b := factor * c1) in *. set (d := factor * c2) in *.
  assert (Hd : d < 0) by (unfold d, factor; lra).
  assert (Hn2 : n * n = a ^ 2 + b ^ 2 + d ^ 2) by (unfold n; apply sqrt_sqrt; nra).
  assert (Hn : 0 < n) by (unfold n; apply sqrt_lt_R0; nra).
  assert (Hc : -1 <= a / n <= 1).
  { assert (E : a / n * n = a) by (field; lra). assert (- n <= a <= n) by (split; nra). split; nra. }
  destruct (atan2_cos_sin d b ltac:(right; lra)) as [C S0].
  set (r := norm2d b d) in *. assert (Hr : 0 < r) by (apply norm2d_pos; right; lra).
  assert (Hr2 : r * r = b * b + d * d) by apply norm2d_sqr.
  assert (Hs : sin (acos (a / n)) = r / n).
  { rewrite sin_acos by exact Hc. apply sqr_eq_pos; [apply sqrt_pos|apply Rlt_le, Rdiv_lt_0_compat; lra|].
    rewrite sqrt_sqrt.
    - unfold Rsqr. apply (Rmult_eq_reg_r (n * n)); [|nra].
      replace ((1 - a / n * (a / n)) * (n * n)) with (n * n - a * a) by (field; lra).
      replace (r / n * (r / n) * (n * n)) with (r * r) by (field; lra). lra.
    - unfold Rsqr. nra. }
  rewrite Hs, cos_acos by exact Hc. split; [apply Rdiv_lt_0_compat; lra|].
  unfold dipole_pole. replace (- c1, - c2, - c0) with (scaled 200000 (b, d, a)).
  - rewrite unit_scaled by lra. unfold unit_vector, scaled, inner.
    replace (sqrt (b * b + d * d + a * a)) with n by (unfold n; f_equal; ring).
    apply triple; [replace (r / n * cos (atan2 d b)) with (r * cos (atan2 d b) / n) by (field; lra); rewrite C
                  |replace (r / n * sin (atan2 d b)) with (r * sin (atan2 d b) / n) by (field; lra); rewrite S0|]; field; lra.
  - unfold scaled, a, b, d, factor. apply triple; field.
Qed.

Lemma solgmlon_range lat lon colat elon : -180 < solgmlon lat lon colat elon <= 180.
Proof.
  unfold solgmlon, RTOD. match goal with |- context [atan2 ?y ?x] => pose proof (atan2_range y x) as H; set (v := atan2 y x) in * end.
  pose proof PI_RGT_0. assert (E : v * (180 / PI) * PI = 180 * v) by (field; lra). split; nra.
Qed.

Lemma cos_latitude lat : -90 <= lat <= 90 -> sqrt (1 - sin (lat * DTOR) * sin (lat * DTOR)) = cos (lat * DTOR).
Proof.
  intros H. pose proof PI_RGT_0. apply sqr_eq_pos; [apply sqrt_pos|apply cos_ge_0; unfold DTOR; nra|].
  pose proof (sin2_cos2 (lat * DTOR)) as E. unfold Rsqr in E. rewrite sqrt_sqrt; [lra|].
  pose proof (SIN_bound (lat * DTOR)). nra.
Qed.

Lemma sin_colatitude x : 0 < sin x -> sqrt (1 - cos x * cos x) = sin x.
Proof.
  intros H. apply sqr_eq_pos; [apply sqrt_pos|lra|].
  pose proof (sin2_cos2 x) as E. unfold Rsqr in E. rewrite sqrt_sqrt; [lra|]. nra.
Qed.

Lemma solgmlon_spec lat lon colat elon pole : -90 <= lat <= 90 -> 0 < sin (colat * DTOR) ->
  pole = (sin (colat * DTOR) * cos (elon * DTOR), sin (colat * DTOR) * sin (elon * DTOR), cos (colat * DTOR)) ->
  dipole_longitude pole (direction lat lon) (solgmlon lat lon colat elon).
Proof.
  intros Hl Hc ->. unfold solgmlon. rewrite cos_latitude, sin_colatitude by assumption.
  unfold dipole_longitude, direction. rewrite !one_degree_DTOR, degrees.
  set (th := colat * DTOR) in *. set (ph := elon * DTOR).
  replace ((lon - elon) * DTOR) with (lon * DTOR - ph) by (unfold ph; ring).
  set (la := lat * DTOR) in *. set (lo := lon * DTOR). rewrite sin_minus, cos_minus.
  assert (E : unit_vector (cross (0, 0, 1) (sin th * cos ph, sin th * sin ph, cos th)) = (- sin ph, cos ph, 0)).
  { replace (cross (0, 0, 1) (sin th * cos ph, sin th * sin ph, cos th)) with (scaled (sin th) (- sin ph, cos ph, 0)).
    - rewrite unit_scaled by assumption. unfold unit_vector, scaled, inner.
      replace (- sin ph * - sin ph + cos ph * cos ph + 0 * 0) with 1 by (pose proof (sin2_cos2 ph) as E; unfold Rsqr in E; lra).
      rewrite sqrt_1. apply triple; field.
    - unfold scaled, cross. apply triple; ring. }
  rewrite E. unfold cross, inner.
  set (x := cos la * cos th * (cos lo * cos ph + sin lo * sin ph) - sin la * sin th).
  set (y := (sin lo * cos ph - cos lo * sin ph) * cos la).
  match goal with |- exists rho, 0 <= rho /\ ?a = _ /\ ?b = _ =>
    replace a with x by (unfold x; pose proof (sin2_cos2 ph) as D; unfold Rsqr in D;
      replace (sin la * sin th) with (sin la * sin th * (sin ph * sin ph + cos ph * cos ph)) by (rewrite D; ring); ring);
    replace b with y by (unfold y; ring) end.
  destruct (Req_dec x 0) as [X|X]; [destruct (Req_dec y 0) as [Y|Y]|].
  - exists 0. rewrite X, Y. repeat split; lra.
  - destruct (atan2_cos_sin y x ltac:(now right)) as [C S0]. exists (norm2d x y). pose proof (norm2d_nonneg x y). auto.
  - destruct (atan2_cos_sin y x ltac:(now left)) as [C S0]. exists (norm2d x y). pose proof (norm2d_nonneg x y). auto.
Qed.

Lemma magloctm_spec qdlon lat lon colat elon pole : -90 <= lat <= 90 -> 0 < sin (colat * DTOR) ->
  pole = (sin (colat * DTOR) * cos (elon * DTOR), sin (colat * DTOR) * sin (elon * DTOR), cos (colat * DTOR)) ->
  magnetic_local_time pole lat lon qdlon (magloctm qdlon lat lon colat elon).
Proof.
  intros Hl Hc Hp. exists (solgmlon lat lon colat elon).
  unfold magloctm. cbv zeta. set (phi := solgmlon lat lon colat elon).
  assert (A : -180 < phi <= 180) by apply solgmlon_range.
  assert (B : dipole_longitude pole (direction lat lon) phi) by now apply solgmlon_spec.
  destruct (Rle_dec 24 ((qdlon - phi) / 15 + 12)).
  - destruct (Rlt_dec ((qdlon - phi) / 15 + 12 - 24) 0); [lra|]. exists (-1)%Z. repeat split; try assumption; lra.
  - destruct (Rlt_dec ((qdlon - phi) / 15 + 12) 0).
    + exists 1%Z. repeat split; try assumption; lra.
    + exists 0%Z. repeat split; try assumption; lra.
Qed.

Lemma magloctm_range qdlon lat lon colat elon : -360 <= qdlon < 360 -> 0 <= magloctm qdlon lat lon colat elon < 24.
Proof.
  intros H. unfold magloctm. cbv zeta. pose proof (solgmlon_range lat lon colat elon).
  set (phi := solgmlon lat lon colat elon) in *.
  destruct (Rle_dec 24 ((qdlon - phi) / 15 + 12)) as [A|A]; match goal with |- context [Rlt_dec ?x 0] => destruct (Rlt_dec x 0) end; lra.
Qed.

(** * The loop *)

(** the loop without the saved state; [mem] is the epoch of the pole in use *)
Definition used (mem : option R) (e : R) : R :=
  match mem with None => e | Some o => if Rlt_dec epoch_limit (Rabs (e - o)) then e else o end.

Fixpoint pure (points : list (R * R)) (mem : option R) : outcome (list R) :=
  match points with
  | [] => Returns []
  | (q, t) :: rest =>
      let m := used mem (t / 365.25 + 2000) in
      if Rlt_dec m 1900 then Terminated
      else
        match eval_subsol_item t with
        | Terminated => Terminated
        | Returns (lat, lon) =>
            match pure rest (Some m) with
            | Terminated => Terminated
            | Returns mlts => Returns (magloctm q lat lon (fst (dypol (load m))) (snd (dypol (load m))) :: mlts)
            end
        end
  end.

Definition good_state (saved : magcof) : Prop :=
  datel saved = -999 \/ (1900 <= datel saved /\ saved = load (datel saved)).

Definition good_memory (mem : option R) (epoch_old : R) (pole : R * R) : Prop :=
  match mem with
  | None => epoch_old = -9999.9
  | Some o => epoch_old = o /\ 1900 <= o /\ pole = dypol (load o)
  end.

Lemma load_datel date : datel (load date) = date.
Proof. unfold load. destruct (cofrm_rows _ _ _). reflexivity. Qed.

Lemma cofrm_good date saved : good_state saved -> 1900 <= date -> cofrm date saved = Returns (load date).
Proof.
  intros G H. destruct (Req_dec date (datel saved)) as [E|E]; [|now apply cofrm_load].
  unfold cofrm. destruct (Req_EM_T date (datel saved)); [|contradiction].
  destruct G as [G|[_ G]]; [lra|]. rewrite <- E in G. now rewrite <- G.
Qed.

Lemma subsol_years t lat lon : eval_subsol_item t = Returns (lat, lon) ->
  1600 <= t / 365.25 + 2000 < 2102 /\ -90 <= lat <= 90.
Proof.
  intros H. pose proof (item_range _ _ H) as B. split; [lra|].
  destruct (item_spec t B) as (lat' & lon' & u & E & _ & L & _). assert (lat = lat') by congruence. now subst.
Qed.

Lemma epoch_limit_pos : 0 < epoch_limit.
Proof. unfold epoch_limit. lra. Qed.

Lemma loop_pure points : forall saved mem epoch_old pole, good_state saved -> good_memory mem epoch_old pole ->
  match mlt_loop points saved epoch_old pole with
  | Terminated => pure points mem = Terminated
  | Returns (mlts, saved) => good_state saved /\ pure points mem = Returns mlts
  end.
Proof.
  induction points as [|[q t] rest IH]; intros saved mem epoch_old pole G M; cbn [mlt_loop pure].
  - now split.
  - set (e := t / 365.25 + 2000). cbv zeta.
    destruct (Rlt_dec epoch_limit (Rabs (e - epoch_old))) as [L|L].
    + assert (U : used mem e = e).
      { destruct mem as [o|]; [|reflexivity]. destruct M as (-> & _). cbn [used].
        destruct (Rlt_dec epoch_limit (Rabs (e - o))); [reflexivity|contradiction]. }
      rewrite U. destruct (Rlt_dec e 1900) as [B|B].
      * destruct (cofrm e saved) as [saved1|] eqn:E; [|reflexivity].
        destruct (Req_dec e (datel saved)) as [D|D]; [|rewrite cofrm_terminated in E by assumption; discriminate].
        destruct G as [G|[G _]]; [|lra].
        destruct (eval_subsol_item t) as [[lat lon]|] eqn:S0; [|reflexivity].
        apply subsol_years in S0. fold e in S0. lra.
      * rewrite cofrm_good by (auto; lra).
        destruct (eval_subsol_item t) as [[lat lon]|] eqn:S0; [|reflexivity].
        specialize (IH (load e) (Some e) e (dypol (load e))).
        assert (G1 : good_state (load e)) by (right; rewrite load_datel; split; [lra|reflexivity]).
        assert (M1 : good_memory (Some e) e (dypol (load e))) by (repeat split; lra).
        specialize (IH G1 M1). destruct (mlt_loop rest _ _ _) as [[mlts saved2]|].
        -- destruct IH as [A ->]. now split.
        -- now rewrite IH.
    + destruct mem as [o|].
      * destruct M as (-> & O & ->). cbn [used]. destruct (Rlt_dec epoch_limit (Rabs (e - o))); [contradiction|].
        destruct (Rlt_dec o 1900); [lra|].
        destruct (eval_subsol_item t) as [[lat lon]|] eqn:S0; [|reflexivity].
        specialize (IH saved (Some o) o (dypol (load o)) G).
        assert (M1 : good_memory (Some o) o (dypol (load o))) by (repeat split; lra).
        specialize (IH M1). destruct (mlt_loop rest _ _ _) as [[mlts saved2]|].
        -- destruct IH as [A ->]. now split.
        -- now rewrite IH.
      * cbn [good_memory] in M. subst epoch_old. cbn [used].
        assert (Far : e < -9990).
        { unfold epoch_limit in L. assert (Rabs (e - -9999.9) <= 1 / 365.25) by lra. apply abs_le in H. lra. }
        assert (S0 : eval_subsol_item t = Terminated) by (apply item_terminated; left; unfold e in Far; lra).
        rewrite S0. destruct (Rlt_dec e 1900); [reflexivity|lra].
Qed.

Lemma initial_good b2 b3 b4 : good_state (initial_magcof b2 b3 b4).
Proof. now left. Qed.

Lemma eval_pure any points saved : good_state saved ->
  match eval_mlt any points saved with
  | Terminated => pure points None = Terminated
  | Returns (mlts, saved) => good_state saved /\ pure points None = Returns mlts
  end.
Proof. intros G. now apply loop_pure. Qed.

Lemma session_good calls : forall saved results saved', good_state saved ->
  mlt_session calls saved = Returns (results, saved') -> good_state saved'.
Proof.
  induction calls as [|[any points] calls IH]; intros saved results saved' G H; cbn [mlt_session] in H.
  - now injection H as _ <-.
  - pose proof (eval_pure any points saved G) as P. destruct (eval_mlt any points saved) as [[mlts saved1]|]; [|discriminate].
    destruct P as [G1 _]. destruct (mlt_session calls saved1) as [[results1 saved2]|] eqn:E; [|discriminate].
    injection H as _ <-. now apply (IH saved1 results1).
Qed.

(** * The theorems *)

Lemma mlt_history b2 b3 b4 calls results saved any points :
  mlt_session calls (initial_magcof b2 b3 b4) = Returns (results, saved) ->
  forall any' d2 d3 d4 mlts,
    (exists s, eval_mlt any points saved = Returns (mlts, s)) <->
    (exists s, eval_mlt any' points (initial_magcof d2 d3 d4) = Returns (mlts, s)).
Proof.
  intros H any' d2 d3 d4 mlts. apply session_good in H; [|apply initial_good].
  pose proof (eval_pure any points saved H) as A.
  pose proof (eval_pure any' points _ (initial_good d2 d3 d4)) as B.
  destruct (eval_mlt any points saved) as [[m1 s1]|], (eval_mlt any' points _) as [[m2 s2]|].
  - destruct A as [_ A], B as [_ B]. assert (m1 = m2) by congruence. subst.
    split; intros [s E]; injection E as <- _; eauto.
  - destruct A as [_ A]. congruence.
  - destruct B as [_ B]. congruence.
  - split; intros [s E]; discriminate.
Qed.

Lemma pure_point points : forall mem mlts,
  match mem with Some o => 1900 <= o < 2102 | None => True end -> pure points mem = Returns mlts ->
  exists sun, eval_subsol (map snd points) = Returns sun /\ List.length mlts = List.length points /\
  forall i q t lat lon mlt, nth_error points i = Some (q, t) -> nth_error sun i = Some (lat, lon) ->
    nth_error mlts i = Some mlt ->
    exists e c, 1900 <= e /\ Rabs (t / 365.25 + 2000 - e) <= epoch_limit /\
      (mem = Some e \/ exists j q' t', (j <= i)%nat /\ nth_error points j = Some (q', t') /\ e = t' / 365.25 + 2000) /\
      dipole_coefficients e c /\ magnetic_local_time (dipole_pole c) lat lon q mlt.
Proof.
  induction points as [|[q t] rest IH]; intros mem mlts M H; cbn [pure] in H.
  - assert (mlts = []) by congruence. subst. exists []. repeat split. intros [|i]; discriminate.
  - cbv zeta in H. set (e := t / 365.25 + 2000) in *. destruct (Rlt_dec (used mem e) 1900) as [|L]; [discriminate|].
    destruct (eval_subsol_item t) as [[lat lon]|] eqn:S0; [|discriminate].
    destruct (pure rest (Some (used mem e))) as [mlts1|] eqn:P; [|discriminate].
    destruct (subsol_years _ _ _ S0) as [Y La]. fold e in Y.
    assert (U : used mem e < 2102 /\ Rabs (e - used mem e) <= epoch_limit /\ (mem = Some (used mem e) \/ used mem e = e)).
    { pose proof epoch_limit_pos. destruct mem as [o|]; cbn [used].
      - destruct (Rlt_dec epoch_limit (Rabs (e - o))).
        + replace (e - e) with 0 by ring. rewrite Rabs_R0. split; [lra|split; [lra|now right]].
        + split; [lra|split; [lra|now left]].
      - replace (e - e) with 0 by ring. rewrite Rabs_R0. split; [lra|split; [lra|now right]]. }
    destruct U as (U1 & U2 & U3).
    destruct (IH (Some (used mem e)) mlts1 ltac:(cbn; lra) P) as (sun & A & B & C). injection H as <-.
    exists ((lat, lon) :: sun). cbn [map snd eval_subsol List.length]. rewrite S0, A, B. split; [reflexivity|]. split; [reflexivity|].
    intros [|i] q1 t1 lat1 lon1 mlt1; cbn [nth_error].
    + intros [= <- <-] [= <- <-] [= <-].
      destruct (load_field (used mem e) ltac:(lra)) as (c0 & c1 & c2 & F & Pos).
      exists (used mem e), (c0, c1, c2). split; [lra|]. split; [exact U2|]. split.
      { destruct U3 as [U3|U3]; [now left|right]. exists 0%nat, q, t. repeat split; [lia|exact U3]. }
      split; [apply F|]. destruct (pole_angles _ _ _ _ _ F Pos) as [Th ->]. now apply magloctm_spec.
    + intros N1 N2 N3. destruct (C i q1 t1 lat1 lon1 mlt1 N1 N2 N3) as (e1 & c & E0 & E1 & E2 & E3).
      exists e1, c. split; [exact E0|]. split; [exact E1|]. split; [|exact E3].
      destruct E2 as [E2|(j & q' & t' & J & N & E2)].
      * injection E2 as <-. destruct U3 as [U3|U3]; [now left|right]. exists 0%nat, q, t. repeat split; [lia|exact U3].
      * right. exists (S j), q', t'. repeat split; [lia|exact N|exact E2].
Qed.

Lemma mlt_time b2 b3 b4 calls results saved any points mlts saved' :
  mlt_session calls (initial_magcof b2 b3 b4) = Returns (results, saved) ->
  eval_mlt any points saved = Returns (mlts, saved') ->
  exists sun, eval_subsol (map snd points) = Returns sun /\ List.length mlts = List.length points /\
  forall i q t lat lon mlt, nth_error points i = Some (q, t) -> nth_error sun i = Some (lat, lon) ->
    nth_error mlts i = Some mlt ->
    exists j q' t' c, (j <= i)%nat /\ nth_error points j = Some (q', t') /\ Rabs (t - t') <= 1 /\
      dipole_coefficients (2000 + t' / 365.25) c /\ magnetic_local_time (dipole_pole c) lat lon q mlt.
Proof.
  intros H E. apply session_good in H; [|apply initial_good].
  pose proof (eval_pure any points saved H) as A. rewrite E in A. destruct A as [_ A].
  destruct (pure_point _ None _ I A) as (sun & B & C & D). exists sun. split; [exact B|]. split; [exact C|].
  intros i q t lat lon mlt N1 N2 N3. destruct (D i q t lat lon mlt N1 N2 N3) as (e & c & _ & E1 & E2 & E3 & E4).
  destruct E2 as [E2|(j & q' & t' & J & N & ->)]; [discriminate|].
  exists j, q', t', c. split; [exact J|]. split; [exact N|]. split.
  - unfold epoch_limit in E1. apply abs_le in E1. apply Rabs_le. lra.
  - split; [|exact E4]. now rewrite Rplus_comm.
Qed.

Lemma pure_all points (P : R -> Prop) : forall mem mlts, pure points mem = Returns mlts ->
  (forall q t lat lon a b, In (q, t) points -> P (magloctm q lat lon a b)) -> List.Forall P mlts.
Proof.
  induction points as [|[q t] rest IH]; intros mem mlts H F; cbn [pure] in H.
  - assert (mlts = []) by congruence. subst. constructor.
  - cbv zeta in H. destruct (Rlt_dec _ _); [discriminate|].
    destruct (eval_subsol_item t) as [[lat lon]|]; [|discriminate].
    destruct (pure rest _) as [mlts1|] eqn:E; [|discriminate]. injection H as <-. constructor.
    + apply (F q t). now left.
    + apply (IH _ _ E). intros q' t' lat' lon' a b I0. apply (F q' t'). now right.
Qed.

Lemma mlt_range b2 b3 b4 calls results saved any points mlts saved' :
  mlt_session calls (initial_magcof b2 b3 b4) = Returns (results, saved) ->
  eval_mlt any points saved = Returns (mlts, saved') ->
  (forall q t, In (q, t) points -> -360 <= q < 360) -> List.Forall (fun mlt => 0 <= mlt < 24) mlts.
Proof.
  intros H E F. apply session_good in H; [|apply initial_good].
  pose proof (eval_pure any points saved H) as A. rewrite E in A. destruct A as [_ A].
  apply (pure_all _ _ _ _ A). intros q t lat lon a b I0. apply magloctm_range, (F q t), I0.
Qed.

Lemma pure_returns points : forall mem, match mem with Some o => 1900 <= o | None => True end ->
  (forall q t, In (q, t) points -> -36525 <= t < 36890) -> exists mlts, pure points mem = Returns mlts.
Proof.
  induction points as [|[q t] rest IH]; intros mem M F; cbn [pure]; [now exists []|].
  pose proof (F q t ltac:(now left)) as B. cbv zeta. set (e := t / 365.25 + 2000) in *.
  assert (U : 1900 <= used mem e).
  { destruct mem as [o|]; cbn [used]; [destruct (Rlt_dec _ _); [|exact M]|]; unfold e; lra. }
  destruct (Rlt_dec (used mem e) 1900); [lra|].
  destruct (item_spec t ltac:(lra)) as (lat & lon & u & -> & _).
  destruct (IH (Some (used mem e)) U) as [mlts ->]; [|eauto]. intros q' t' I0. apply (F q'). now right.
Qed.

Lemma pure_terminates points : forall mem, match mem with Some o => 1900 <= o | None => True end ->
  (exists q t, In (q, t) points /\ (t < -36526 \/ 36890 <= t)) -> pure points mem = Terminated.
Proof.
  induction points as [|[q t] rest IH]; intros mem M (q' & t' & I0 & B); cbn [pure]; [destruct I0|].
  cbv zeta. set (e := t / 365.25 + 2000) in *. destruct (Rlt_dec (used mem e) 1900) as [|L]; [reflexivity|].
  destruct I0 as [E|I0].
  - injection E as -> ->. destruct (eval_subsol_item t') as [[lat lon]|] eqn:S0; [|reflexivity].
    apply item_range in S0. exfalso. destruct B as [B|B]; [|lra].
    destruct mem as [o|]; cbn [used] in L; [|unfold e in L; lra].
    destruct (Rlt_dec epoch_limit (Rabs (e - o))) as [D|D]; [unfold e in L; lra|].
    assert (D1 : Rabs (e - o) <= epoch_limit) by lra. apply abs_le in D1. unfold epoch_limit, e in D1. lra.
  - destruct (eval_subsol_item t) as [[lat lon]|]; [|reflexivity].
    rewrite (IH (Some (used mem e))); [reflexivity|lra|]. now exists q', t'.
Qed.

Lemma mlt_terminates b2 b3 b4 calls results saved any points :
  mlt_session calls (initial_magcof b2 b3 b4) = Returns (results, saved) ->
  ((forall q t, In (q, t) points -> -36525 <= t < 36890) -> exists mlts s, eval_mlt any points saved = Returns (mlts, s)) /\
  ((exists q t, In (q, t) points /\ (t < -36526 \/ 36890 <= t)) -> eval_mlt any points saved = Terminated).
Proof.
  intros H. apply session_good in H; [|apply initial_good].
  pose proof (eval_pure any points saved H) as A. split; intros B.
  - destruct (pure_returns points None I B) as [mlts E]. rewrite E in A.
    destruct (eval_mlt any points saved) as [[m s]|]; [eauto|discriminate].
  - rewrite (pure_terminates points None I B) in A.
    destruct (eval_mlt any points saved) as [[m s]|]; [destruct A; discriminate|reflexivity].
Qed.

(** Outside of the range of the longitudes *)
Lemma mlt_out_of_range any b2 b3 b4 : exists mlt s,
  eval_mlt any [(721, 0)] (initial_magcof b2 b3 b4) = Returns ([mlt], s) /\ 24 < mlt.
Proof.
  pose proof (eval_pure any [(721, 0)] _ (initial_good b2 b3 b4)) as A.
  destruct (pure_returns [(721, 0)] None I) as [mlts E].
  { intros q t [[= <- <-]|[]]. lra. }
  rewrite E in A. destruct (eval_mlt any _ _) as [[m s]|]; [|discriminate]. destruct A as [_ A].
  assert (m = mlts) by congruence. subst m. clear A.
  cbn [pure] in E. cbv zeta in E. destruct (Rlt_dec _ _); [discriminate|].
  destruct (eval_subsol_item 0) as [[lat lon]|]; [|discriminate]. injection E as <-.
  eexists _, s. split; [reflexivity|]. unfold magloctm. cbv zeta.
  match goal with |- context [solgmlon ?a ?b ?c ?d] => pose proof (solgmlon_range a b c d); set (phi := solgmlon a b c d) in * end.
  destruct (Rle_dec 24 ((721 - phi) / 15 + 12)); [|lra].
  destruct (Rlt_dec ((721 - phi) / 15 + 12 - 24) 0); lra.
Qed.

(** A time before 1900 is accepted or not, according to the time of the point before it *)
Lemma mlt_before_1900 any b2 b3 b4 :
  eval_mlt any [(0, -36525.5)] (initial_magcof b2 b3 b4) = Terminated /\
  exists mlts s, eval_mlt any [(0, -36525); (0, -36525.5)] (initial_magcof b2 b3 b4) = Returns (mlts, s).
Proof.
  split.
  - pose proof (eval_pure any [(0, -36525.5)] _ (initial_good b2 b3 b4)) as A.
    cbn [pure used] in A. cbv zeta in A. destruct (Rlt_dec (-36525.5 / 365.25 + 2000) 1900); [|lra].
    destruct (eval_mlt any _ _) as [[m s]|]; [destruct A; discriminate|reflexivity].
  - pose proof (eval_pure any [(0, -36525); (0, -36525.5)] _ (initial_good b2 b3 b4)) as A.
    cbn [pure used] in A. cbv zeta in A. destruct (Rlt_dec (-36525 / 365.25 + 2000) 1900); [lra|].
    destruct (item_spec (-36525) ltac:(lra)) as (lat & lon & u & E & _). rewrite E in A.
    match type of A with context [Rlt_dec epoch_limit ?x] => destruct (Rlt_dec epoch_limit x) as [D|D] end.
    { exfalso. revert D. apply Rle_not_lt. unfold epoch_limit. apply Rabs_le. lra. }
    destruct (Rlt_dec (-36525 / 365.25 + 2000) 1900); [lra|].
    destruct (item_spec (-36525.5) ltac:(lra)) as (lat1 & lon1 & u1 & E1 & _). rewrite E1 in A.
    destruct (eval_mlt any _ _) as [[m s]|]; [eauto|discriminate].
Qed.

(** An example: two calls, the second one with three points *)
Lemma ex_mlt any b2 b3 b4 : exists results s mlts s',
  mlt_session [(any, [(10, 0)])] (initial_magcof b2 b3 b4) = Returns (results, s) /\
  eval_mlt any [(-170, 0); (0, 0.5); (359, 4000)] s = Returns (mlts, s') /\ List.length mlts = 3%nat /\
  List.Forall (fun mlt => 0 <= mlt < 24) mlts.
Proof.
  assert (E1 : exists m s1, eval_mlt any [(10, 0)] (initial_magcof b2 b3 b4) = Returns (m, s1)).
  { apply (mlt_terminates b2 b3 b4 [] [] (initial_magcof b2 b3 b4)); [reflexivity|].
    intros q t [E|[]]. injection E as <- <-. lra. }
  destruct E1 as (m & s1 & E1).
  assert (Es : mlt_session [(any, [(10, 0)])] (initial_magcof b2 b3 b4) = Returns ([m], s1)).
  { cbn [mlt_session]. now rewrite E1. }
  assert (E2 : exists m2 s2, eval_mlt any [(-170, 0); (0, 0.5); (359, 4000)] s1 = Returns (m2, s2)).
  { apply (mlt_terminates b2 b3 b4 _ _ s1 _ _ Es). intros q t [E|[E|[E|[]]]]; injection E as <- <-; lra. }
  destruct E2 as (m2 & s2 & E2). exists [m], s1, m2, s2. repeat split; try assumption.
  - destruct (mlt_time _ _ _ _ _ _ _ _ _ _ Es E2) as (sun & _ & L & _). exact L.
  - apply (mlt_range _ _ _ _ _ _ _ _ _ _ Es E2). intros q t [E|[E|[E|[]]]]; injection E as <- <-; lra.
Qed.
