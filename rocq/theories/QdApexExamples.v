(** The quasi-dipole coordinates: examples and refutations. *)

From Coq Require Import Bool List String Reals Arith Lia Lra.
From Coquelicot Require Import Coquelicot.
From Verif Require Import ArrModel GeoModel QdSunModel QdMltModel QdBasisModel QdApexModel.
From Verif Require Import CoordSpec SunSpec QdMltSpec LegendreSpec QdBasisSpec QdApexSpec.
From Verif Require Import Atan2Proofs QdMltProofs LegendrePoly LegendreGauss LegendreHigh QdApexProofs QdApexLoopProofs QdApexBaseProofs QdApexMainProofs.
Import ListNotations.
Open Scope string_scope.
Open Scope R_scope.

(** ** Examples: a file of the expansion up to the degree one *)
Definition small_file (epochs : nat) (coefficients : nat -> nat -> nat -> R) : apex_file :=
  {| nepoch := epochs; nmax := 1; mmax := 1; lmax := 0; nterm := 4;
     epochgrid := fun i => INR (2000 + i); coeff0 := coefficients |}.

Lemma small_well_formed e c : (1 <= e)%nat -> well_formed (small_file e c).
Proof.
  intro H. repeat split; cbn [small_file nepoch nmax mmax lmax nterm epochgrid]; try lia; try exact H.
  intros i _. apply lt_INR. lia.
Qed.

(** the vector of the direction, [s] times *)
Definition centred (s : R) (k e i : nat) : R :=
  match k, i with
  | 2%nat, 0%nat => s * (2 / sqrt 3)
  | 3%nat, 1%nat => s * (2 / sqrt 3)
  | 1%nat, 2%nat => s * sqrt (2 / 3)
  | _, _ => 0
  end.
Definition centred_file (s : R) : apex_file := small_file 1 (centred s).

Lemma schmidt_11 x : schmidt 1 1 x = cos x.
Proof.
  rewrite schmidt_nf, L_diag_step, L_0_0. unfold nf. cbn [Nat.eqb Nat.sub Nat.add fact Nat.mul INR pow].
  replace (2 * 1 / (1 + 1)) with 1 by field. rewrite sqrt_1. ring.
Qed.

Lemma normalised_00 t : normalised 0 0 t = sqrt (1 / 2).
Proof. unfold normalised. rewrite schmidt_00, Rmult_1_r. cbn [Nat.eqb Nat.mul Nat.add INR]. reflexivity. Qed.
Lemma normalised_10 t : normalised 1 0 t = sqrt (3 / 2) * cos t.
Proof. unfold normalised. rewrite schmidt_10, sin_shift. cbn [Nat.eqb Nat.mul Nat.add INR]. f_equal. f_equal. lra. Qed.
Lemma normalised_11 t : normalised 1 1 t = sqrt (3 / 4) * sin t.
Proof. unfold normalised. rewrite schmidt_11, cos_shift. cbn [Nat.eqb Nat.mul Nat.add INR]. f_equal. f_equal. lra. Qed.

Lemma series_small e c g rho t p : series (small_file e c) g rho t p =
  g 0%nat * sqrt (1 / 2) + g 1%nat * (sqrt (3 / 2) * cos t) + g 2%nat * (sqrt (3 / 4) * sin t * cos p) + g 3%nat * (sqrt (3 / 4) * sin t * sin p).
Proof.
  unfold series. cbn [small_file nmax mmax lmax]. unfold harmonics.
  cbn [seq map flat_map app Nat.sub List.length combine total fold_right harmonic_value Nat.mul Nat.add pow INR].
  rewrite normalised_00, normalised_10, normalised_11, !Rmult_0_l, cos_0, !Rmult_1_l. unfold total. cbn [fold_right]. ring.
Qed.

Lemma coef_small1 c epoch k i : coef (small_file 1 c) epoch k i = c k 0%nat i.
Proof. unfold coef, epoch_weights. cbn [small_file nepoch Nat.eqb coeff0]. ring. Qed.

Lemma sqrt_34 : sqrt (3 / 4) = sqrt 3 / 2.
Proof. rewrite sqrt_div_alt by lra. f_equal. replace 4 with (2 * 2) by ring. apply sqrt_square. lra. Qed.
Lemma sqrt_32_23 : sqrt (2 / 3) * sqrt (3 / 2) = 1.
Proof. rewrite <- sqrt_mult by lra. replace (2 / 3 * (3 / 2)) with 1 by field. apply sqrt_1. Qed.

Lemma centred_vector s epoch alt lat lon :
  apex_vector (centred_file s) (cv (centred_file s) epoch) alt lat lon = scaled s (direction lat lon).
Proof.
  unfold apex_vector, centred_file. cbv zeta. rewrite !series_small. unfold cv. rewrite !coef_small1. cbn [centred].
  replace (one_degree * (90 - lat)) with (PI / 2 - one_degree * lat) by (unfold one_degree; field).
  rewrite sin_shift, cos_shift, sqrt_34. unfold scaled, direction.
  assert (Q : sqrt 3 <> 0) by (apply Rgt_not_eq, sqrt_lt_R0; lra).
  apply triple.
  - field. exact Q.
  - field. exact Q.
  - transitivity (s * (sqrt (2 / 3) * sqrt (3 / 2)) * sin (one_degree * lat)); [ring|]. rewrite sqrt_32_23. ring.
Qed.

Definition one_file (name : string) (f : apex_file) : files := fun n => if String.eqb n name then Some (Some f) else None.
Lemma one_file_self name f : one_file name f name = Some (Some f).
Proof. unfold one_file. now rewrite String.eqb_refl. Qed.

Definition place (t r lat lon : R) : point := {| t_dy := Some t; gcrad := r; gclat := lat; gclon := lon |}.
Lemma usual_place t r lat lon : 0 <= t -> 6000 <= r -> -90 <= lat <= 90 -> usual_point (place t r lat lon).
Proof.
  intros H1 H2 H3. split; [exact H2|]. split; [exact H3|]. exists t. split; [reflexivity|].
  rewrite Rabs_right by lra. lra.
Qed.

(** on the equator the latitudes are the same *)
Lemma convrt4_equator r : convrt4 0 r = (0, r - 6378.137).
Proof.
  assert (D : dltcl 0 r = 0).
  { unfold dltcl. rewrite Rmult_0_l, sin_0. ring. }
  change (convrt4 0 r) with (dltcl 0 r * RTOD + 0, r * cos (dltcl 0 r) - REQ * sqrt (1 - E2 * sin ((dltcl 0 r * RTOD + 0) * DTOR) * sin ((dltcl 0 r * RTOD + 0) * DTOR))).
  rewrite D, cos_0, !Rmult_0_l, Rplus_0_l, Rmult_0_l, sin_0. f_equal.
  replace (1 - E2 * 0 * 0) with 1 by ring. rewrite sqrt_1. unfold REQ. ring.
Qed.

(** the coordinates of the centred field at the equator *)
Lemma pointed_equator d lon qlat qlon : 0 < d -> pointed (scaled d (direction 0 lon)) qlat qlon ->
  qlat = 0 /\ cos (one_degree * qlon) = cos (one_degree * lon) /\ sin (one_degree * qlon) = sin (one_degree * lon).
Proof.
  intros H P. assert (P0 : pointed (scaled d (direction 0 lon)) 0 lon) by (split; [lra|exists d; split; [lra|reflexivity]]).
  apply (pointed_same _ _ _ _ _ P0 P); [|lra]. rewrite scaled_length; lra.
Qed.

Section Examples.
  Variables (any0 : apex) (any : unset).

  Let f1 : apex_file := centred_file 1.
  Lemma ex_coordinates :
    qd_session (one_file "apexsh.txt" f1) [] (initial_apex any0) = Returns ([], initial_apex any0) /\
    one_file "apexsh.txt" f1 "apexsh.txt" = Some (Some f1) /\ well_formed f1 /\
    (forall p, In p [place 2000 7000 0 30; place 2000.001 6800 45 60; place 2011 6700 (-80) 170] -> usual_point p) /\
    exists qlon rest st, eval_qdlatlon any false (one_file "apexsh.txt" f1) "apexsh.txt"
        [place 2000 7000 0 30; place 2000.001 6800 45 60; place 2011 6700 (-80) 170] (initial_apex any0)
        = Returns (((0, qlon), missing_base) :: rest, st) /\
      cos (one_degree * qlon) = cos (one_degree * 30) /\ sin (one_degree * qlon) = sin (one_degree * 30).
  Proof.
    split; [reflexivity|]. split; [apply one_file_self|]. split; [apply small_well_formed; lia|].
    assert (U : forall p, In p [place 2000 7000 0 30; place 2000.001 6800 45 60; place 2011 6700 (-80) 170] -> usual_point p).
    { intros p [<-|[<-|[<-|[]]]]; apply usual_place; lra. }
    split; [exact U|].
    destruct (session_returns (one_file "apexsh.txt" f1) any0 [] [] (initial_apex any0) any false "apexsh.txt" f1 _ eq_refl
      (one_file_self _ _) (small_well_formed 1 (centred 1) (le_n 1)) U) as (st & E).
    rewrite E. cbn [pure_loop]. unfold used at 1. cbn [place t_dy].
    destruct (Rlt_dec epoch_limit (Rabs (2000 - -9999.9))) as [L|L].
    2: { exfalso. apply L. rewrite Rabs_right by lra. unfold epoch_limit. lra. }
    unfold pure_point at 1. cbn [place gclat gcrad gclon]. rewrite convrt4_equator.
    destruct (pure_out false f1 2000 0 30 (7000 - 6378.137)) as [[qlat qlon] b] eqn:EP.
    assert (Eb : b = missing_base). { unfold pure_out in EP. cbv zeta in EP. congruence. }
    destruct (pure_pointed false (centred_file 1) _ _ _ _ _ _ _ (small_well_formed 1 (centred 1) (le_n 1)) EP) as (P & _).
    rewrite centred_vector in P. destruct (pointed_equator 1 30 qlat qlon ltac:(lra) P) as (Q1 & Q2 & Q3).
    subst qlat b. exists qlon. do 2 eexists. split; [reflexivity|]. now split.
  Qed.

  (** the coefficients are those of the time of an earlier point *)
  Definition moving (k e i : nat) : R :=
    match k, i with 0%nat, 0%nat => 1 | 0%nat, 1%nat => INR e | _, _ => 0 end.

  Lemma own_time_refuted : ~ (forall fs any0 calls results st any vecflag name f points,
    qd_session fs calls (initial_apex any0) = Returns (results, st) ->
    fs name = Some (Some f) -> well_formed f -> (forall p, In p points -> usual_point p) ->
    exists values st', eval_qdlatlon any vecflag fs name points st = Returns (values, st') /\
      forall i p t qlat qlon base, nth_error points i = Some p -> t_dy p = Some t ->
        nth_error values i = Some ((qlat, qlon), base) ->
        exists c lat alt, coefficients_at f t c /\ geodetic_position (gclat p) (gcrad p) lat alt /\
          pointed (apex_vector f c alt lat (gclon p)) qlat qlon).
  Proof.
    intro H. set (f := small_file 2 moving). set (p1 := place 2000 7000 0 0). set (p2 := place 2000.002 7000 0 0).
    assert (W : well_formed f) by (apply small_well_formed; lia).
    assert (U : forall p, In p [p1; p2] -> usual_point p) by (intros p [<-|[<-|[]]]; apply usual_place; lra).
    destruct (session_returns (one_file "f" f) any0 [] [] (initial_apex any0) any false "f" f [p1; p2] eq_refl (one_file_self _ _) W U) as (st1 & E1).
    destruct (H (one_file "f" f) any0 [] [] (initial_apex any0) any false "f"%string f [p1; p2] eq_refl (one_file_self _ _) W U) as (values & st2 & E2 & G).
    rewrite E1 in E2. assert (Ev : values = pure_loop false f [p1; p2] (-9999.9)) by congruence. subst values. clear E1 E2.
    cbn [pure_loop] in G. unfold used in G. cbn [p1 p2 place t_dy] in G.
    destruct (Rlt_dec epoch_limit (Rabs (2000 - -9999.9))) as [L|L].
    2: { exfalso. apply L. rewrite Rabs_right by lra. unfold epoch_limit. lra. }
    destruct (Rlt_dec epoch_limit (Rabs (2000.002 - 2000))) as [L'|L'].
    { exfalso. rewrite Rabs_right in L' by lra. unfold epoch_limit in L'. lra. }
    specialize (G 1%nat p2 2000.002). cbn [nth_error] in G.
    destruct (pure_point false f 2000 p2) as [[qlat qlon] b] eqn:EP.
    destruct (G qlat qlon b eq_refl eq_refl eq_refl) as (c & lat & alt & C & _ & P). clear G.
    unfold pure_point in EP. destruct (convrt4 (gclat p2) (gcrad p2)) as [lat' alt'].
    destruct (pure_pointed _ _ _ _ _ _ _ _ _ W EP) as (P' & _).
    (* the vectors *)
    assert (C0 : forall k i, (k < 4)%nat -> (i < 3)%nat -> c k i = moving k 0 i + (moving k 1 i - moving k 0 i) * 0.002).
    { intros k i Hk Hi. destruct (C k i Hk Hi) as [(T & _)|[(T & _)|(e & T1 & T2 & T3)]].
      - cbn in T. lra.
      - cbn in T. lra.
      - cbn [f small_file nepoch] in T1. assert (e = 0)%nat by lia. subst e. rewrite T3. cbn [f small_file coeff0 epochgrid].
        replace ((2000.002 - INR (2000 + 0)) / (INR (2000 + 1) - INR (2000 + 0))) with 0.002; [reflexivity|].
        rewrite !plus_INR. replace (INR 2000) with 2000 by (rewrite INR_IZR_INZ; reflexivity). cbn [INR]. replace (2000 + 1 - (2000 + 0)) with 1 by ring. unfold Rdiv. rewrite Rinv_1. lra. }
    assert (C1 : forall k i, (k < 4)%nat -> (i < 3)%nat -> cv f 2000 k i = moving k 0 i).
    { intros k i Hk Hi. unfold cv. destruct (coef_spec f 2000 k i W) as [(_ & T)|[(T & _)|(e & T1 & T2 & T3)]].
      - exact T.
      - cbn in T. lra.
      - cbn [f small_file nepoch] in T1. assert (e = 0)%nat by lia. subst e. rewrite T3. cbn [f small_file coeff0 epochgrid].
        replace ((2000 - INR (2000 + 0)) / (INR (2000 + 1) - INR (2000 + 0))) with 0; [ring|].
        rewrite !plus_INR. replace (INR 2000) with 2000 by (rewrite INR_IZR_INZ; reflexivity). cbn [INR]. replace (2000 + 1 - (2000 + 0)) with 1 by ring. unfold Rdiv. rewrite Rinv_1. lra. }
    set (q := sqrt (1 / 2)) in *. assert (Hq : 0 < q) by (apply sqrt_lt_R0; lra).
    assert (V : forall lat alt, apex_vector f c alt lat (gclon p2) = (q, q * 0.002, 0)).
    { intros la al. unfold apex_vector, f. cbv zeta. rewrite !series_small. rewrite !C0 by lia. cbn [moving INR]. fold q.
      apply triple; ring. }
    assert (V' : forall lat alt, apex_vector f (cv f 2000) alt lat (gclon p2) = (q, 0, 0)).
    { intros la al. unfold apex_vector. cbv zeta. unfold f at 1 3 5. rewrite !series_small. rewrite !C1 by lia. cbn [moving INR]. fold q.
      apply triple; ring. }
    rewrite V in P. rewrite V' in P'. destruct P as (_ & d & _ & P). destruct P' as (_ & d' & Hd' & P').
    unfold scaled, direction in P, P'.
    assert (X : q = d * (cos (one_degree * qlat) * cos (one_degree * qlon))) by congruence.
    assert (Y : q * 0.002 = d * (cos (one_degree * qlat) * sin (one_degree * qlon))) by congruence.
    assert (X' : q = d' * (cos (one_degree * qlat) * cos (one_degree * qlon))) by congruence.
    assert (Y' : 0 = d' * (cos (one_degree * qlat) * sin (one_degree * qlon))) by congruence.
    set (cl := cos (one_degree * qlat)) in *. set (cp := cos (one_degree * qlon)) in *. set (sp := sin (one_degree * qlon)) in *.
    assert (d' * cl <> 0) by (intro Z; replace (d' * (cl * cp)) with (d' * cl * cp) in X' by ring; rewrite Z in X'; lra).
    replace (d' * (cl * sp)) with (d' * cl * sp) in Y' by ring.
    assert (sp = 0) by (symmetry in Y'; apply Rmult_integral in Y'; tauto).
    rewrite H1 in Y. lra.
  Qed.

  (** the base vectors of the centred field *)
  Definition identity_lat (u w : R) : R := u.
  Definition identity_lon (u w : R) : R := w.

  Lemma centred_functions s t alt lat lon : 0 <= s -> -90 < lat < 90 ->
    qd_functions (centred_file s) (cv (centred_file s) t) alt identity_lat identity_lon lat lon.
  Proof.
    intros Hs Hl. split.
    - assert (L : locally lat (fun u => -90 < u < 90)).
      { apply (filter_and (fun u => -90 < u) (fun u => u < 90)).
        - apply (open_gt (-90)). lra.
        - apply (open_lt 90). lra. }
      revert L. apply filter_imp. intros u Hu. unfold identity_lat, identity_lon. rewrite centred_vector.
      split; [lra|]. exists s. now split.
    - apply filter_forall. intros u. unfold identity_lat, identity_lon. rewrite centred_vector. split; [lra|]. exists s. now split.
  Qed.

  Lemma identity_derive a b :
    is_derive (fun u => identity_lat u b) a 1 /\ is_derive (fun u => identity_lat a u) b 0 /\
    is_derive (fun u => identity_lon u b) a 0 /\ is_derive (fun u => identity_lon a u) b 1.
  Proof.
    unfold identity_lat, identity_lon. split; [|split; [|split]].
    - apply (@is_derive_id R_AbsRing).
    - apply (@is_derive_const R_AbsRing).
    - apply (@is_derive_const R_AbsRing).
    - apply (@is_derive_id R_AbsRing).
  Qed.

  Definition base_result (s : R) (b : base_vectors) (st : apex) (alt : R) : Prop :=
    let f := centred_file s in
    let p := place 2000 7000 0 30 in
    exists qlat qlon c lat,
      eval_qdlatlon any true (one_file "f" f) "f" [p] (initial_apex any0) = Returns ([((qlat, qlon), b)], st) /\
      coefficients_at f 2000 c /\ geodetic_position (gclat p) (gcrad p) lat alt /\
      lat = 0 /\ -90 < qlat < 90 /\ 0 < vector_length (apex_vector f c alt lat 30) /\
      vector_length (apex_vector f c alt lat 30) = s /\
      qd_functions f c alt identity_lat identity_lon lat 30.

  Lemma base_result_ex s : 0 < s -> exists b st,
    base_result s b st (7000 - 6378.137) /\
    let '(f1e, f1n) := richmond_f1 (7000 - 6378.137) 0 1 0 in
    f11 b = s * f1e /\ f12 b = s * f1n /\ 0 < f1e.
  Proof.
    intro Hs. set (f := centred_file s). set (p := place 2000 7000 0 30).
    assert (W : well_formed f) by (apply small_well_formed; lia).
    assert (U : forall q, In q [p] -> usual_point q) by (intros q [<-|[]]; apply usual_place; lra).
    destruct (session_returns (one_file "f" f) any0 [] [] (initial_apex any0) any true "f" f [p] eq_refl (one_file_self _ _) W U) as (st & E).
    cbn [pure_loop] in E. unfold used in E. cbn [p place t_dy] in E.
    destruct (Rlt_dec epoch_limit (Rabs (2000 - -9999.9))) as [L|L].
    2: { exfalso. apply L. rewrite Rabs_right by lra. unfold epoch_limit. lra. }
    unfold pure_point in E. cbn [place gclat gcrad gclon] in E. rewrite convrt4_equator in E. change (gclon p) with 30 in E. change (gcrad p) with 7000 in E.
    destruct (pure_out true f 2000 0 30 (7000 - 6378.137)) as [[qlat qlon] b] eqn:EP.
    destruct (pure_pointed _ _ _ _ _ _ _ _ _ W EP) as (P & _). unfold f in P. rewrite centred_vector in P.
    destruct (pointed_equator s 30 qlat qlon Hs P) as (Q1 & Q2 & Q3). subst qlat.
    assert (VL : vector_length (apex_vector f (cv f 2000) (7000 - 6378.137) 0 30) = s).
    { unfold f. rewrite centred_vector. apply scaled_length. lra. }
    assert (QF : qd_functions f (cv f 2000) (7000 - 6378.137) identity_lat identity_lon 0 30) by (apply centred_functions; lra).
    exists b, st. split.
    - exists 0, qlon, (cv f 2000), 0. cbv zeta. fold f p.
      split; [exact E|]. split; [now apply coefficients_cv|].
      split; [apply (convrt4_spec 0 7000); [lra|apply convrt4_equator]|]. repeat split; try lra; try apply QF.
    - destruct (identity_derive 0 30) as (D1 & D2 & D3 & D4).
      pose proof (pure_base f 2000 0 30 (7000 - 6378.137) 0 qlon b identity_lat identity_lon 1 0 0 1 W ltac:(lra) ltac:(lra) EP ltac:(lra) ltac:(rewrite VL; exact Hs) QF D1 D2 D3 D4) as B.
      cbv zeta in B. rewrite VL in B. unfold richmond_f1, richmond_f2 in *. destruct B as (B1 & B2 & _).
      split; [exact B1|]. split; [exact B2|].
      destruct (north_arc_code 0 (7000 - 6378.137)) as (_ & _ & A). destruct (A ltac:(lra)) as (A1 & _).
      apply Rmult_lt_0_compat; [unfold mean_radius, semi_axis, flattening; lra|]. apply Rdiv_lt_0_compat; lra.
  Qed.

  (** the length of the vector is a factor *)
  Lemma base_factor_refuted : ~ (forall fs any0 calls results st any name f points,
    qd_session fs calls (initial_apex any0) = Returns (results, st) ->
    fs name = Some (Some f) -> well_formed f -> (forall p, In p points -> usual_point p) ->
    forall values st', eval_qdlatlon any true fs name points st = Returns (values, st') ->
    forall i p t qlat qlon b, nth_error points i = Some p -> t_dy p = Some t ->
      nth_error values i = Some ((qlat, qlon), b) ->
      forall c lat alt, coefficients_at f t c -> geodetic_position (gclat p) (gcrad p) lat alt ->
        forall qlat_at qlon_at lat_n lat_e,
          let lon := gclon p in
          -90 < lat < 90 -> -90 < qlat < 90 -> 0 < vector_length (apex_vector f c alt lat lon) ->
          qd_functions f c alt qlat_at qlon_at lat lon ->
          is_derive (fun u => qlat_at u lon) lat lat_n -> is_derive (fun u => qlat_at lat u) lon lat_e ->
          (f11 b, f12 b) = richmond_f1 alt lat lat_n lat_e).
  Proof.
    intro H. destruct (base_result_ex 2 ltac:(lra)) as (b & st & B & K).
    destruct B as (qlat & qlon & c & lat & E & C & G & L & Q & D & _ & F). subst lat.
    destruct (identity_derive 0 30) as (D1 & D2 & _).
    pose proof (H (one_file "f" (centred_file 2)) any0 [] [] (initial_apex any0) any "f"%string (centred_file 2) [place 2000 7000 0 30]
      eq_refl (one_file_self _ _) (small_well_formed 1 (centred 2) (le_n 1))) as R1.
    assert (U : forall q, In q [place 2000 7000 0 30] -> usual_point q) by (intros q [<-|[]]; apply usual_place; lra).
    specialize (R1 U _ _ E 0%nat _ 2000 qlat qlon b eq_refl eq_refl eq_refl c 0 _ C G identity_lat identity_lon 1 0 ltac:(lra) Q D F D1 D2).
    unfold richmond_f1 in *. destruct K as (K1 & _ & K3). assert (R2 := f_equal fst R1). cbn [fst] in R2. lra.
  Qed.

  (** a file which is changed between the calls *)
  Lemma load_cached fs fs' a name e s : loadflag s = false -> datafilelast s = name ->
    loadapxsh a fs name e s = loadapxsh a fs' name e s.
  Proof. intros L D. unfold loadapxsh. rewrite L, D, String.eqb_refl. reflexivity. Qed.

  Definition along (i' : nat) (k e i : nat) : R := if Nat.eqb k 0 && Nat.eqb i i' then 1 else 0.

  Lemma along_pointed i' qlat qlon b alt : pure_out false (small_file 1 (along i')) 2000 0 0 alt = ((qlat, qlon), b) ->
    exists d, 0 <= d /\ ((if Nat.eqb 0 i' then sqrt (1 / 2) else 0), (if Nat.eqb 1 i' then sqrt (1 / 2) else 0), (if Nat.eqb 2 i' then sqrt (1 / 2) else 0))
       = scaled d (direction qlat qlon).
  Proof.
    intro E. destruct (pure_pointed _ _ _ _ _ _ _ _ _ (small_well_formed 1 (along i') (le_n 1)) E) as ((_ & d & Hd & P) & _).
    exists d. split; [exact Hd|]. rewrite <- P. unfold apex_vector. cbv zeta. rewrite !series_small. unfold cv. rewrite !coef_small1.
    unfold along. cbn [Nat.eqb andb]. apply triple.
    - destruct i' as [|[|[|]]]; cbn; ring.
    - destruct i' as [|[|[|]]]; cbn; ring.
    - destruct i' as [|[|[|]]]; cbn; ring.
  Qed.

  Lemma changed_file : exists fs fs' name f f' p values1 values2 values3 st1 st2 st3,
    fs name = Some (Some f) /\ fs' name = Some (Some f') /\ well_formed f /\ well_formed f' /\ usual_point p /\
    eval_qdlatlon any false fs name [p] (initial_apex any0) = Returns (values1, st1) /\
    eval_qdlatlon any false fs' name [p] st1 = Returns (values2, st2) /\
    eval_qdlatlon any false fs' name [p] (initial_apex any0) = Returns (values3, st3) /\
    values2 = values1 /\ values2 <> values3.
  Proof.
    set (f := small_file 1 (along 0)). set (f' := small_file 1 (along 2)). set (p := place 2000 7000 0 0).
    assert (W : well_formed f) by (apply small_well_formed; lia). assert (W' : well_formed f') by (apply small_well_formed; lia).
    assert (U : forall q, In q [p] -> usual_point q) by (intros q [<-|[]]; apply usual_place; lra).
    set (fs := one_file "f" f). set (fs' := one_file "f" f').
    destruct (session_returns fs any0 [] [] (initial_apex any0) any false "f" f [p] eq_refl (one_file_self _ _) W U) as (st1 & E1).
    destruct (session_returns fs any0 [{| c_any := any; c_vecflag := false; c_file := "f"; c_points := [p] |}]
      [pure_loop false f [p] (-9999.9)] st1 any false "f" f [p]) as (st2 & E2); [cbn [qd_session c_any c_vecflag c_file c_points]; rewrite E1; reflexivity|apply one_file_self|exact W|exact U|].
    destruct (session_returns fs' any0 [] [] (initial_apex any0) any false "f" f' [p] eq_refl (one_file_self _ _) W' U) as (st3 & E3).
    assert (S1 : loadflag st1 = false /\ datafilelast st1 = "f"%string).
    { pose proof E1 as E. unfold eval_qdlatlon in E. cbn [qd_loop p place t_dy] in E.
      destruct (Rlt_dec epoch_limit (Rabs (2000 - -9999.9))) as [L|L].
      2: { exfalso. apply L. rewrite Rabs_right by lra. unfold epoch_limit. lra. }
      destruct (loadapxsh (u_arrays any 0%nat) fs "f" 2000 (initial_apex any0)) as [s|] eqn:EL; [|discriminate].
      destruct (load_inv _ _ _ _ _ _ (initial_inv fs any0) EL) as (I1 & I2 & I3 & I4 & I5).
      destruct (convrt4 _ _) as [la al]. destruct (apxg2q _ _ _ _ _ _) as [[o bb] s'] eqn:EA.
      destruct (apxg2q_step _ _ _ _ _ _ _ _ _ _ I1 I2 EA) as (_ & J2 & J3 & _). assert (st1 = s') by congruence. subst s'. split; congruence. }
    exists fs, fs', "f"%string, f, f', p, (pure_loop false f [p] (-9999.9)), (pure_loop false f [p] (-9999.9)), (pure_loop false f' [p] (-9999.9)), st1, st2, st3.
    split; [apply one_file_self|]. split; [apply one_file_self|]. split; [exact W|]. split; [exact W'|].
    split; [apply U; now left|]. split; [exact E1|]. split; [|split; [exact E3|split; [reflexivity|]]].
    - rewrite <- E2. unfold eval_qdlatlon. cbn [qd_loop p place t_dy]. destruct S1 as (S1 & S2).
      now rewrite (load_cached fs' fs _ _ _ _ S1 S2).
    - cbn [pure_loop]. unfold used. cbn [p place t_dy].
      destruct (Rlt_dec epoch_limit (Rabs (2000 - -9999.9))) as [L|L].
      2: { exfalso. apply L. rewrite Rabs_right by lra. unfold epoch_limit. lra. }
      unfold pure_point. cbn [place gclat gcrad gclon]. rewrite convrt4_equator. change (gclon p) with 0. change (gcrad p) with 7000.
      destruct (pure_out false f 2000 0 0 _) as [[la lo] b] eqn:EP. destruct (pure_out false f' 2000 0 0 _) as [[la' lo'] b'] eqn:EP'.
      destruct (along_pointed 0 _ _ _ _ EP) as (d & Hd & P). destruct (along_pointed 2 _ _ _ _ EP') as (d' & Hd' & P').
      cbn [Nat.eqb] in P, P'. intro K. assert (la = la') by congruence. assert (lo = lo') by congruence. subst la' lo'.
      unfold scaled, direction in P, P'. set (q := sqrt (1 / 2)) in *. assert (Hq : 0 < q) by (apply sqrt_lt_R0; lra).
      assert (X : q = d * (cos (one_degree * la) * cos (one_degree * lo))) by congruence.
      assert (Z : 0 = d * sin (one_degree * la)) by congruence.
      assert (Z' : q = d' * sin (one_degree * la)) by congruence.
      assert (d <> 0) by (intro D0; rewrite D0 in X; lra).
      symmetry in Z. apply Rmult_integral in Z. destruct Z as [Z|Z]; [tauto|]. rewrite Z in Z'. lra.
  Qed.

  (** a time which is not a number *)
  Lemma nan_time vecflag fs name r lat lon :
    exists st, eval_qdlatlon any vecflag fs name [{| t_dy := None; gcrad := r; gclat := lat; gclon := lon |}] (initial_apex any0)
      = Returns ([(u_out any, missing_base)], st).
  Proof. eexists. reflexivity. Qed.
End Examples.

(** what is not initialised, in the refutations *)
Definition zeros : arr := fun _ => 0.
Definition blank_apex : apex :=
  {| loadflag := false; datafilelast := ""; epochlast := 0; file := small_file 1 (along 0); qcoeff0 := fun _ _ => 0;
     altlastq := 0; v_h := 0; v_Reph := 0; polynomq := zeros; xqcoeff := zeros; yqcoeff := zeros; zqcoeff := zeros;
     arrays := {| pvw := (fun _ _ => 0, fun _ _ => 0, fun _ _ => 0); a_sh := zeros; a_shgradtheta := zeros; a_shgradphi := zeros |} |}.
Definition blank_unset (lat : R) : unset := {| u_out := (lat, 0); u_arrays := fun _ => blank_apex |}.

Lemma nan_refuted : ~ (forall fs any0 any any' vecflag name f points values values' st st',
  fs name = Some (Some f) -> well_formed f -> (forall p, In p points -> 6000 <= gcrad p /\ -90 <= gclat p <= 90) ->
  eval_qdlatlon any vecflag fs name points (initial_apex any0) = Returns (values, st) ->
  eval_qdlatlon any' vecflag fs name points (initial_apex any0) = Returns (values', st') -> values = values').
Proof.
  intro H. set (p := {| t_dy := None; gcrad := 7000; gclat := 0; gclon := 0 |}).
  destruct (nan_time blank_apex (blank_unset 0) false (one_file "f" (centred_file 1)) "f" 7000 0 0) as (st & E).
  destruct (nan_time blank_apex (blank_unset 1) false (one_file "f" (centred_file 1)) "f" 7000 0 0) as (st' & E').
  assert (G : [(u_out (blank_unset 0), missing_base)] = [(u_out (blank_unset 1), missing_base)]).
  { refine (H _ _ _ _ _ _ (centred_file 1) [p] _ _ _ _ (one_file_self _ _) (small_well_formed 1 (centred 1) (le_n 1)) _ E E').
    intros q [<-|[]]. cbn. lra. }
  cbn in G. injection G. lra.
Qed.

Lemma ex_history any0 any :
  let fs := one_file "apexsh.txt" (centred_file 1) in
  (forall p, In p [place 2000 7000 0 30; place 2000.001 6800 45 60] -> usual_point p) /\
  exists results st, qd_session fs [{| c_any := any; c_vecflag := true; c_file := "apexsh.txt"; c_points := [place 1999 6700 (-20) 0; place 2005 7000 0 1] |};
     {| c_any := any; c_vecflag := false; c_file := "apexsh.txt"; c_points := [place 2000 7000 0 30] |}] (initial_apex any0) = Returns (results, st).
Proof.
  intro fs. split; [intros p [<-|[<-|[]]]; apply usual_place; lra|].
  assert (W : well_formed (centred_file 1)) by (apply small_well_formed; lia).
  set (ps := [place 1999 6700 (-20) 0; place 2005 7000 0 1]). set (qs := [place 2000 7000 0 30]).
  assert (U1 : forall p, In p ps -> usual_point p) by (intros p [<-|[<-|[]]]; apply usual_place; lra).
  assert (U2 : forall p, In p qs -> usual_point p) by (intros p [<-|[]]; apply usual_place; lra).
  destruct (session_returns fs any0 [] [] (initial_apex any0) any true "apexsh.txt" (centred_file 1) ps eq_refl (one_file_self _ _) W U1) as (st1 & E1).
  set (c1 := {| c_any := any; c_vecflag := true; c_file := "apexsh.txt"; c_points := ps |}).
  assert (S1 : qd_session fs [c1] (initial_apex any0) = Returns ([pure_loop true (centred_file 1) ps (-9999.9)], st1)).
  { cbn [qd_session c1 c_any c_vecflag c_file c_points]. now rewrite E1. }
  destruct (session_returns fs any0 [c1] _ st1 any false "apexsh.txt" (centred_file 1) qs S1 (one_file_self _ _) W U2) as (st2 & E2).
  cbn [qd_session c1 c_any c_vecflag c_file c_points]. rewrite E1, E2. eauto.
Qed.
