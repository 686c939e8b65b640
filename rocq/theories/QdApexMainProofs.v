(** The theorems on the quasi-dipole coordinates, from the pure form of the results. *)

From Coq Require Import Bool List String Reals Arith Lia Lra.
From Coquelicot Require Import Coquelicot.
From Verif Require Import ArrModel GeoModel QdSunModel QdMltModel QdBasisModel QdApexModel.
From Verif Require Import CoordSpec SunSpec QdMltSpec QdBasisSpec QdApexSpec.
From Verif Require Import QdMltProofs QdApexProofs QdApexLoopProofs QdApexBaseProofs.
Import ListNotations.
Open Scope R_scope.

(** A process, and a call in it with usual points *)
Lemma session_returns fs any0 calls results st any vecflag name f points :
  qd_session fs calls (initial_apex any0) = Returns (results, st) ->
  fs name = Some (Some f) -> well_formed f -> (forall p, In p points -> usual_point p) ->
  exists st', eval_qdlatlon any vecflag fs name points st = Returns (pure_loop vecflag f points (-9999.9), st').
Proof.
  intros E F W H. apply eval_pure; auto. exact (session_state _ _ _ _ _ (initial_inv fs any0) E).
Qed.

Lemma pure_nth vecflag f points i p v t : (forall p, In p points -> usual_point p) ->
  nth_error points i = Some p -> nth_error (pure_loop vecflag f points (-9999.9)) i = Some v -> t_dy p = Some t ->
  exists j p' t', (j <= i)%nat /\ nth_error points j = Some p' /\ t_dy p' = Some t' /\ Rabs (t - t') <= 1 / 365.25 /\
     v = pure_point vecflag f t' p.
Proof.
  intros H Hp Hv Ht. destruct (pure_loop_nth _ _ _ _ _ _ _ Hp Hv _ Ht) as [G|(G & _)]; [exact G|].
  destruct (H p (nth_error_In _ _ Hp)) as (_ & _ & t' & T1 & T2). assert (t' = t) by congruence. subst t'.
  change epoch_limit with (1 / 365.25) in G. lra.
Qed.

Theorem coordinates fs any0 calls results st any vecflag name f points :
  qd_session fs calls (initial_apex any0) = Returns (results, st) ->
  fs name = Some (Some f) -> well_formed f -> (forall p, In p points -> usual_point p) ->
  exists values st', eval_qdlatlon any vecflag fs name points st = Returns (values, st') /\
    List.length values = List.length points /\
    forall i p t qlat qlon base, nth_error points i = Some p -> t_dy p = Some t ->
      nth_error values i = Some ((qlat, qlon), base) ->
      exists j p' t' c lat alt,
        (j <= i)%nat /\ nth_error points j = Some p' /\ t_dy p' = Some t' /\ Rabs (t - t') <= 1 / 365.25 /\
        coefficients_at f t' c /\ geodetic_position (gclat p) (gcrad p) lat alt /\
        pointed (apex_vector f c alt lat (gclon p)) qlat qlon /\ -180 <= qlon <= 180.
Proof.
  intros E F W H. destruct (session_returns fs any0 calls results st any vecflag name f points E F W H) as (st' & R1).
  exists (pure_loop vecflag f points (-9999.9)), st'. split; [exact R1|]. split; [apply pure_loop_length|].
  intros i p t qlat qlon base Hp Ht Hv.
  destruct (pure_nth _ _ _ _ _ _ _ H Hp Hv Ht) as (j & p' & t' & J1 & J2 & J3 & J4 & Ev).
  unfold pure_point in Ev. destruct (convrt4 (gclat p) (gcrad p)) as [lat alt] eqn:EC.
  destruct (H p (nth_error_In _ _ Hp)) as (_ & HL & _).
  exists j, p', t', (cv f t'), lat, alt.
  destruct (pure_pointed _ _ _ _ _ _ _ _ _ W (eq_sym Ev)) as (P1 & P2).
  repeat split; auto; try apply P1; try apply P2; try lra.
  - now apply coefficients_cv.
  - apply (convrt4_spec _ _ _ _ HL EC).
  - apply (convrt4_spec _ _ _ _ HL EC).
Qed.

Theorem base_vectors_spec fs any0 calls results st any name f points :
  qd_session fs calls (initial_apex any0) = Returns (results, st) ->
  fs name = Some (Some f) -> well_formed f -> (forall p, In p points -> usual_point p) ->
  exists values st', eval_qdlatlon any true fs name points st = Returns (values, st') /\
    List.length values = List.length points /\
    forall i p t qlat qlon b, nth_error points i = Some p -> t_dy p = Some t ->
      nth_error values i = Some ((qlat, qlon), b) ->
      exists j p' t' c lat alt,
        (j <= i)%nat /\ nth_error points j = Some p' /\ t_dy p' = Some t' /\ Rabs (t - t') <= 1 / 365.25 /\
        coefficients_at f t' c /\ geodetic_position (gclat p) (gcrad p) lat alt /\
        forall qlat_at qlon_at lat_n lat_e lon_n lon_e,
          let lon := gclon p in
          let d := vector_length (apex_vector f c alt lat lon) in
          -90 < lat < 90 -> -90 < qlat < 90 -> 0 < d ->
          qd_functions f c alt qlat_at qlon_at lat lon ->
          is_derive (fun u => qlat_at u lon) lat lat_n -> is_derive (fun u => qlat_at lat u) lon lat_e ->
          is_derive (fun u => qlon_at u lon) lat lon_n -> is_derive (fun u => qlon_at lat u) lon lon_e ->
          let '(f1e, f1n) := richmond_f1 alt lat lat_n lat_e in
          let '(f2e, f2n) := richmond_f2 alt lat qlat lon_n lon_e in
          f11 b = d * f1e /\ f12 b = d * f1n /\ f21 b = d * f2e /\ f22 b = d * f2n /\
          f_ b = d * f1e * (d * f2n) - d * f1n * (d * f2e).
Proof.
  intros E F W H. destruct (session_returns fs any0 calls results st any true name f points E F W H) as (st' & R1).
  exists (pure_loop true f points (-9999.9)), st'. split; [exact R1|]. split; [apply pure_loop_length|].
  intros i p t qlat qlon b Hp Ht Hv.
  destruct (pure_nth _ _ _ _ _ _ _ H Hp Hv Ht) as (j & p' & t' & J1 & J2 & J3 & J4 & Ev).
  unfold pure_point in Ev. destruct (convrt4 (gclat p) (gcrad p)) as [lat alt] eqn:EC.
  destruct (H p (nth_error_In _ _ Hp)) as (HR & HL & _).
  exists j, p', t', (cv f t'), lat, alt.
  split; [exact J1|]. split; [exact J2|]. split; [exact J3|]. split; [exact J4|].
  split; [now apply coefficients_cv|]. split; [exact (convrt4_spec _ _ _ _ HL EC)|].
  intros qlat_at qlon_at lat_n lat_e lon_n lon_e lon d L1 L2 L3 Q D1 D2 D3 D4.
  apply (pure_base f t' lat lon alt qlat qlon b qlat_at qlon_at lat_n lat_e lon_n lon_e); auto.
  pose proof (altitude_bound (gclat p) (gcrad p) HR) as A. now rewrite EC in A.
Qed.

Theorem history fs any0 calls results st any0' calls' results' st' any any' vecflag name f points :
  qd_session fs calls (initial_apex any0) = Returns (results, st) ->
  qd_session fs calls' (initial_apex any0') = Returns (results', st') ->
  fs name = Some (Some f) -> well_formed f -> (forall p, In p points -> usual_point p) ->
  exists values after after',
    eval_qdlatlon any vecflag fs name points st = Returns (values, after) /\
    eval_qdlatlon any' vecflag fs name points st' = Returns (values, after').
Proof.
  intros E E' F W H. destruct (session_returns fs any0 calls results st any vecflag name f points E F W H) as (s1 & R1).
  destruct (session_returns fs any0' calls' results' st' any' vecflag name f points E' F W H) as (s2 & R2).
  exists (pure_loop vecflag f points (-9999.9)), s1, s2. now split.
Qed.

(** the coordinates without and with the base vectors are the same *)
Theorem same_coordinates fs any0 calls results st any any' name f points :
  qd_session fs calls (initial_apex any0) = Returns (results, st) ->
  fs name = Some (Some f) -> well_formed f -> (forall p, In p points -> usual_point p) ->
  exists values values' after after',
    eval_qdlatlon any false fs name points st = Returns (values, after) /\
    eval_qdlatlon any' true fs name points st = Returns (values', after') /\
    map fst values = map fst values'.
Proof.
  intros E F W H. destruct (session_returns fs any0 calls results st any false name f points E F W H) as (s1 & R1).
  destruct (session_returns fs any0 calls results st any' true name f points E F W H) as (s2 & R2).
  exists (pure_loop false f points (-9999.9)), (pure_loop true f points (-9999.9)), s1, s2. split; [exact R1|]. split; [exact R2|].
  generalize (-9999.9). clear. induction points as [|p rest IH]; intro eo; [reflexivity|].
  cbn [pure_loop map]. rewrite IH. f_equal.
Qed.


(** a file which cannot be read *)
Theorem unreadable fs any0 calls results st any vecflag name points :
  qd_session fs calls (initial_apex any0) = Returns (results, st) ->
  (forall f, fs name <> Some (Some f)) -> points <> [] -> (forall p, In p points -> usual_point p) ->
  eval_qdlatlon any vecflag fs name points st = Terminated.
Proof.
  intros E F N H. pose proof (session_state _ _ _ _ _ (initial_inv fs any0) E) as I.
  destruct points as [|p rest]; [congruence|]. destruct (H p ltac:(now left)) as (_ & _ & t & T1 & T2).
  unfold eval_qdlatlon. cbn [qd_loop]. rewrite T1. destruct (Rlt_dec epoch_limit (Rabs (t - -9999.9))) as [L|L].
  - unfold loadapxsh. replace (negb (String.eqb name (datafilelast st)) || loadflag st) with true.
    + destruct (fs name) as [[f|]|] eqn:G; [now destruct (F f)|reflexivity|reflexivity].
    + symmetry. destruct I as [->|(I & _)]; [apply orb_true_r|].
      destruct (String.eqb name (datafilelast st)) eqn:Q; [|reflexivity]. apply String.eqb_eq in Q. subst name. now destruct (F _ I).
  - exfalso. apply L. exact T2.
Qed.
