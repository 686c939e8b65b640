(** The Python interface of the quasi-dipole library (C87).  Nothing else is here. *)

From Coq Require Import List String Reals Arith ZArith.
From Verif Require Import SunSpec QdSunModel QdSunSpec QdMltModel QdMltSpec.
From Verif Require Import CoordSpec QdApexModel QdApexSpec QdApexExamples.
From Verif Require Import QdPyModel QdPySpec QdPyProofs QdPyExamples.
Import ListNotations.
Open Scope string_scope.
Open Scope nat_scope.

(** C87. After any calls, the arrays of the latitudes and of the longitudes have the shape of the
    inputs, and their elements are the quasi-dipole coordinates of the elements of the inputs.
    Partial: the time is the one of an earlier element (C84), and for less than 2^31 elements. *)
Theorem C87_coordinates_partial : forall fs any0 calls results st any junk junk_base base name f lat lon rad time,
  qd_session fs calls (initial_apex any0) = Returns (results, st) ->
  fs name = Some (Some f) -> well_formed f -> String.length name <= 1023 ->
  inputs lat lon rad time -> countable lat ->
  (forall i p, point_of lat lon rad time i p -> usual_point p) ->
  exists qlat qlon vectors st',
    py_eval_qdlatlon any junk junk_base fs lat lon rad time name base st
      = Returns (Value (qlat, qlon, if base then Some vectors else None), Some st') /\
    same_shape qlat lat /\ same_shape qlon lat /\
    forall i p t qla qlo, point_of lat lon rad time i p -> t_dy p = Some t ->
      element qlat i qla -> element qlon i qlo ->
      exists j t' c gdlat alt,
        j <= i /\ element time j (Some t') /\ (Rabs (t - t') <= 1 / 365.25)%R /\
        coefficients_at f t' c /\ geodetic_position (gclat p) (gcrad p) gdlat alt /\
        pointed (apex_vector f c alt gdlat (gclon p)) qla qlo /\ (-180 <= qlo <= 180)%R.
Proof. exact py_coordinates. Qed.
Print Assumptions C87_coordinates_partial.

(** All outputs, the base vectors included, are those of the library (C84 to C86) for the points
    of the inputs. *)
Theorem C87_library_partial : forall any junk junk_base fs name x base st lat lon rad time,
  fs name = Some x -> String.length name <= 1023 -> inputs lat lon rad time -> countable lat ->
  exists ps, List.length ps = List.length (nd_values lat) /\
    (forall i p, nth_error ps i = Some p <-> point_of lat lon rad time i p) /\
    (eval_qdlatlon any base fs name ps st = Terminated ->
     py_eval_qdlatlon any junk junk_base fs lat lon rad time name base st = Terminated) /\
    (forall values st', eval_qdlatlon any base fs name ps st = Returns (values, st') ->
     exists qlat qlon vectors,
       py_eval_qdlatlon any junk junk_base fs lat lon rad time name base st
         = Returns (Value (qlat, qlon, if base then Some vectors else None), Some st') /\
       same_shape qlat lat /\ same_shape qlon lat /\ same_shape vectors lat /\
       nd_values qlat = map (fun v => fst (fst v)) values /\
       nd_values qlon = map (fun v => snd (fst v)) values /\
       nd_values vectors = map snd values).
Proof. exact calls_library. Qed.
Print Assumptions C87_library_partial.

(** The calls from Python lead to the same states of the process as those of the library. *)
Theorem C87_states : forall fs any0 calls results st any junk junk_base base name lat lon rad time r st',
  qd_session fs calls (initial_apex any0) = Returns (results, st) ->
  py_eval_qdlatlon any junk junk_base fs lat lon rad time name base st = Returns (r, Some st') ->
  exists calls' results', qd_session fs calls' (initial_apex any0) = Returns (results', st').
Proof. exact py_state. Qed.
Print Assumptions C87_states.

(** The refused calls: the library is not called. *)
Theorem C87_errors : forall fs st any junk junk_base base name lat lon rad time,
  let call := py_eval_qdlatlon any junk junk_base fs lat lon rad time name base st in
  (fs name = None -> call = Returns (Raises IOError, None)) /\
  (fs name <> None -> 1023 < String.length name -> call = Returns (Raises RuntimeError, None)) /\
  (fs name <> None -> String.length name <= 1023 ->
   ~ at_most_1d lat \/ ~ at_most_1d lon \/ ~ at_most_1d rad \/ ~ at_most_1d time \/
   nd_shape lon <> nd_shape lat \/ nd_shape rad <> nd_shape lat \/ nd_shape time <> nd_shape lat ->
   call = Returns (Raises ValueError, None)).
Proof. exact py_errors. Qed.
Print Assumptions C87_errors.

(** A file which is there but cannot be read ends the Python process. *)
Theorem C87_unreadable : forall fs any0 calls results st any junk junk_base base name lat lon rad time,
  qd_session fs calls (initial_apex any0) = Returns (results, st) ->
  fs name = Some None -> String.length name <= 1023 ->
  inputs lat lon rad time -> countable lat -> nd_shape lat <> [0] ->
  (forall i p, point_of lat lon rad time i p -> usual_point p) ->
  py_eval_qdlatlon any junk junk_base fs lat lon rad time name base st = Terminated.
Proof. exact py_unreadable. Qed.
Print Assumptions C87_unreadable.

(** Empty arrays give empty arrays, whatever the content of the file. *)
Theorem C87_empty : forall fs st any junk junk_base base name x lat lon rad time,
  fs name = Some x -> String.length name <= 1023 -> inputs lat lon rad time -> nd_shape lat = [0] ->
  exists empty_vectors, nd_shape empty_vectors = [0] /\ nd_values empty_vectors = [] /\
  py_eval_qdlatlon any junk junk_base fs lat lon rad time name base st =
  Returns (Value ({| nd_shape := [0]; nd_values := [] |}, {| nd_shape := [0]; nd_values := [] |},
                  if base then Some empty_vectors else None), Some st).
Proof. exact py_empty. Qed.
Print Assumptions C87_empty.

(** With 2^31 points no coordinates are computed, and the content of the uninitialised arrays is
    returned. *)
Theorem C87_size_refuted : forall fs name f t r la lo,
  fs name = Some (Some f) -> String.length name <= 1023 ->
  exists lat lon rad time, inputs lat lon rad time /\
    (forall i p, point_of lat lon rad time i p -> p = {| t_dy := Some t; gcrad := r; gclat := la; gclon := lo |}) /\
    forall any junk junk_base st, exists qlat qlon,
      py_eval_qdlatlon any junk junk_base fs lat lon rad time name false st = Returns (Value (qlat, qlon, None), Some st) /\
      element qlat 0 (junk 0) /\ element qlon 0 (junk 0).
Proof. exact py_huge. Qed.
Print Assumptions C87_size_refuted.

(** The sub-solar points of an array of times (C82) *)
Theorem C87_subsol_partial : forall junk time, full time -> at_most_1d time -> countable time ->
  (py_eval_subsol junk time = Terminated <-> exists i t, element time i t /\ (t < -145731 \/ 36890 <= t)%R) /\
  ((forall i t, element time i t -> -145731 <= t < 36890)%R ->
   exists lat lon, py_eval_subsol junk time = Returns (Value (lat, lon)) /\ same_shape lat time /\ same_shape lon time /\
   forall i t la lo, element time i t -> element lat i la -> element lon i lo ->
     (-90 <= la <= 90 /\ -180 <= lo <= 180 /\
      exists u, Rabs (u - t) <= time_tolerance /\
        (0 <= t \/ whole t -> under_the_sun implemented_longitude u la lo) /\
        (t < 0 -> ~ whole t -> under_the_sun implemented_longitude (u + 1) la lo))%R).
Proof. exact py_subsol. Qed.
Print Assumptions C87_subsol_partial.

(** The magnetic local times of arrays of longitudes and times are those of the sub-solar points
    returned for the same times (C83). *)
Theorem C87_mlt_partial : forall b2 b3 b4 calls results saved any junk junk' qdlon time,
  mlt_session calls (initial_magcof b2 b3 b4) = Returns (results, saved) ->
  full qdlon -> full time -> at_most_1d qdlon -> nd_shape time = nd_shape qdlon -> countable qdlon ->
  ((exists i t, element time i t /\ (t < -36526 \/ 36890 <= t)%R) -> py_eval_mlt any junk qdlon time saved = Terminated) /\
  ((forall i t, element time i t -> -36525 <= t < 36890)%R ->
   exists mlts saved' lat lon,
     py_eval_mlt any junk qdlon time saved = Returns (Value mlts, Some saved') /\ same_shape mlts qdlon /\
     py_eval_subsol junk' time = Returns (Value (lat, lon)) /\
     forall i q t la lo mlt, element qdlon i q -> element time i t -> element lat i la -> element lon i lo ->
       element mlts i mlt ->
       exists j t' c, j <= i /\ element time j t' /\ (Rabs (t - t') <= 1)%R /\
         dipole_coefficients (2000 + t' / 365.25) c /\ magnetic_local_time (dipole_pole c) la lo q mlt).
Proof. exact py_mlt. Qed.
Print Assumptions C87_mlt_partial.

Theorem C87_subsol_error : forall junk time, ~ at_most_1d time -> py_eval_subsol junk time = Returns (Raises ValueError).
Proof. exact subsol_error. Qed.
Print Assumptions C87_subsol_error.

Theorem C87_mlt_error : forall any junk qdlon time saved,
  ~ at_most_1d qdlon \/ ~ at_most_1d time \/ nd_shape time <> nd_shape qdlon ->
  py_eval_mlt any junk qdlon time saved = Returns (Raises ValueError, None).
Proof. exact mlt_error. Qed.
Print Assumptions C87_mlt_error.

(** With 2^31 times the results are the content of the uninitialised arrays. *)
Theorem C87_times_refuted : forall q t, exists qdlon time, full qdlon /\ full time /\ at_most_1d qdlon /\
  nd_shape time = nd_shape qdlon /\ (forall i v, element qdlon i v -> v = q) /\ (forall i v, element time i v -> v = t) /\
  forall any junk saved, exists mlts lat lon,
    py_eval_mlt any junk qdlon time saved = Returns (Value mlts, Some saved) /\ element mlts 0 (junk 0) /\
    py_eval_subsol junk time = Returns (Value (lat, lon)) /\ element lat 0 (junk 0) /\ element lon 0 (junk 0).
Proof. exact mlt_huge. Qed.
Print Assumptions C87_times_refuted.

(** Two points, the latitude of the first of which is 0 *)
Example C87_inputs_example : inputs two_lat two_lon two_rad two_time /\ countable two_lat /\
  (forall i p, point_of two_lat two_lon two_rad two_time i p -> usual_point p).
Proof. exact ex_inputs. Qed.

Example C87_coordinates_example : forall any0 any junk junk_base,
  let fs := one_file "apexsh.txt" (centred_file 1) in
  exists qlat qlon vectors st',
    py_eval_qdlatlon any junk junk_base fs two_lat two_lon two_rad two_time "apexsh.txt" true (initial_apex any0)
      = Returns (Value (qlat, qlon, Some vectors), Some st') /\
    nd_shape qlat = [2] /\ nd_shape qlon = [2] /\ element qlat 0 0%R /\
    exists qla qlo, element qlat 1 qla /\ element qlon 1 qlo.
Proof. exact ex_two. Qed.

Example C87_errors_example : forall any0 any junk junk_base,
  let fs := one_file "apexsh.txt" (centred_file 1) in
  py_eval_qdlatlon any junk junk_base fs two_lat two_lon two_rad two_time "missing.txt" true (initial_apex any0)
    = Returns (Raises IOError, None) /\
  py_eval_qdlatlon any junk junk_base fs two_lat (scalar 30%R) two_rad two_time "apexsh.txt" true (initial_apex any0)
    = Returns (Raises ValueError, None) /\
  py_eval_qdlatlon any junk junk_base fs two_lat (vector [0%R; 1%R; 2%R]) two_rad two_time "apexsh.txt" false (initial_apex any0)
    = Returns (Raises ValueError, None).
Proof. exact ex_refused. Qed.

Example C87_times_example : forall b2 b3 b4 any junk, exists lat lon mlt saved',
  py_eval_subsol junk (scalar 0%R) = Returns (Value (scalar lat, scalar lon)) /\
  py_eval_mlt any junk (scalar 10%R) (scalar 0%R) (initial_magcof b2 b3 b4) = Returns (Value (scalar mlt), Some saved') /\
  exists c, dipole_coefficients (2000 + 0 / 365.25)%R c /\ magnetic_local_time (dipole_pole c) lat lon 10%R mlt.
Proof. exact ex_subsol_mlt. Qed.
