(** Quasi-dipole coordinates and base vectors (C84 to C86).  Nothing else is here. *)

From Coq Require Import List String Reals.
From Coquelicot Require Import Coquelicot.
From Verif Require Import QdSunModel QdApexModel.
From Verif Require Import CoordSpec SunSpec QdMltSpec QdApexSpec.
From Verif Require Import QdApexMainProofs QdApexExamples.
Import ListNotations.
Open Scope string_scope.
Open Scope R_scope.

(** C84. The coordinates of a point are the latitude and the longitude of the vector of the
    expansion of the file at its geodetic position.  The coefficients are interpolated to the time
    of this point or of an earlier one which differs by at most a day. *)
Theorem C84_coordinates_partial : forall fs any0 calls results st any vecflag name f points,
  qd_session fs calls (initial_apex any0) = Returns (results, st) ->
  fs name = Some (Some f) -> well_formed f -> (forall p, In p points -> usual_point p) ->
  exists values st', eval_qdlatlon any vecflag fs name points st = Returns (values, st') /\
    List.length values = List.length points /\
    forall i p t qlat qlon base, nth_error points i = Some p -> t_dy p = Some t ->
      nth_error values i = Some ((qlat, qlon), base) ->
      exists j p' t' c lat alt,
        (j <= i)%nat /\ nth_error points j = Some p' /\ t_dy p' = Some t' /\ Rabs (t - t') <= 1 / 365.25 /\
        coefficients_at f t' c /\ geodetic_position (gclat p) (gcrad p) lat alt /\
        pointed (apex_vector f c alt lat (gclon p)) qlat qlon /\ -180 <= qlon <= 180.
Proof. exact coordinates. Qed.
Print Assumptions C84_coordinates_partial.

(** They are not always those of the time of the point itself. *)
Theorem C84_own_time_refuted : ~ (forall fs any0 calls results st any vecflag name f points,
  qd_session fs calls (initial_apex any0) = Returns (results, st) ->
  fs name = Some (Some f) -> well_formed f -> (forall p, In p points -> usual_point p) ->
  exists values st', eval_qdlatlon any vecflag fs name points st = Returns (values, st') /\
    forall i p t qlat qlon base, nth_error points i = Some p -> t_dy p = Some t ->
      nth_error values i = Some ((qlat, qlon), base) ->
      exists c lat alt, coefficients_at f t c /\ geodetic_position (gclat p) (gcrad p) lat alt /\
        pointed (apex_vector f c alt lat (gclon p)) qlat qlon).
Proof. exact (own_time_refuted blank_apex (blank_unset 0)). Qed.
Print Assumptions C84_own_time_refuted.

(** The coordinates are the same with and without the base vectors. *)
Theorem C84_same_coordinates : forall fs any0 calls results st any any' name f points,
  qd_session fs calls (initial_apex any0) = Returns (results, st) ->
  fs name = Some (Some f) -> well_formed f -> (forall p, In p points -> usual_point p) ->
  exists values values' after after',
    eval_qdlatlon any false fs name points st = Returns (values, after) /\
    eval_qdlatlon any' true fs name points st = Returns (values', after') /\
    map fst values = map fst values'.
Proof. exact same_coordinates. Qed.
Print Assumptions C84_same_coordinates.

(** A file which cannot be read ends the process. *)
Theorem C84_unreadable : forall fs any0 calls results st any vecflag name points,
  qd_session fs calls (initial_apex any0) = Returns (results, st) ->
  (forall f, fs name <> Some (Some f)) -> points <> [] -> (forall p, In p points -> usual_point p) ->
  eval_qdlatlon any vecflag fs name points st = Terminated.
Proof. exact unreadable. Qed.
Print Assumptions C84_unreadable.

(** The coordinates of the first of three points, with a file for which they are the geodetic ones *)
Example C84_example : forall any0 any,
  qd_session (one_file "apexsh.txt" (centred_file 1)) [] (initial_apex any0) = Returns ([], initial_apex any0) /\
  one_file "apexsh.txt" (centred_file 1) "apexsh.txt" = Some (Some (centred_file 1)) /\ well_formed (centred_file 1) /\
  (forall p, In p [place 2000 7000 0 30; place 2000.001 6800 45 60; place 2011 6700 (-80) 170] -> usual_point p) /\
  exists qlon rest st, eval_qdlatlon any false (one_file "apexsh.txt" (centred_file 1)) "apexsh.txt"
      [place 2000 7000 0 30; place 2000.001 6800 45 60; place 2011 6700 (-80) 170] (initial_apex any0)
      = Returns (((0, qlon), missing_base) :: rest, st) /\
    cos (one_degree * qlon) = cos (one_degree * 30) /\ sin (one_degree * qlon) = sin (one_degree * 30).
Proof. exact ex_coordinates. Qed.

(** C85. The base vectors are those of Richmond, multiplied by the length of the vector of the
    expansion: F1 is the gradient of the latitude and F2 of the longitude, turned by a right angle.
    The latitude and the longitude around the point are any functions of the geodetic ones which
    give the direction of the vector. *)
Theorem C85_base_vectors_partial : forall fs any0 calls results st any name f points,
  qd_session fs calls (initial_apex any0) = Returns (results, st) ->
  fs name = Some (Some f) -> well_formed f -> (forall p, In p points -> usual_point p) ->
  exists values st', eval_qdlatlon any true fs name points st = Returns (values, st') /\
    List.length values = List.length points /\
    forall i p t qlat qlon b, nth_error points i = Some p -> t_dy p = Some t ->
      nth_error values i = Some ((qlat, qlon), b) ->
      exists j p' t' c lat alt,
        (j <= i)%nat /\ nth_error points j = Some p' /\ t_dy p' = Some t' /\ Rabs (t - t') <= 1 / 365.25 /\
        coefficients_at f t' c /\ geodetic_position (gclat p) (gcrad p) lat alt /\
        forall qlat_at qlon_at lat_n lat_e lon_n lon_e,
          let lon := gclon p in
          let d := vector_length (apex_vector f c alt lat lon) in
          -90 < lat < 90 -> -90 < qlat < 90 -> 0 < d ->
          qd_functions f c alt qlat_at qlon_at lat lon ->
          is_derive (fun u => qlat_at u lon) lat lat_n -> is_derive (fun u => qlat_at lat u) lon lat_e ->
          is_derive (fun u => qlon_at u lon) lat lon_n -> is_derive (fun u => qlon_at lat u) lon lon_e ->
          let '(f1e, f1n) := richmond_f1 alt lat lat_n lat_e in
          let '(f2e, f2n) := richmond_f2 alt lat qlat lon_n lon_e in
          f11 b = d * f1e /\ f12 b = d * f1n /\ f21 b = d * f2e /\ f22 b = d * f2n /\
          f_ b = d * f1e * (d * f2n) - d * f1n * (d * f2e).
Proof. exact base_vectors_spec. Qed.
Print Assumptions C85_base_vectors_partial.

(** They are not those of Richmond unless this length is one: the code does not divide by it. *)
Theorem C85_factor_refuted : ~ (forall fs any0 calls results st any name f points,
  qd_session fs calls (initial_apex any0) = Returns (results, st) ->
  fs name = Some (Some f) -> well_formed f -> (forall p, In p points -> usual_point p) ->
  forall values st', eval_qdlatlon any true fs name points st = Returns (values, st') ->
  forall i p t qlat qlon b, nth_error points i = Some p -> t_dy p = Some t ->
    nth_error values i = Some ((qlat, qlon), b) ->
    forall c lat alt, coefficients_at f t c -> geodetic_position (gclat p) (gcrad p) lat alt ->
      forall qlat_at qlon_at lat_n lat_e,
        let lon := gclon p in
        -90 < lat < 90 -> -90 < qlat < 90 -> 0 < vector_length (apex_vector f c alt lat lon) ->
        qd_functions f c alt qlat_at qlon_at lat lon ->
        is_derive (fun u => qlat_at u lon) lat lat_n -> is_derive (fun u => qlat_at lat u) lon lat_e ->
        (f11 b, f12 b) = richmond_f1 alt lat lat_n lat_e).
Proof. exact (base_factor_refuted blank_apex (blank_unset 0)). Qed.
Print Assumptions C85_factor_refuted.

(** A point of the equator at the altitude of 621.863 km, with a file for which the quasi-dipole
    coordinates are the geodetic ones; [base_result] are the hypotheses *)
Example C85_example : forall any0 any s, 0 < s -> exists b st,
  base_result any0 any s b st (7000 - 6378.137) /\
  let '(f1e, f1n) := richmond_f1 (7000 - 6378.137) 0 1 0 in
  f11 b = s * f1e /\ f12 b = s * f1n /\ 0 < f1e.
Proof. exact base_result_ex. Qed.

(** C86. While the files do not change, the results depend neither on the earlier calls nor on
    the uninitialised variables. *)
Theorem C86_history_partial : forall fs any0 calls results st any0' calls' results' st' any any' vecflag name f points,
  qd_session fs calls (initial_apex any0) = Returns (results, st) ->
  qd_session fs calls' (initial_apex any0') = Returns (results', st') ->
  fs name = Some (Some f) -> well_formed f -> (forall p, In p points -> usual_point p) ->
  exists values after after',
    eval_qdlatlon any vecflag fs name points st = Returns (values, after) /\
    eval_qdlatlon any' vecflag fs name points st' = Returns (values, after').
Proof. exact history. Qed.
Print Assumptions C86_history_partial.

(** A file which has changed since an earlier call is not read again. *)
Theorem C86_changed_file_refuted : forall any0 any, exists fs fs' name f f' p values1 values2 values3 st1 st2 st3,
  fs name = Some (Some f) /\ fs' name = Some (Some f') /\ well_formed f /\ well_formed f' /\ usual_point p /\
  eval_qdlatlon any false fs name [p] (initial_apex any0) = Returns (values1, st1) /\
  eval_qdlatlon any false fs' name [p] st1 = Returns (values2, st2) /\
  eval_qdlatlon any false fs' name [p] (initial_apex any0) = Returns (values3, st3) /\
  values2 = values1 /\ values2 <> values3.
Proof. exact changed_file. Qed.
Print Assumptions C86_changed_file_refuted.

(** With a time which is not a number the result is the content of uninitialised variables. *)
Theorem C86_nan_refuted : ~ (forall fs any0 any any' vecflag name f points values values' st st',
  fs name = Some (Some f) -> well_formed f -> (forall p, In p points -> 6000 <= gcrad p /\ -90 <= gclat p <= 90) ->
  eval_qdlatlon any vecflag fs name points (initial_apex any0) = Returns (values, st) ->
  eval_qdlatlon any' vecflag fs name points (initial_apex any0) = Returns (values', st') -> values = values').
Proof. exact nan_refuted. Qed.
Print Assumptions C86_nan_refuted.

Example C86_example : forall any0 any,
  let fs := one_file "apexsh.txt" (centred_file 1) in
  (forall p, In p [place 2000 7000 0 30; place 2000.001 6800 45 60] -> usual_point p) /\
  exists results st, qd_session fs [{| c_any := any; c_vecflag := true; c_file := "apexsh.txt"; c_points := [place 1999 6700 (-20) 0; place 2005 7000 0 1] |};
     {| c_any := any; c_vecflag := false; c_file := "apexsh.txt"; c_points := [place 2000 7000 0 30] |}] (initial_apex any0) = Returns (results, st).
Proof. exact ex_history. Qed.
