(** Model of magnetic_model/parser_mma.py and magnetic_model/loader_mma.py.  The numbers are reals; the access to the
    CDF files is left out: a set of coefficients is given by the values of its CDF variables. *)

From Coq Require Import Bool List ZArith Reals.
From Verif Require Import Ord ROrd CoefModel SparseModel SeriesModel CombineModel.
Import ListNotations.

(** The array of degrees and orders: one row per coefficient, or a list of such arrays *)
Inductive nm_variable := Nm_2d (nm : list (Z * Z)) | Nm_3d (nms : list (list (Z * Z))).
(** The CDF variables of a set: whether the type of the times is CDF_EPOCH, the times and the coefficients of the
    first record, one row of [cv_ncoeff] coefficients per time *)
Record cdf_set := {
  cv_epoch_type : bool; cv_time : list R; cv_nm : nm_variable; cv_ncoeff : nat; cv_coeff : list (list R) }.

(** The dictionary of parser_mma.py:127-133; one row per coefficient *)
Record mma_data := {
  mma_degree_min : Z; mma_degree_max : Z; mma_t : list R; mma_nm : list (Z * Z); mma_coeff : list (list R) }.

(** parser_mma.py:41-42 *)
Definition CDF_EPOCH_2000 : R := 63113904000000.
Definition CDF_EPOCH_TO_DAYS : R := 1 / 86400000.

(** parser_mma.py:136-141 *)
Definition cdf_rawtime_to_mjd2000 (raw_time : list R) (epoch_type : bool) : result (list R) :=
  if epoch_type then Ok (map (fun x => (x - CDF_EPOCH_2000) * CDF_EPOCH_TO_DAYS)%R raw_time)
  else Err TypeError.

(** ndarray.transpose; [None] if a row is too short, which is not the case for an array *)
Definition transpose (ncols : nat) (rows : list (list R)) : option (list (list R)) :=
  all_some (map (fun j => all_some (map (fun row => nth_error row j) rows)) (seq 0 ncols)).

(** parser_mma.py:117-133.  A list of several arrays of degrees and orders, which the constructor of the
    coefficients does not accept, is refused here. *)
Definition read_swarm_mma_coefficients (cdf : cdf_set) : result mma_data :=
  match match cv_nm cdf with Nm_2d nm => Some nm | Nm_3d [nm] => Some nm | Nm_3d _ => None end with
  | None => Err ValueError
  | Some nm =>
      match map fst nm with
      | [] => Err ValueError
      | n :: ns =>
          bind (cdf_rawtime_to_mjd2000 (cv_time cdf) (cv_epoch_type cdf)) (fun t =>
          match transpose (cv_ncoeff cdf) (cv_coeff cdf) with
          | None => Err OutOfBounds
          | Some coeff =>
              Ok {| mma_degree_min := fold_left Z.min ns n; mma_degree_max := fold_left Z.max ns n;
                    mma_t := t; mma_nm := nm; mma_coeff := coeff |}
          end)
      end
  end.

(** numpy.array_equal *)
Fixpoint nm_eqb (a b : list (Z * Z)) : bool :=
  match a, b with
  | [], [] => true
  | (n, m) :: a', (n', m') :: b' => (n =? n')%Z && (m =? m')%Z && nm_eqb a' b'
  | _, _ => false
  end.

(** loader_mma.py:211-223, the loop over the sets behind the first one *)
Fixpoint check_sets (previous_item : mma_data) (tail : list mma_data) : result unit :=
  match tail with
  | [] => Ok tt
  | item :: tail' =>
      if negb (mma_degree_min previous_item =? mma_degree_min item)%Z || negb (mma_degree_max previous_item =? mma_degree_max item)%Z
      then Err ValueError
      else if negb (nm_eqb (mma_nm previous_item) (mma_nm item)) then Err ValueError
      else
        match rev (mma_t previous_item), mma_t item with
        | t_last :: _, t_first :: _ => if ltb t_first t_last then Err ValueError else check_sets item tail'
        | _, _ => Err IndexError
        end
  end.

(** concatenate(..., axis=1) of arrays of rows *)
Fixpoint concatenate_columns (arrays : list (list (list R))) : result (list (list R)) :=
  match arrays with
  | [] => Err ValueError
  | [a] => Ok a
  | a :: arrays' =>
      bind (concatenate_columns arrays') (fun b =>
      if Nat.eqb (length a) (length b) then Ok (map (fun p => fst p ++ snd p) (combine a b)) else Err ValueError)
  end.

(** loader_mma.py:207-231 *)
Definition merge_coefficients (sets : list mma_data) : result mma_data :=
  match sets with
  | [] => Err ValueError
  | head :: tail =>
      bind (check_sets head tail) (fun _ =>
      bind (concatenate_columns (map mma_coeff sets)) (fun coeff =>
      Ok {| mma_degree_min := mma_degree_min head; mma_degree_max := mma_degree_max head; mma_nm := mma_nm head;
            mma_t := concat (map mma_t sets); mma_coeff := coeff |}))
  end.

Fixpoint read_all (cdfs : list cdf_set) : result (list mma_data) :=
  match cdfs with
  | [] => Ok []
  | c :: cdfs' => bind (read_swarm_mma_coefficients c) (fun d => bind (read_all cdfs') (fun ds => Ok (d :: ds)))
  end.
(** the merged set, with the default arguments of the constructor *)
Definition mma_series (cdfs : list cdf_set) : result (@time_dependent R R) :=
  bind (read_all cdfs) (fun data =>
  bind (merge_coefficients data) (fun d =>
  match mk_time_dependent (mma_nm d) (mma_coeff d) (mma_t d) 2 None None (fun x => x) with
  | Some td => Ok td
  | None => Err ValueError
  end)).

(** loader_mma.py:191-196: the sets of one product per file (2F) *)
Definition load_coeff_mma_single_set (files : list cdf_set) : result (@time_dependent R R) := mma_series files.
(** loader_mma.py:178-188: the two sets of each file (2C) are merged separately and combined *)
Definition load_coeff_mma_multi_set (files : list (cdf_set * cdf_set)) : result (@time_dependent R R * @time_dependent R R) :=
  bind (mma_series (map fst files)) (fun s1 =>
  bind (mma_series (map snd files)) (fun s2 => Ok (s1, s2))).

(** coefficients.py:469-479 at one time, and the sum of both sets (324-337).  [None]: an exception *)
Definition mma_call (td : @time_dependent R R) (t : R) (min_degree max_degree : Z) : option cells :=
  td_call td (fun x => x) (Some t) min_degree max_degree.
Definition mma_2c_call (s : @time_dependent R R * @time_dependent R R) (t : R) (min_degree max_degree : Z) : option cells :=
  match mma_call (fst s) t min_degree max_degree, mma_call (snd s) t min_degree max_degree with
  | Some r1, Some r2 => Some (combine_cells [r1; r2])
  | _, _ => None
  end.
(** coefficients.py:264-297 *)
Definition mma_2c_validity (s : @time_dependent R R * @time_dependent R R) : R * R :=
  (tmax (fst (td_validity (fst s))) (fst (td_validity (snd s))), tmin (snd (td_validity (fst s))) (snd (td_validity (snd s)))).
