(** Model of the loading of the MIO models from the parsed data: magnetic_model/loader_mio.py. *)

From Coq Require Import Bool List ZArith Reals.
From Verif Require Import Ord CoefModel ArrModel LegendreModel GeoModel ShEvalModel CoordModel FourierModel ComposedModel MioModel.
Import ListNotations.
Open Scope R_scope.

(** The items returned by parse_swarm_mio_file (parser_mio.py:35-91).  One array of the 2D series per pair (n, m). *)
Record mio_data := {
  d_lat_ngp : R; d_lon_ngp : R; d_height : R; d_wolf_ratio : R;
  d_degree_max : Z; d_nm : list (Z * Z); d_qs : list coefs; d_gh : list coefs;
  d_pmin : Z; d_pmax : Z; d_smin : Z; d_smax : Z }.

(** model_mio.py:40 *)
Definition MIO_EARTH_RADIUS : R := 6371.2.

(** loader_mio.py:131-133: scale[n]; the power of the negative number has an odd integer exponent *)
Definition external_scale (height : R) (n : nat) : R :=
  let nrrad := - (1 + height / MIO_EARTH_RADIUS) in
  (INR n / (INR n + 1)) * nrrad ^ (2 * n + 1).
(** scale[indices[:, 0]] of an array of degree + 1 items, negative indices count from its end *)
Definition scale_item (degree : Z) (height : R) (n : Z) : option R :=
  let n := if (n <? 0)%Z then (n + (degree + 1))%Z else n in
  if (0 <=? n)%Z && (n <? degree + 1)%Z then Some (external_scale height (Z.to_nat n)) else None.
Fixpoint scale_items (degree : Z) (height : R) (nm : list (Z * Z)) : option (list R) :=
  match nm with
  | [] => Some []
  | (n, _) :: nm' =>
      match scale_item degree height n, scale_items degree height nm' with
      | Some x, Some l => Some (x :: l)
      | _, _ => None
      end
  end.
(** loader_mio.py:129-134; the arrays have the same number of items in the files, otherwise they are refused here
    (NumPy broadcasts one item to many) *)
Definition convert_external_mio_coeff (degree : Z) (indices : list (Z * Z)) (coefficients : list coefs) (height : R)
  : result (list coefs) :=
  match scale_items degree height indices with
  | None => Err IndexError
  | Some l =>
      if Nat.eqb (length l) (length coefficients)
      then Ok (map (fun p => let '(k, c) := p in fun i : nat => (k * fst (c i), k * snd (c i))) (combine l coefficients))
      else Err ValueError
  end.

(** coefficients_mio.py:57-76; the options min_degree and max_degree are not given, so all of the coefficients
    are used *)
Definition mio_series (data : mio_data) (coefficients : list coefs) : result f2d_set :=
  if (d_pmax data <? d_pmin data)%Z || (d_smax data <? d_smin data)%Z then Err ValueError
  else Ok {| fs_ab := coefficients; fs_nm := d_nm data;
             fs_size1 := Z.to_nat (d_smax data - d_smin data + 1); fs_size2 := Z.to_nat (d_pmax data - d_pmin data + 1);
             fs_min1 := d_smin data; fs_min2 := d_pmin data; fs_scale1 := 2 * PI; fs_scale2 := 2 * PI / 24 |}.

(** loader_mio.py:110-126 *)
Definition get_coeff_external (data : mio_data) (above_ionosphere : bool) : result (f2d_set * bool) :=
  if above_ionosphere then
    bind (convert_external_mio_coeff (d_degree_max data) (d_nm data) (d_qs data) (d_height data)) (fun coefficients =>
    bind (mio_series data coefficients) (fun set => Ok (set, true)))
  else bind (mio_series data (d_qs data)) (fun set => Ok (set, false)).

Section Load.
Context {T : Type} {OT : TOrd T}.
(** the conversions of the times and the validity, which the files do not give *)
Variables (year_fraction : T -> R) (subsol : T -> R * R) (validity : T * T).

(** loader_mio.py:79-83 *)
Definition create_mio_model (coefficients : f2d_set * bool) (data : mio_data) : @mio T :=
  {| mio_validity := validity; mio_north_pole := (d_lat_ngp data, d_lon_ngp data); mio_wolf_ratio := d_wolf_ratio data;
     mio_set := fst coefficients; mio_internal := snd coefficients; mio_year_fraction := year_fraction; mio_subsol := subsol |}.

(** loader_mio.py:52-76, for above_ionosphere=None: the models below and above of the primary model *)
Definition load_external (data : mio_data) : result (@mio T * @mio T) :=
  bind (get_coeff_external data false) (fun below =>
  bind (get_coeff_external data true) (fun above =>
  Ok (create_mio_model below data, create_mio_model above data))).
(** the evaluation of the primary model, of the height given by the data *)
Definition external_eval (data : mio_data) (models : @mio T * @mio T) (mem : memory) (empty : list nat -> option vec) : @evaluator T :=
  fun time location ci co s f107 lat_sol lon_sol =>
    primary_eval (fun time location ci co s f107 lat_sol lon_sol => mio_eval (fst models) time location ci co s f107 lat_sol lon_sol mem)
      (fun time location ci co s f107 lat_sol lon_sol => mio_eval (snd models) time location ci co s f107 lat_sol lon_sol mem)
      (d_height data) MIO_EARTH_RADIUS empty time location ci co s f107 lat_sol lon_sol.
(** loader_mio.py:45-49 and 86-97: the internal (secondary) field *)
Definition load_internal (data : mio_data) : result (@mio T) :=
  bind (mio_series data (d_gh data)) (fun set => Ok (create_mio_model (set, true) data)).
End Load.
