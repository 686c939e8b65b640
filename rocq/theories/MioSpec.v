(** Specification of the MIO models. *)

From Coq Require Import List ZArith Reals.
From Verif Require Import Ord CoefModel LegendreModel GeoModel ShEvalModel ShEvalSpec SparseSpec FourierModel FourierSpec
  CoordModel CoordSpec ComposedModel ComposedSpec MioModel.
Import ListNotations.
Open Scope R_scope.

(** an array which is a scalar or has an element for each element of the dimensions *)
Definition scalar_or_full {A} (a : nd A) (d : list nat) : Prop := dims a = [] \/ dims a = d.
Definition option_fits {A} (o : option (nd A)) (d : list nat) : Prop :=
  match o with None => True | Some a => scalar_or_full a d end.
Definition option_at {A} (o : option (nd A)) (ix : list nat) : option A := option_map (fun a => at_index a ix) o.

(** F10.7 given for each position while the time is a scalar *)
Definition f107_without_times {A} (f107 : option (nd (option R))) (time : nd A) : Prop :=
  match f107 with Some a => dims a <> [] /\ dims time = [] | None => False end.

(** A set of distinct series of the degree N *)
Definition distinct_series (s : f2d_set) (N : Z) : Prop :=
  usable_2dfs s /\ (forall i j p, nth_error (fs_nm s) i = Some p -> nth_error (fs_nm s) j = Some p -> i = j) /\
  largest_degree (fs_nm s) N /\ (N < 2 ^ 24)%Z.
(** The coefficients are the values of the series for the two times, zero if there is none. *)
Definition series_at (s : f2d_set) (t1 t2 : R) (c : coefs) : Prop :=
  (forall i n m ab, nth_error (fs_nm s) i = Some (n, m) -> nth_error (fs_ab s) i = Some ab ->
     coef_nm c n m = series_value s ab t1 t2) /\
  (forall n m, valid_nm n m -> ~ In (n, m) (fs_nm s) -> coef_nm c n m = 0).

Section Spec.
Context {T : Type} {OT : TOrd T}.

(** The relation of the inputs and of the output for one time and one position: the input and output
    coordinate system, the scale, F10.7 and the coordinates of the sub-solar point if they are given *)
Definition element := option T -> vec -> coord_type -> coord_type -> option vec -> option (option R) ->
  option R -> option R -> option vec -> Prop.

(** The value of the MIO model: NaN if the time is NaN or not in the validity or if F10.7 is NaN; otherwise minus the
    gradient of the potential in the dipole frame, multiplied by the scale and by 1 + W F10.7. *)
Definition mio_element (m : @mio T) (N : Z) : element := fun t x ci co s f107 lat_sol lon_sol out =>
  match f107, t with
  | Some None, _ | _, None => out = None
  | _, Some t =>
      (~ in_range t (mio_validity m) -> out = None) /\
      (in_range t (mio_validity m) ->
       exists c w lat lon csize,
         match lat_sol, lon_sol with
         | Some a, Some b => lat = a /\ lon = b
         | _, _ => (lat, lon) = mio_subsol m t
         end /\
         series_at (mio_set m) (mio_year_fraction m t)
           (magnetic_universal_time (fst (mio_north_pole m)) (snd (mio_north_pole m)) lat lon) c /\
         (2 * csize = (N + 1) * (N + 2))%Z /\
         (forall mem, sheval_dipole x csize c (fst (mio_north_pole m)) (snd (mio_north_pole m)) ci co SM_GRADIENT
            (mio_internal m) (-1) 1 (match s with Some s => s | None => (1, 1, 1) end) mem = Ok (None, Some w)) /\
         out = Some (scale (- match f107 with Some (Some f) => 1 + mio_wolf_ratio m * f | _ => 1 end) w))
  end.

(** A model whose result is given element by element, for spherical positions and for times and parameters
    which are scalars or given for each of the positions *)
Definition pointwise (model : evaluator) (e : element) : Prop :=
  forall time location co s f107 lat_sol lon_sol,
    scalar_or_full time (dims location) -> option_fits f107 (dims location) ->
    option_fits lat_sol (dims location) -> option_fits lon_sol (dims location) ->
    ~ f107_without_times f107 time ->
    exists r, model time location CT_GEOCENTRIC_SPHERICAL co s f107 lat_sol lon_sol = Ok r /\ dims r = dims location /\
      forall ix, In ix (indices (dims location)) ->
        e (at_index time ix) (get location ix) CT_GEOCENTRIC_SPHERICAL co s (option_at f107 ix)
          (option_at lat_sol ix) (option_at lon_sol ix) (get r ix).
End Spec.
