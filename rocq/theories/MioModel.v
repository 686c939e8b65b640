(** Model of the MIO models: magnetic_model/model_mio.py with the NumPy operations it uses.

    Times are compared only, their conversions (year fraction, sub-solar point) are arbitrary functions.
    [None] is NaN for times, the F10.7 index and the results. *)

From Coq Require Import Bool List ZArith Reals.
From Verif Require Import Ord CoefModel ArrModel LegendreModel GeoModel ShEvalModel CoordModel FourierModel ComposedModel.
Import ListNotations.
Open Scope R_scope.

(** ** NumPy *)

(** the multi-indices in the order of the array, and the position of a multi-index in a list *)
Fixpoint all_indices (dims : list nat) : list (list nat) :=
  match dims with
  | [] => [[]]
  | d :: ds => flat_map (fun i => map (cons i) (all_indices ds)) (seq 0 d)
  end.
Fixpoint position_in (ix : list nat) (l : list (list nat)) : option nat :=
  match l with
  | [] => None
  | x :: l' => if dims_eqb x ix then Some 0%nat else option_map S (position_in ix l')
  end.
(** the multi-indices selected by a mask *)
Definition selected (mask : nd bool) : list (list nat) := filter (get mask) (all_indices (dims mask)).

(** a[mask]: the selected items along the new first dimension; the dimensions of the mask must be the
    first ones of the array *)
Definition take {A} (a : nd A) (mask : nd bool) : result (nd A) :=
  if prefixb (dims mask) (dims a) then
    Ok {| dims := length (selected mask) :: skipn (length (dims mask)) (dims a);
          get := fun ix => match ix with
                           | i :: r => get a (nth i (selected mask) [] ++ r)
                           | [] => get a []            (* not an index of this array *)
                           end |}
  else Err IndexError.
(** result[mask] = values *)
Definition store {A} (res : nd A) (mask : nd bool) (values : nd A) : result (nd A) :=
  if negb (prefixb (dims mask) (dims res)) then Err IndexError
  else if dims_eqb (dims values) (length (selected mask) :: skipn (length (dims mask)) (dims res)) then
    Ok {| dims := dims res;
          get := fun ix =>
            match position_in (firstn (length (dims mask)) ix) (selected mask) with
            | Some i => get values (i :: skipn (length (dims mask)) ix)
            | None => get res ix
            end |}
  else Err ValueError.

(** broadcasting of two arrays: the dimensions are aligned at the end; those of size one are
    repeated (here with the dimensions in the reverse order) *)
Fixpoint broadcast_rev (a b : list nat) : option (list nat) :=
  match a, b with
  | [], _ => Some b
  | _, [] => Some a
  | x :: a', y :: b' =>
      match broadcast_rev a' b' with
      | None => None
      | Some c => if Nat.eqb x y then Some (x :: c) else if Nat.eqb x 1 then Some (y :: c)
                  else if Nat.eqb y 1 then Some (x :: c) else None
      end
  end.
Fixpoint broadcast_index_rev (dims ix : list nat) : list nat :=
  match dims, ix with
  | d :: dims', i :: ix' => (if Nat.eqb d 1 then 0%nat else i) :: broadcast_index_rev dims' ix'
  | _, _ => []
  end.
Definition broadcast_get {A} (a : nd A) (ix : list nat) : A :=
  get a (rev (broadcast_index_rev (rev (dims a)) (rev ix))).
Definition broadcast2 {A B C} (f : A -> B -> C) (a : nd A) (b : nd B) : result (nd C) :=
  match broadcast_rev (rev (dims a)) (rev (dims b)) with
  | None => Err ValueError
  | Some d => Ok {| dims := rev d; get := fun ix => f (broadcast_get a ix) (broadcast_get b ix) |}
  end.

(** util.py:66-94 (see ShapeModel and C58) *)
Definition reshape_times {A B} (time : nd A) (location : nd B) : result (nd A) :=
  if prefixb (dims time) (dims location) then
    match dims time with
    | [] => Ok time
    | _ => Ok {| dims := dims location; get := fun ix => get time (firstn (length (dims time)) ix) |}
    end
  else if prefixb (dims location) (dims time) then Err TypeError
  else Err ValueError.
(** util.py:97-101 *)
Definition mask_array {A} (data : nd A) (mask : nd bool) : result (nd A) :=
  if Nat.ltb 0 (length (dims data)) then take data mask else Ok data.
Definition mask_option {A} (data : option (nd A)) (mask : nd bool) : result (option (nd A)) :=
  match data with
  | None => Ok None
  | Some a => bind (mask_array a mask) (fun a => Ok (Some a))
  end.

(** ** DipoleMIOGeomagneticModel *)
Section Mio.
Context {T : Type} {OT : TOrd T}.

Record mio := {
  mio_validity : T * T;
  mio_north_pole : R * R;
  mio_wolf_ratio : R;
  mio_set : f2d_set;                      (* get_f2fs_coeff_set, coefficients_mio.py:52-62 *)
  mio_internal : bool;
  mio_year_fraction : T -> R;             (* mjd2000_to_year_fraction *)
  mio_subsol : T -> R * R                 (* get_subsol, magnetic_time.py:59-62 *)
}.
(** the content of the allocated memory *)
Definition memory := ((arr * arr * coefs * arr * arr * arr) * (coefs * coefs * coefs * coefs))%type.

(** magnetic_time.py:39-56, for the times of the array; the masked times are not NaN, the value for NaN is not used *)
Definition get_mut (m : mio) (time : nd (option T)) (lat_sol lon_sol : option (nd R)) : result (nd R) :=
  let '(lat_ngp, lon_ngp) := mio_north_pole m in
  match lat_sol, lon_sol with
  | Some lat, Some lon => broadcast2 (fun a o => magnetic_universal_time lat_ngp lon_ngp a o) lat lon
  | _, _ =>
      Ok (nd_apply (fun t => match t with
                             | Some t => let '(lat, lon) := mio_subsol m t in magnetic_universal_time lat_ngp lon_ngp lat lon
                             | None => 0
                             end) time)
  end.

(** model_mio.py:197-218 called by model.py:247-271 (DipoleSphericalHarmomicGeomagneticModel._eval).  The option
    scale is removed by the latter, so sheval2dfs has the scale -1.  The other options (max_degree, min_degree)
    only choose the coefficients [mio_set]. *)
Definition mio_core (m : mio) (time : nd (option T)) (location : nd vec) (ci co : coord_type) (scale : option vec)
  (lat_sol lon_sol : option (nd R)) (mem : memory) : result (nd (option vec)) :=
  let '(lat_ngp, lon_ngp) := mio_north_pole m in
  let location_dipole := nd_apply (fun x => convert_to_dipole x lat_ngp lon_ngp ci) location in
  let year_fraction := nd_apply (fun t => match t with Some t => mio_year_fraction m t | None => 0 end) time in
  bind (get_mut m time lat_sol lon_sol) (fun mut =>
  bind (sheval2dfs year_fraction mut location_dipole (mio_set m) CT_GEOCENTRIC_SPHERICAL CT_GEOCENTRIC_SPHERICAL
          SM_GRADIENT (mio_internal m) 1 (Ropp 1, Ropp 1, Ropp 1) (fst mem) (snd mem)) (fun res =>
  let '(odims, values) := res in
  (* rotate_vectors_from_dipole checks the shapes of the arrays (pymm_vrot_common.h:37-63) *)
  if negb (Nat.eqb (length (dims location)) 0) && negb (dims_eqb odims (dims location)) then Err ValueError
  else
    Ok {| dims := odims;
          get := fun ix =>
            match position_in ix (all_indices odims) with
            | None => None                        (* not an index of this array *)
            | Some k =>
                match nth_error values k with
                | Some (_, Some g) =>
                    let x := get location (firstn (length (dims location)) ix) in
                    let v := rotate_vectors_from_dipole g lat_ngp lon_ngp
                               (convert_to_dipole x lat_ngp lon_ngp ci) x ci co in
                    Some (match scale with Some s => vmul v s | None => v end)
                | _ => None                       (* not reached *)
                end
            end |})).

(** model_mio.py:178-179 *)
Definition in_validity (validity : T * T) (t : option T) : bool := nleb (fst validity) t && nleb' t (snd validity).

(** model_mio.py:153-195.  The option f107 is absent (None) or an array. *)
Definition mio_eval (m : mio) (time : nd (option T)) (location : nd vec) (ci co : coord_type) (scale : option vec)
  (f107 : option (nd (option R))) (lat_sol lon_sol : option (nd R)) (mem : memory) : result (nd (option vec)) :=
  bind (reshape_times time location) (fun time =>
  let mio_scale := option_map (nd_apply (option_map (fun f => 1 + mio_wolf_ratio m * f))) f107 in
  let time_mask := nd_apply (in_validity (mio_validity m)) time in
  bind (match mio_scale with
        | None => Ok time_mask                    (* & True *)
        | Some s => broadcast2 andb time_mask (nd_apply (fun f => match f with Some _ => true | None => false end) s)
        end) (fun mask =>
  bind (mask_option lat_sol mask) (fun lat_sol =>
  bind (mask_option lon_sol mask) (fun lon_sol =>
  bind (take time mask) (fun time_sel =>
  bind (take location mask) (fun location_sel =>
  bind (mio_core m time_sel location_sel ci co scale lat_sol lon_sol mem) (fun values =>
  bind (store {| dims := dims location; get := fun _ => None |} mask values) (fun res =>
  match mio_scale with
  | None => Ok res
  | Some s =>
      if prefixb (dims s) (dims location) then
        Ok {| dims := dims location;
              get := fun ix => match get s (firstn (length (dims s)) ix), get res ix with
                               | Some k, Some v => Some (vmul v (k, k, k))
                               | _, _ => None
                               end |}
      else Err ValueError                        (* reshape_array, util.py:104-123 *)
  end)))))))).

(** ** MIOPrimaryGeomagneticModel: any two models *)
Definition evaluator := nd (option T) -> nd vec -> coord_type -> coord_type -> option vec ->
  option (nd (option R)) -> option (nd R) -> option (nd R) -> result (nd (option vec)).

(** model_mio.py:88-102 *)
Definition eval_masked (model : evaluator) (mask : nd bool) (time : nd (option T)) (location : nd vec) (co : coord_type)
  (scale : option vec) (f107 : option (nd (option R))) (lat_sol lon_sol : option (nd R)) (res : nd (option vec))
  : result (nd (option vec)) :=
  bind (mask_option f107 mask) (fun f107 =>
  bind (mask_option lat_sol mask) (fun lat_sol =>
  bind (mask_option lon_sol mask) (fun lon_sol =>
  bind (mask_array time mask) (fun time =>
  bind (take location mask) (fun location =>
  bind (model time location CT_GEOCENTRIC_SPHERICAL co scale f107 lat_sol lon_sol) (fun values =>
  store res mask values)))))).

(** model_mio.py:73-111; the content of the uninitialised result is [empty] *)
Definition primary_eval (below above : evaluator) (height earth_radius : R) (empty : list nat -> option vec)
  (time : nd (option T)) (location : nd vec) (ci co : coord_type) (scale : option vec)
  (f107 : option (nd (option R))) (lat_sol lon_sol : option (nd R)) : result (nd (option vec)) :=
  let location := nd_apply (fun x => convert x ci CT_GEOCENTRIC_SPHERICAL) location in
  let radius_ionosphere := height + earth_radius in
  let mask_below := nd_apply (fun x : vec => let '(_, _, r) := x in if Rle_dec r radius_ionosphere then true else false) location in
  let res := {| dims := dims location; get := empty |} in
  bind (eval_masked below mask_below time location co scale f107 lat_sol lon_sol res) (fun res =>
  eval_masked above (nd_apply negb mask_below) time location co scale f107 lat_sol lon_sol res).

(** model_mio.py:113-117 *)
Definition primary_validity (validity_below validity_above : T * T) : T * T :=
  (tmax (fst validity_above) (fst validity_below), tmin (snd validity_above) (snd validity_below)).
End Mio.

(** model_mio.py:50-64 *)
Definition primary_degree (degree_below degree_above : Z) : Z := Z.max degree_below degree_above.
Definition primary_min_degree (min_degree_below min_degree_above : Z) : Z := Z.max min_degree_below min_degree_above.
