(** Model of the evaluation of time-dependent models: pymm_shevaltemp.h and
    magnetic_model/model.py:162-231.  The doubles are real numbers; the times are neither NaN
    nor infinite, except that the single time of a constant coefficient set (-inf,
    coefficients.py:507) is any number: with a single time the interpolation of the order 1 does
    not depend on it. *)

From Coq Require Import Bool List Reals ZArith.
From Verif Require Import Ord ROrd BisectModel InterpModel ArrModel LegendreModel GeoModel SizeModel
  CoefModel SparseModel SeriesModel ShEvalModel.
Import ListNotations.

(** an item of coef_set_list: (coef_t, coef_gh, coef_nm, spline_order); coef_gh has one row
    for each coefficient *)
Definition set_args := (list R * list (list R) * list (Z * Z) * Z)%type.

(** pymm_shevaltemp.h:64-78; the rows of the coefficients with their offsets.  idx_last is
    kept in the state below. *)
Record coefset := {
  cs_ct : list R;
  cs_rows : list (Z * list R);
  cs_order : Z;
  cs_degree : Z
}.

(** pymm_shevaltemp.h:704-711 *)
Definition nm_offset (nm : Z * Z) : Z :=
  let '(degree, order) := nm in
  let offset := (Z.quot (degree * (degree + 1)) 2 + Z.abs order)%Z in
  let sign := if (order <? 0)%Z then (-1)%Z else 1%Z in
  (sign * offset)%Z.

(** pymm_shevaltemp.h:384-459 (parse_coefset) and 672-731 (_coefset_init); [None] is the
    ValueError.  The number of columns of coef_gh is that of its rows, so it is not checked when
    there is none. *)
Definition parse_coefset (item : set_args) : option coefset :=
  let '(coef_t, coef_gh, coef_nm, spline_order) := item in
  if (spline_order <? 1)%Z || (2 <? spline_order)%Z then None
  else if negb (length coef_gh =? length coef_nm)%nat then None
  else if negb (forallb (fun r => length r =? length coef_t)%nat coef_gh) then None
  else Some {| cs_ct := coef_t;
               cs_rows := combine (map nm_offset coef_nm) coef_gh;
               cs_order := spline_order;
               cs_degree := fold_left (fun d nm => Z.max d (fst nm)) coef_nm 0%Z |}.

(** pymm_shevaltemp.h:82-88, the fields which change *)
Record temp_state := {
  ts_coef : coefs;
  ts_time_last : option R;        (* [None] is NaN *)
  ts_idx_last : list Z;           (* idx_last of the coefficient sets *)
  ts_sh : model_state
}.

(** coef[offset][kind] = value, for [nterm] allocated rows; [None] is a write outside *)
Definition write_coef (nterm : nat) (coef : coefs) (offset : Z) (value : R) : option coefs :=
  let row := Z.to_nat (Z.abs offset) in
  if Nat.ltb row nterm
  then Some (fun k => if Nat.eqb k row
                      then (if (offset <? 0)%Z then (fst (coef k), value) else (value, snd (coef k)))
                      else coef k)
  else None.

(** the loops of pymm_shevaltemp.h:745-750 and 761-766.  The value is never NaN for a real
    time. *)
Fixpoint write_rows (nterm : nat) (eval : list R -> option (option R)) (rows : list (Z * list R))
  (coef : coefs) : option coefs :=
  match rows with
  | [] => Some coef
  | (offset, cv) :: rows' =>
      match eval cv with
      | Some (Some value) =>
          match write_coef nterm coef offset value with
          | Some coef' => write_rows nterm eval rows' coef'
          | None => None
          end
      | _ => None
      end
  end.

(** pymm_shevaltemp.h:735-753 and 757-767; the coefficients and the new idx_last *)
Definition coeff_set_interp (nterm : nat) (time : R) (cs : coefset) (idx_last : Z) (coef : coefs)
  : option (coefs * Z) :=
  if (cs_order cs =? 1)%Z then
    match get_interp0_basis (Some time) (cs_ct cs) with
    | None => None
    | Some basis =>
        if (idx_last =? b_i basis)%Z then Some (coef, idx_last)
        else match write_rows nterm (interp0_eval basis) (cs_rows cs) coef with
             | None => None
             | Some coef' => Some (coef', b_i basis)
             end
    end
  else
    match get_interp1_basis (Some time) (cs_ct cs) with
    | None => None
    | Some basis =>
        match write_rows nterm (interp1_eval basis) (cs_rows cs) coef with
        | None => None
        | Some coef' => Some (coef', idx_last)
        end
    end.

(** pymm_shevaltemp.h:463-474, the loop over the coefficient sets *)
Fixpoint coeff_interp (nterm : nat) (time : R) (css : list coefset) (idxs : list Z) (coef : coefs)
  : option (coefs * list Z) :=
  match css, idxs with
  | cs :: css', idx :: idxs' =>
      match coeff_set_interp nterm time cs idx coef with
      | None => None
      | Some (coef', idx') =>
          match coeff_interp nterm time css' idxs' coef' with
          | None => None
          | Some (coef'', idxs'') => Some (coef'', idx' :: idxs'')
          end
      end
  | _, _ => Some (coef, idxs)
  end.

(** the test of time_last in pymm_shevaltemp.h:508-509 *)
Definition update_coef (nterm : nat) (css : list coefset) (time : R) (st : temp_state) : option temp_state :=
  if neq_last (ts_time_last st) time then
    match coeff_interp nterm time css (ts_idx_last st) (ts_coef st) with
    | None => None
    | Some (coef, idxs) =>
        Some {| ts_coef := coef; ts_time_last := Some time; ts_idx_last := idxs; ts_sh := ts_sh st |}
    end
  else Some st.

(** an array of a single item *)
Definition scalar_array {A} (a : A) : nd A := {| dims := []; get := fun _ => a |}.

(** pymm_shevaltemp.h:479-586, the loops over the array of times of the dimensions [tdims];
    the three functions, one for each mode, are the same. *)
Fixpoint shevaltemp_items (cfg : model_cfg) (nterm : nat) (css : list coefset) (mode : sheval_mode)
  (tdims odims : list nat) (t : nd R) (x : nd (R * R * R)) (st : temp_state)
  : option (list (option R * option (R * R * R)) * temp_state) :=
  match tdims with
  | [] =>
      match update_coef nterm css (get t []) st with
      | None => None
      | Some st1 =>
          let '(out, sh) := sheval_items cfg mode odims x (scalar_array (ts_coef st1)) (ts_sh st1) in
          Some (out, {| ts_coef := ts_coef st1; ts_time_last := ts_time_last st1;
                        ts_idx_last := ts_idx_last st1; ts_sh := sh |})
      end
  | d :: ds =>
      (fix items (is : list nat) (st : temp_state) :=
         match is with
         | [] => Some ([], st)
         | i :: is' =>
             match shevaltemp_items cfg nterm css mode ds (tl odims) (nd_item t i) (nd_item x i) st with
             | None => None
             | Some (o, st1) =>
                 match items is' st1 with
                 | None => None
                 | Some (os, st2) => Some (o ++ os, st2)
                 end
             end
         end) (seq 0 d) st
  end.

(** pymm_shevaltemp.h:266-275 *)
Fixpoint common_dims_match (tdims xdims : list nat) : bool :=
  match tdims, xdims with
  | d1 :: ds1, d2 :: ds2 => if Nat.eqb d1 d2 then common_dims_match ds1 ds2 else false
  | _, _ => true
  end.

Fixpoint parse_coefsets (sets : list set_args) : option (list coefset) :=
  match sets with
  | [] => Some []
  | s :: sets' =>
      match parse_coefset s, parse_coefsets sets' with
      | Some cs, Some css => Some (cs :: css)
      | _, _ => None
      end
  end.

(** spherical_harmonics.h, number of the terms allocated by _model_init *)
Definition nterm_of (degree : nat) : nat := ((degree + 1) * (degree + 2) / 2)%nat.

(** pymm_shevaltemp.h:170-360 and 610-645.  The parsing of the Python objects is left out; the
    last dimension of the positions is 3 (checked by the code). *)
Definition shevaltemp (t : nd R) (x : nd (R * R * R)) (sets : list set_args)
  (ct_in ct_out : coord_type) (mode : sheval_mode) (internal : bool)
  (scale_pot : R) (scale_grd : R * R * R) (mem : arr * arr * coefs * arr * arr * arr)
  : result (list nat * list (option R * option (R * R * R))) :=
  if (length sets <? 1)%nat then Err ValueError                      (* 219-223 *)
  else if (16 <? length sets)%nat then Err ValueError                (* 225-229 *)
  else
  match parse_coefsets sets with                                     (* 231-244 *)
  | None => Err ValueError
  | Some css =>
      let degree := fold_left (fun d cs => Z.max d (cs_degree cs)) css 0%Z in
      if negb (common_dims_match (dims t) (dims x)) then Err ValueError
      else
      let odims := if (length (dims x) <=? length (dims t))%nat then dims t else dims x in
      let '(cfg, sh) := model_init internal (Z.to_nat degree) ct_in ct_out scale_pot scale_grd mem in
      match shevaltemp_items cfg (nterm_of (Z.to_nat degree)) css mode (dims t) odims t x
              {| ts_coef := fun _ => (0, 0)%R; ts_time_last := None;
                 ts_idx_last := map (fun _ => (-1)%Z) css; ts_sh := sh |} with
      | None => Err OutOfBounds
      | Some (out, _) => Ok (odims, out)
      end
  end.

(** ** The two evaluation methods of the models, model.py:162-231 *)

(** One set of time-dependent coefficients with its time conversion (convert_time of the sets in
    decimal years, coefficients.py:527); the order of the times as stored. *)
Definition leaf_set := (@time_dependent R R * option (R -> R))%type.

(** coefficients.py:461-467, get_coefficient_sets *)
Definition coefficient_set (l : leaf_set) (min_degree max_degree : Z) : set_args :=
  let td := fst l in
  let '(_, entries) := subset_degree (td_sparse td) min_degree max_degree in
  (td_times td, map e_c entries, map (fun e => (e_n e, e_m e)) entries, td_order td).

(** coefficients.py:315-322, convert_time of the combined set: that of the first set which
    has it *)
Fixpoint first_convert (items : list leaf_set) : option (R -> R) :=
  match items with
  | [] => None
  | (_, Some f) :: _ => Some f
  | (_, None) :: items' => first_convert items'
  end.

Definition apply_convert (f : option (R -> R)) (t : R) : R := match f with Some f => f t | None => t end.

(** model.py:162-181, _eval_interpolated of a combination of the sets (or of a single one) *)
Definition eval_interpolated (items : list leaf_set) (internal : bool) (min_degree max_degree : Z)
  (time : nd R) (location : nd (R * R * R)) (ci co : coord_type) (scale : R * R * R)
  (mem : arr * arr * coefs * arr * arr * arr)
  : result (list nat * list (option R * option (R * R * R))) :=
  let '(s0, s1, s2) := scale in
  let conv := first_convert items in
  shevaltemp {| dims := dims time; get := fun ix => apply_convert conv (get time ix) |} location
    (map (fun l => coefficient_set l min_degree max_degree) items)
    ci co SM_GRADIENT internal 1%R (- s0, - s1, - s2)%R mem.

(** coefficients.py:324-337, CombinedSHCoefficients.__call__ for one time, and 469-479 for the
    items.  [None]: an exception. *)
Definition plain_cells (rows : list (option (option R) * option (option R))) : option (list (R * R)) :=
  all_some (map (fun r => match r with
                          | (Some (Some a), Some (Some b)) => Some (a, b)
                          | _ => None
                          end) rows).
Definition leaf_rows (l : leaf_set) (time : R) (min_degree max_degree : Z) : option (list (R * R) * Z) :=
  match td_call (fst l) (apply_convert (snd l)) (Some time) min_degree max_degree with
  | None => None
  | Some (rows, degree) =>
      match plain_cells rows with None => None | Some rows' => Some (rows', degree) end
  end.
Fixpoint add_rows (base new : list (R * R)) : list (R * R) :=
  match base, new with
  | (a, b) :: base', (c, d) :: new' => (a + c, b + d)%R :: add_rows base' new'
  | _, [] => base
  | [], _ => []
  end.
Definition combined_call (items : list leaf_set) (time : R) (min_degree max_degree : Z)
  : option (list (R * R) * Z) :=
  match all_some (map (fun l => leaf_rows l time min_degree max_degree) items) with
  | None => None
  | Some results =>
      let degree := fold_left Z.max (map snd results) 0%Z in
      Some (fold_left add_rows (map fst results)
              (repeat (0, 0)%R (Z.to_nat (coeff_size_z degree))), degree)
  end.

(** model.py:219-231, _eval_single_time; [None]: an exception of the coefficients *)
Definition eval_single_time (items : list leaf_set) (internal : bool) (min_degree max_degree : Z)
  (time : R) (location : nd (R * R * R)) (ci co : coord_type) (scale : R * R * R)
  (mem : arr * arr * coefs * arr * arr * arr)
  : option (result (list nat * list (option R * option (R * R * R)))) :=
  let '(s0, s1, s2) := scale in
  match combined_call items time min_degree max_degree with
  | None => None
  | Some (rows, degree) =>
      Some (sheval location (Z.of_nat (length rows)) (scalar_array (fun k => nth k rows (0, 0)%R))
              ci co SM_GRADIENT internal degree 1%R (- s0, - s1, - s2)%R mem)
  end.
