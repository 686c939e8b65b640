(** Model of the spherical harmonics evaluation: include/spherical_harmonics.h:352-663
    and pymm_sheval.h.  The doubles are real numbers. *)

From Coq Require Import Bool List Reals Arith ZArith.
From Verif Require Import ArrModel LegendreModel GeoModel SizeModel CoefModel.
Import ListNotations.
Open Scope R_scope.

(** an array of pairs of doubles *)
Definition coefs := nat -> R * R.

(** spherical_harmonics.h:352-383 *)
Definition shc_eval_v (degree : nat) (rad : R) (coef lcs : coefs) (lp rrp : arr) : R :=
  let vpot := fst (coef 0%nat) * rrp 0%nat in
  let vpot :=
    loop 1 degree (fun i vpot =>
      let i_off := (i * (i + 1) / 2)%nat in
      let vpot_i := fst (coef i_off) * lp i_off in
      let vpot_i :=
        loop 1 i (fun j vpot_i =>
          let idx := (i_off + j)%nat in
          let tmp := fst (coef idx) * fst (lcs j) + snd (coef idx) * snd (lcs j) in
          vpot_i + tmp * lp (i_off + j)%nat) vpot_i in
      vpot + rrp i * vpot_i) vpot in
  vpot * rad.

(** spherical_harmonics.h:401-436; [INR ((i-1)*(i-1) - 1)] is not truncated for i >= 2 *)
Definition shc_eval_dvaz_pole (degree : nat) (elv : R) (coef lcs : coefs) (rrp : arr) : R :=
  let sin_elv := sin elv in
  let lcos1 := fst (lcs 1%nat) in
  let lsin1 := snd (lcs 1%nat) in
  let dvaz := (fst (coef 2%nat) * lsin1 - snd (coef 2%nat) * lcos1) * rrp 1%nat in
  let '(_, _, _, dvaz) :=
    loop 2 degree (fun i '(sqn1, ps1, ps0, dvaz) =>
      let idx := (1 + i * (i + 1) / 2)%nat in
      let tmp := INR ((i - 1) * (i - 1) - 1) / INR ((2 * i - 1) * (2 * i - 3)) in
      let sqn1 := sqn1 * (INR (2 * i - 1) / INR i) in
      let sqn3 := sqn1 * sqrt (INR (i * 2) / INR (i + 1)) in
      let ps2 := ps1 in
      let ps1 := ps0 in
      let ps0 := sin_elv * ps1 - tmp * ps2 in
      (sqn1, ps1, ps0,
       dvaz + (fst (coef idx) * lsin1 - snd (coef idx) * lcos1) * rrp i * ps0 * sqn3))
      (1, 1, 1, dvaz) in
  - dvaz.

(** spherical_harmonics.h:458-516; the triple (dvel, dvaz, dvrd) *)
Definition shc_eval_dv (degree : nat) (elv : R) (coef lcs : coefs) (lp ldp rrp : arr)
  (is_internal : bool) : R * R * R :=
  let cos_elv := cos elv in
  let dr_scale := if is_internal then 1 else -1 in
  let dr_offset := if is_internal then 1%nat else 0%nat in
  let tmp := fst (coef 0%nat) * rrp 0%nat in
  let i_dr := dr_scale * INR dr_offset in
  let '(dvel, dvaz, dvrd) :=
    loop 1 degree (fun i '(dvel, dvaz, dvrd) =>
      let i_off := (i * (i + 1) / 2)%nat in
      let i_dr := dr_scale * INR (i + dr_offset) in
      let '(dvel_i, dvaz_i, dvrd_i) :=
        loop 1 i (fun j '(dvel_i, dvaz_i, dvrd_i) =>
          let idx := (i_off + j)%nat in
          let tmp0 := fst (coef idx) * fst (lcs j) + snd (coef idx) * snd (lcs j) in
          let tmp1 := fst (coef idx) * snd (lcs j) - snd (coef idx) * fst (lcs j) in
          (dvel_i + tmp0 * ldp idx, dvaz_i + tmp1 * lp idx * INR j, dvrd_i + tmp0 * lp idx * i_dr))
          (fst (coef i_off) * ldp i_off, 0, fst (coef i_off) * lp i_off * i_dr) in
      (dvel + rrp i * dvel_i, dvaz - rrp i * dvaz_i, dvrd - rrp i * dvrd_i))
      (0, 0, - tmp * i_dr) in
  (dvel,
   if Nat.ltb 0 degree && Rltb (Rabs cos_elv) (1 / 10 ^ 10)
   then shc_eval_dvaz_pole degree elv coef lcs rrp else dvaz / cos_elv,
   dvrd).

(** spherical_harmonics.h:541-605; (vpot, (dvel, dvaz, dvrd)) *)
Definition shc_eval_v_dv (degree : nat) (elv rad : R) (coef lcs : coefs) (lp ldp rrp : arr)
  (is_internal : bool) : R * (R * R * R) :=
  let cos_elv := cos elv in
  let dr_scale := if is_internal then 1 else -1 in
  let dr_offset := if is_internal then 1%nat else 0%nat in
  let tmp := fst (coef 0%nat) * rrp 0%nat in
  let i_dr := dr_scale * INR dr_offset in
  let '(vpot, dvel, dvaz, dvrd) :=
    loop 1 degree (fun i '(vpot, dvel, dvaz, dvrd) =>
      let i_off := (i * (i + 1) / 2)%nat in
      let i_dr := dr_scale * INR (i + dr_offset) in
      let '(vpot_i, dvel_i, dvaz_i, dvrd_i) :=
        loop 1 i (fun j '(vpot_i, dvel_i, dvaz_i, dvrd_i) =>
          let idx := (i_off + j)%nat in
          let tmp0 := fst (coef idx) * fst (lcs j) + snd (coef idx) * snd (lcs j) in
          let tmp1 := fst (coef idx) * snd (lcs j) - snd (coef idx) * fst (lcs j) in
          (vpot_i + tmp0 * lp (i_off + j)%nat,
           dvel_i + tmp0 * ldp idx, dvaz_i + tmp1 * lp idx * INR j, dvrd_i + tmp0 * lp idx * i_dr))
          (fst (coef i_off) * lp i_off,
           fst (coef i_off) * ldp i_off, 0, fst (coef i_off) * lp i_off * i_dr) in
      (vpot + rrp i * vpot_i,
       dvel + rrp i * dvel_i, dvaz - rrp i * dvaz_i, dvrd - rrp i * dvrd_i))
      (tmp, 0, 0, - tmp * i_dr) in
  (vpot * rad,
   (dvel,
    if Nat.ltb 0 degree && Rltb (Rabs cos_elv) (1 / 10 ^ 10)
    then shc_eval_dvaz_pole degree elv coef lcs rrp else dvaz / cos_elv,
    dvrd)).

(** pymm_sheval.h:61-66 *)
Inductive sheval_mode := SM_POTENTIAL | SM_GRADIENT | SM_POTENTIAL_AND_GRADIENT.

(** spherical_harmonics.h:634-663; the potential and the gradient, [None] for an output
    which is not written *)
Definition shc_eval (degree : nat) (mode : sheval_mode) (elv rad : R) (coef lcs : coefs)
  (lp ldp rrp : arr) (is_internal : bool) : option R * option (R * R * R) :=
  match mode with
  | SM_POTENTIAL => (Some (shc_eval_v degree rad coef lcs lp rrp), None)
  | SM_GRADIENT => (None, Some (shc_eval_dv degree elv coef lcs lp ldp rrp is_internal))
  | SM_POTENTIAL_AND_GRADIENT =>
      let '(v, dv) := shc_eval_v_dv degree elv rad coef lcs lp ldp rrp is_internal in
      (Some v, Some dv)
  end.

(** pymm_coord.h:33-38 *)
Inductive coord_type := CT_GEODETIC_ABOVE_WGS84 | CT_GEOCENTRIC_SPHERICAL | CT_GEOCENTRIC_CARTESIAN.

(** pymm_sheval.h:73-94, the fields which are set once by _model_init *)
Record model_cfg := {
  is_internal : bool;
  degree : nat;
  coord_in : coord_type;
  coord_out : coord_type;
  elps_a : R;
  elps_eps2 : R;
  crad_ref : R;
  scale_potential : R;
  scale_gradient0 : R;
  scale_gradient1 : R;
  scale_gradient2 : R;
  psqrt : arr;
  prsqrt : arr
}.

(** pymm_sheval.h:73-94, the fields which change; [None] is NaN *)
Record model_state := {
  clat_last : option R;
  clon_last : option R;
  crad_last : option R;
  lp : arr;
  ldp : arr;
  lcs : coefs;
  rrp : arr
}.

(** a != b, where a may be NaN *)
Definition neq_last (last : option R) (x : R) : bool :=
  match last with None => true | Some y => if Req_EM_T y x then false else true end.

(** pymm_sheval.h:516-537: the geocentric coordinates (clat, clon, crad) and the
    geodetic latitude glat ([None] is NaN) *)
Definition input_coordinates (cfg : model_cfg) (x y z : R) : R * R * R * option R :=
  match coord_in cfg with
  | CT_GEODETIC_ABOVE_WGS84 =>
      let '(crad, clat, clon) := geodetic2geocentric_sph x y z (elps_a cfg) (elps_eps2 cfg) in
      (clat, clon, crad, Some x)
  | CT_GEOCENTRIC_SPHERICAL =>
      let clat := DG2RAD * x in
      let clon := DG2RAD * y in
      let crad := z in
      (clat, clon, crad,
       match coord_out cfg with
       | CT_GEODETIC_ABOVE_WGS84 =>
           let '(glat, _, _) := geocentric_sph2geodetic crad clat clon (elps_a cfg) (elps_eps2 cfg) in
           Some glat
       | _ => None
       end)
  | CT_GEOCENTRIC_CARTESIAN =>
      let '(crad, clat, clon) := cart2sph x y z in
      (clat, clon, crad,
       match coord_out cfg with
       | CT_GEODETIC_ABOVE_WGS84 =>
           let '(glat, _, _) := geocentric_sph2geodetic crad clat clon (elps_a cfg) (elps_eps2 cfg) in
           Some glat
       | _ => None
       end)
  end.

(** pymm_sheval.h:563-583: the projection of the gradient (flat, flon, frad) *)
Definition project_gradient (cfg : model_cfg) (clat clon : R) (glat : option R)
  (grd : R * R * R) : option (R * R * R) :=
  let '(flat, flon, frad) := grd in
  match coord_out cfg with
  | CT_GEOCENTRIC_SPHERICAL => Some (flat, flon, frad)
  | CT_GEODETIC_ABOVE_WGS84 =>
      match glat with
      | Some glat =>
          let tmp := clat - DG2RAD * glat in
          let '(fz, fx) := rot2d frad flat (sin tmp) (cos tmp) in
          Some (fx, flon, fz)
      | None => None                                (* glat is NaN *)
      end
  | CT_GEOCENTRIC_CARTESIAN =>
      let '(tmp, fz) := rot2d frad flat (sin clat) (cos clat) in
      let '(fx, fy) := rot2d tmp flon (sin clon) (cos clon) in
      Some (fx, fy, fz)
  end.

(** pymm_sheval.h:501-597; the output is [None] where nothing is written *)
Definition model_eval (cfg : model_cfg) (mode : sheval_mode) (xyz : R * R * R) (coeff : coefs)
  (st : model_state) : option R * option (R * R * R) * model_state :=
  let '(x, y, z) := xyz in
  let '(clat, clon, crad, glat) := input_coordinates cfg x y z in
  (* 540-541 *)
  let '(lp', ldp') :=
    if neq_last (clat_last st) clat
    then shc_legendre (lp st) (ldp st) (degree cfg) clat (psqrt cfg) (prsqrt cfg)
    else (lp st, ldp st) in
  (* 544-545 *)
  let lcs' := if neq_last (clon_last st) clon then fs_cos_sin (lcs st) (degree cfg) clon else lcs st in
  (* 548-549 *)
  let rrp' :=
    if neq_last (crad_last st) crad
    then (if is_internal cfg then shc_relradpow_internal else shc_relradpow_external)
           (rrp st) (degree cfg) (crad / crad_ref cfg)
    else rrp st in
  (* 552-554 *)
  let st' := {| clat_last := Some clat; clon_last := Some clon; crad_last := Some crad;
                lp := lp'; ldp := ldp'; lcs := lcs'; rrp := rrp' |} in
  (* 557-561 *)
  let '(fpot, fgrd) :=
    shc_eval (degree cfg) mode clat crad coeff lcs' lp' ldp' rrp' (is_internal cfg) in
  (* 563-596 *)
  (match fpot with Some v => Some (v * scale_potential cfg) | None => None end,
   match fgrd with
   | Some grd =>
       match project_gradient cfg clat clon glat grd with
       | Some (fx, fy, fz) =>
           Some (fx * scale_gradient0 cfg, fy * scale_gradient1 cfg, fz * scale_gradient2 cfg)
       | None => None
       end
   | None => None
   end,
   st').

(** pymm_sheval.h:625-692; [mem] is the content of the allocated memory. *)
Definition model_init (internal : bool) (degree : nat) (coord_in coord_out : coord_type)
  (scale_pot : R) (scale_grd : R * R * R) (mem : arr * arr * coefs * arr * arr * arr)
  : model_cfg * model_state :=
  let '(m_lp, m_ldp, m_lcs, m_rrp, m_psqrt, m_prsqrt) := mem in
  let '(s0, s1, s2) := scale_grd in
  ({| is_internal := internal; degree := degree; coord_in := coord_in; coord_out := coord_out;
      elps_a := WGS84_A; elps_eps2 := WGS84_EPS2; crad_ref := 6371.2;
      scale_potential := scale_pot;
      scale_gradient0 := s0; scale_gradient1 := s1; scale_gradient2 := s2;
      psqrt := shc_presqrt degree m_psqrt; prsqrt := shc_prersqrt degree m_prsqrt |},
   {| clat_last := None; clon_last := None; crad_last := None;
      lp := m_lp; ldp := m_ldp; lcs := m_lcs; rrp := m_rrp |}).

(** A NumPy array of items (numbers, positions or coefficient arrays): its dimensions,
    without those of the items, and the item at a multi-index *)
Record nd (A : Type) := { dims : list nat; get : list nat -> A }.
Arguments dims {A} _.
Arguments get {A} _ _.

(** pymm_aux.h:323-340, _get_arrd_item_with_guard, where the guard is the number of
    dimensions of the item *)
Definition nd_item {A} (a : nd A) (i : nat) : nd A :=
  match dims a with
  | [] => a
  | _ :: ds => {| dims := ds; get := fun ix => get a (i :: ix) |}
  end.

(** The loops of pymm_sheval.h:391-497 over the items of the output array of the
    dimensions [odims].  The three functions, one for each mode, are the same.  The output
    is the list of the items in the order of the array. *)
Fixpoint sheval_items (cfg : model_cfg) (mode : sheval_mode) (odims : list nat)
  (x : nd (R * R * R)) (coef : nd coefs) (st : model_state)
  : list (option R * option (R * R * R)) * model_state :=
  match odims with
  | [] =>
      let '(out, st') := model_eval cfg mode (get x []) (get coef []) st in ([out], st')
  | d :: ds =>
      (fix items (is : list nat) (st : model_state) :=
         match is with
         | [] => ([], st)
         | i :: is' =>
             let '(o, st1) := sheval_items cfg mode ds (nd_item x i) (nd_item coef i) st in
             let '(os, st2) := items is' st1 in
             (o ++ os, st2)
         end) (seq 0 d) st
  end.

(** pymm_sphar_common.h:42-53 *)
Fixpoint compare_dimensions (dims1 dims2 : list nat) : bool :=
  match dims1, dims2 with
  | d1 :: ds1, d2 :: ds2 => if Nat.eqb d1 d2 then compare_dimensions ds1 ds2 else true
  | _, [] => false
  | [], _ => false      (* not reached: dims1 is not shorter *)
  end.

(** pymm_sheval.h:144-360 with _extract_common_shape (pymm_sphar_common.h:57-91) for
    the two arrays.  [csize] is the second last dimension of the coefficients.  The parsing
    of the Python objects is left out; the last dimensions are 3 (not checked by the code)
    and 2. *)
Definition sheval (x : nd (R * R * R)) (csize : Z) (coef : nd coefs)
  (ct_in ct_out : coord_type) (mode : sheval_mode) (internal : bool) (degree : Z)
  (scale_pot : R) (scale_grd : R * R * R) (mem : arr * arr * coefs * arr * arr * arr)
  : result (list nat * list (option R * option (R * R * R))) :=
  (* 198-229 *)
  let max_degree := size_to_degree csize in
  if (max_degree <? 0)%Z then Err ValueError
  else if (2147483647 <? max_degree)%Z && (degree <? 0)%Z then Err ValueError
  else
  let degree := if (degree <? 0)%Z || (max_degree <? degree)%Z then max_degree else degree in
  (* 231-264 *)
  let odims := if Nat.ltb (length (dims x)) (length (dims coef)) then dims coef else dims x in
  if compare_dimensions odims (dims x) || compare_dimensions odims (dims coef) then Err ValueError
  else
  let '(cfg, st) := model_init internal (Z.to_nat degree) ct_in ct_out scale_pot scale_grd mem in
  Ok (odims, fst (sheval_items cfg mode odims x coef st)).
