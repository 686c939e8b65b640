(** Model of the recursive loops over the items of NumPy arrays on the level of the memory:
    pymm_aux.h:134-168,300-351, pytimeconv_mjd2000_to_decimal_year.h,
    pytimeconv_mjd2000_to_year_fraction.h, pytimeconv_decimal_year_to_mjd2000.h, pymm_cconv.h,
    pymm_vrot_common.h, pymm_vrot_sph2geod.h, pymm_vrot_sph2cart.h and pymm_vrot_cart2sph.h.

    The arrays are those after the conversion of the Python objects by _get_as_double_array:
    aligned arrays of doubles of any strides.  The doubles are real numbers, the addresses
    and strides unbounded integers and the recursion depth is not limited.  An access of a
    misaligned address or of memory which does not belong to any array is the error
    [OutOfBounds]; the theorems show that there is none. *)

From Coq Require Import Bool List Reals ZArith.
From Verif Require Import CoefModel GeoModel LegendreModel ShEvalModel CoordModel TimeModel.
Import ListNotations.
Open Scope Z_scope.

(** The memory: the double at the address 8*k, [None] when it is not allocated *)
Definition memory := Z -> option R.

(** Reading of a double by a pointer *)
Definition load (m : memory) (addr : Z) : result R :=
  if addr mod 8 =? 0 then
    match m (addr / 8) with Some v => Ok v | None => Err OutOfBounds end
  else Err OutOfBounds.

(** Assignment of a double by a pointer *)
Definition store (m : memory) (addr : Z) (v : R) : result memory :=
  if addr mod 8 =? 0 then
    match m (addr / 8) with
    | Some _ => Ok (fun k => if k =? addr / 8 then Some v else m k)
    | None => Err OutOfBounds
    end
  else Err OutOfBounds.

(** pymm_aux.h:305-321, ARRAY_DATA and _array_to_arrd; ndim is the length of [shape] *)
Record arrd := { data : Z; shape : list nat; stride : list Z }.

(** pymm_aux.h:323-332, for an array with at least one dimension *)
Definition get_arrd_item_nocheck (a : arrd) (idx : nat) : arrd :=
  {| data := data a + Z.of_nat idx * hd 0 (stride a);
     shape := tl (shape a); stride := tl (stride a) |}.

(** pymm_aux.h:334-340 *)
Definition get_arrd_item_with_guard (a : arrd) (idx guard : nat) : arrd :=
  if Nat.leb (length (shape a)) guard then a else get_arrd_item_nocheck a idx.

(** pymm_aux.h:343-346 *)
Definition get_arrd_item (a : arrd) (idx : nat) : arrd := get_arrd_item_with_guard a idx 0.

(** The number of the elements of an array *)
Definition size (dims : list nat) : nat := fold_right Nat.mul 1%nat dims.

(** The strides of the C-contiguous array of the given shape *)
Fixpoint c_strides (dims : list nat) : list Z :=
  match dims with
  | [] => []
  | _ :: ds => 8 * Z.of_nat (size ds) :: c_strides ds
  end.

(** PyArray_EMPTY (pymm_aux.h:138-140): a new array at the free address [base]; its elements
    are not initialised, they have the values [junk].  Failures of the allocation are left
    out. *)
Definition new_array (m : memory) (base : Z) (junk : Z -> R) (dims : list nat) : memory * arrd :=
  (fun k => if (base / 8 <=? k) && (k <? base / 8 + Z.of_nat (size dims))
            then Some (junk k) else m k,
   {| data := base; shape := dims; stride := c_strides dims |}).

(** for (i = 0; i < n; ++i), with a body which may fail *)
Definition for_items (n : nat) (body : nat -> memory -> result memory) (m : memory)
  : result memory :=
  fold_left (fun r i => match r with Ok m => body i m | Err e => Err e end) (seq 0 n) (Ok m).

(** The recursion common to _mjd2k_to_year, _mjd2k_to_year_fract, _year_to_mjd2k
    (pytimeconv_*.h:41-58), _convert (pymm_cconv.h:119-138), _vrot_sph2geod, _vrot_sph2cart
    and _vrot_cart2sph (pymm_vrot_*.h:41-75): [dims] are the dimensions of the first input array
    which are iterated over, [ins] the input arrays and [out] the output array; [item] is
    the else-branch for an item. *)
Fixpoint recurse (item : list arrd -> arrd -> memory -> result memory) (dims : list nat)
  (ins : list arrd) (out : arrd) (m : memory) : result memory :=
  match dims with
  | [] => item ins out m
  | d :: ds =>
      for_items d (fun i m =>
        recurse item ds (map (fun a => get_arrd_item a i) ins) (get_arrd_item out i) m) m
  end.

(** common.h:45 *)
Definition MAX_OUT_ARRAY_NDIM : nat := 16.

(** pytimeconv_*.h:52-57, the item of the three functions *)
Definition time_item (f : R -> R) (ins : list arrd) (out : arrd) (m : memory) : result memory :=
  match ins with
  | [arrd_in] =>
      match load m (data arrd_in) with
      | Ok t => store m (data out) (f t)
      | Err e => Err e
      end
  | _ => Err OutOfBounds
  end.

(** pytimeconv_*.h:74-123; the three functions differ in the converted item *)
Definition time_array (f : R -> R) (m : memory) (base : Z) (junk : Z -> R) (arr_in : arrd)
  : result (memory * arrd) :=
  if Nat.ltb (MAX_OUT_ARRAY_NDIM - 1) (length (shape arr_in)) then Err ValueError
  else
    let '(m1, arr_out) := new_array m base junk (shape arr_in) in
    match recurse (time_item f) (shape arr_in) [arr_in] arr_out m1 with
    | Ok m2 => Ok (m2, arr_out)
    | Err e => Err e
    end.

Definition mjd2000_to_decimal_year := time_array mjd2k_to_decimal_year.
Definition mjd2000_to_year_fraction := time_array mjd2k_to_year_fraction.
Definition decimal_year_to_mjd2000 := time_array decimal_year_to_mjd2k.

(** P(a,i) of pymm_cconv.h:131 and pymm_vrot_*.h *)
Definition P (a : arrd) (i : Z) : result Z :=
  match stride a with s :: _ => Ok (data a + i * s) | [] => Err OutOfBounds end.
(** V(a,i) *)
Definition V (m : memory) (a : arrd) (i : Z) : result R :=
  match P a i with Ok p => load m p | Err e => Err e end.
(** V(a,i) = v, or an assignment by the pointer P(a,i) in a called function *)
Definition set_V (m : memory) (a : arrd) (i : Z) (v : R) : result memory :=
  match P a i with Ok p => store m p v | Err e => Err e end.

Local Notation "'do' x <- r ; e" := (bind r (fun x => e)) (at level 200, x pattern).

(** pymm_cconv.h:127-137 *)
Definition convert_item (fconv : vec -> vec) (ins : list arrd) (out : arrd) (m : memory)
  : result memory :=
  match ins with
  | [arrd_in] =>
      do v0 <- V m arrd_in 0;
      do v1 <- V m arrd_in 1;
      do v2 <- V m arrd_in 2;
      let '(o0, o1, o2) := fconv (v0, v1, v2) in
      do m <- set_V m out 0 o0;
      do m <- set_V m out 1 o1;
      set_V m out 2 o2
  | _ => Err OutOfBounds
  end.

(** pymm_aux.h:150-168, _get_new_double_array *)
Definition get_new_double_array (m : memory) (base : Z) (junk : Z -> R) (dims : list nat)
  (dim_last : nat) : result (memory * arrd) :=
  if Nat.ltb MAX_OUT_ARRAY_NDIM (length dims) then Err ValueError
  else match dims with
       | [] => Ok (new_array m base junk [])
       | _ => Ok (new_array m base junk (removelast dims ++ [dim_last]))
       end.

(** pymm_coord.h:43-57, _check_coord_type *)
Definition check_coord_type (ct : Z) : result coord_type :=
  if ct =? 0 then Ok CT_GEODETIC_ABOVE_WGS84
  else if ct =? 1 then Ok CT_GEOCENTRIC_SPHERICAL
  else if ct =? 2 then Ok CT_GEOCENTRIC_CARTESIAN
  else Err ValueError.

(** pymm_cconv.h:168-183 and pymm_vrot_*.h: the conversion with at least one dimension, the
    check of the number of dimensions and of the last dimension *)
Definition check_vectors (arr_in : arrd) : result unit :=
  match shape arr_in with
  | [] => Err ValueError                                   (* dmin = 1 of PyArray_FromAny *)
  | _ =>
      if Nat.ltb MAX_OUT_ARRAY_NDIM (length (shape arr_in)) then Err ValueError
      else if negb (Nat.eqb (last (shape arr_in) 0%nat) 3) then Err ValueError
      else Ok tt
  end.

(** pymm_cconv.h:148-205 *)
Definition convert_array (m : memory) (base : Z) (junk : Z -> R) (arr_in : arrd) (ct_in ct_out : Z)
  : result (memory * arrd) :=
  do ct_in <- check_coord_type ct_in;
  do ct_out <- check_coord_type ct_out;
  do _ <- check_vectors arr_in;
  if ct_eqb ct_in ct_out then Ok (m, arr_in)               (* 185-187 *)
  else
    do (m1, arr_out) <- get_new_double_array m base junk (shape arr_in) 3;
    do m2 <- recurse (convert_item (get_fconv ct_in ct_out)) (removelast (shape arr_in))
               [arr_in] arr_out m1;
    Ok (m2, arr_out).

(** pymm_vrot_sph2geod.h:54-68 *)
Definition sph2geod_item (ins : list arrd) (ad_o : arrd) (m : memory) : result memory :=
  match ins with
  | [ad_i; ad_dlat] =>
      do sv <- load m (data ad_dlat);
      let dlat := (- DG2RAD * sv)%R in
      do v2 <- V m ad_i 2;
      do v0 <- V m ad_i 0;
      let '(o2, o0) := rot2d v2 v0 (sin dlat) (cos dlat) in
      do m <- set_V m ad_o 2 o2;
      do m <- set_V m ad_o 0 o0;
      do v1 <- V m ad_i 1;
      set_V m ad_o 1 v1
  | _ => Err OutOfBounds
  end.

(** pymm_vrot_sph2cart.h:56-74 *)
Definition sph2cart_item (ins : list arrd) (ad_o : arrd) (m : memory) : result memory :=
  match ins with
  | [ad_i; ad_lat; ad_lon] =>
      do slat <- load m (data ad_lat);
      do slon <- load m (data ad_lon);
      let lat := (DG2RAD * slat)%R in
      let lon := (DG2RAD * slon)%R in
      do v2 <- V m ad_i 2;
      do v0 <- V m ad_i 0;
      let '(tmp, o2) := rot2d v2 v0 (sin lat) (cos lat) in
      do m <- set_V m ad_o 2 o2;
      do v1 <- V m ad_i 1;
      let '(o0, o1) := rot2d tmp v1 (sin lon) (cos lon) in
      do m <- set_V m ad_o 0 o0;
      set_V m ad_o 1 o1
  | _ => Err OutOfBounds
  end.

(** pymm_vrot_cart2sph.h:56-74 *)
Definition cart2sph_item (ins : list arrd) (ad_o : arrd) (m : memory) : result memory :=
  match ins with
  | [ad_i; ad_lat; ad_lon] =>
      do slat <- load m (data ad_lat);
      do slon <- load m (data ad_lon);
      let lat := (- DG2RAD * slat)%R in
      let lon := (- DG2RAD * slon)%R in
      do v0 <- V m ad_i 0;
      do v1 <- V m ad_i 1;
      let '(tmp, o1) := rot2d v0 v1 (sin lon) (cos lon) in
      do m <- set_V m ad_o 1 o1;
      do v2 <- V m ad_i 2;
      let '(o2, o0) := rot2d tmp v2 (sin lat) (cos lat) in
      do m <- set_V m ad_o 2 o2;
      set_V m ad_o 0 o0
  | _ => Err OutOfBounds
  end.

(** pymm_vrot_common.h:54-62: the comparison of the dimensions of the checked array with
    those of the reference array without the last one; whether there is an error *)
Fixpoint vrot_dims_differ (ref checked : list nat) : bool :=
  match ref, checked with
  | r :: ref', c :: checked' => if Nat.eqb r c then vrot_dims_differ ref' checked' else true
  | _, _ => false
  end.

(** pymm_vrot_common.h:38-66 *)
Definition vrot_arr_check (arr_ref arr_checked : arrd) : result unit :=
  if Nat.ltb 0 (length (shape arr_checked)) then
    if negb (Nat.eqb (length (shape arr_ref)) (length (shape arr_checked) + 1)) then Err ValueError
    else if vrot_dims_differ (removelast (shape arr_ref)) (shape arr_checked) then Err ValueError
    else Ok tt
  else Ok tt.

(** pymm_vrot_sph2geod.h:88-145 *)
Definition vrot_sph2geod_array (m : memory) (base : Z) (junk : Z -> R) (arr_in arr_dlat : arrd)
  : result (memory * arrd) :=
  do _ <- check_vectors arr_in;
  do _ <- vrot_arr_check arr_in arr_dlat;
  do (m1, arr_out) <- get_new_double_array m base junk (shape arr_in) 3;
  do m2 <- recurse sph2geod_item (removelast (shape arr_in)) [arr_in; arr_dlat] arr_out m1;
  Ok (m2, arr_out).

(** pymm_vrot_sph2cart.h:92-160 *)
Definition vrot_sph2cart_array (m : memory) (base : Z) (junk : Z -> R)
  (arr_in arr_lat arr_lon : arrd) : result (memory * arrd) :=
  do _ <- check_vectors arr_in;
  do _ <- vrot_arr_check arr_in arr_lat;
  do _ <- vrot_arr_check arr_in arr_lon;
  do (m1, arr_out) <- get_new_double_array m base junk (shape arr_in) 3;
  do m2 <- recurse sph2cart_item (removelast (shape arr_in)) [arr_in; arr_lat; arr_lon] arr_out m1;
  Ok (m2, arr_out).

(** pymm_vrot_cart2sph.h:92-160 *)
Definition vrot_cart2sph_array (m : memory) (base : Z) (junk : Z -> R)
  (arr_in arr_lat arr_lon : arrd) : result (memory * arrd) :=
  do _ <- check_vectors arr_in;
  do _ <- vrot_arr_check arr_in arr_lat;
  do _ <- vrot_arr_check arr_in arr_lon;
  do (m1, arr_out) <- get_new_double_array m base junk (shape arr_in) 3;
  do m2 <- recurse cart2sph_item (removelast (shape arr_in)) [arr_in; arr_lat; arr_lon] arr_out m1;
  Ok (m2, arr_out).
