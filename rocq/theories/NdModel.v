(** Model of the other recursive loops over NumPy arrays on the level of the memory: bisect
    (pymm_bisect.h), interp (pymm_interp.h), legendre (pymm_legendre.h), loncossin
    (pymm_loncossin.h), relradpow (pymm_relradpow.h), spharpot (pymm_spharpot.h), sphargrd
    (pymm_sphargrd.h), fourier2d (pymm_fourier2d.h), sunpos (pysunpos.h) and sunpos_original
    (pysunpos_original.h).

    As in StridedModel, the arrays are those after the conversion by _get_as_double_array: aligned
    arrays of doubles of any strides.  In this memory a double may also be NaN, and there are
    integers.  The arguments parsed by PyArg_ParseTupleAndKeywords are given as numbers.  The
    addresses and strides are unbounded integers, the allocations do not fail and the limit of NumPy
    of 32 dimensions is left out. *)

From Coq Require Import Bool List Reals ZArith.
From Verif Require Import ArrModel LegendreModel SizeModel CoefModel ShEvalModel SpharModel TempModel FourierModel SunModel
  BisectModel InterpModel ROrd StridedModel StridedEvalModel.
Import ListNotations.
Open Scope Z_scope.

Local Notation "'do' x <- r ; e" := (bind r (fun x => e)) (at level 200, x pattern).

(** A double, NaN is [None], or an npy_intp; both have 8 bytes. *)
Inductive cell := Dbl (x : option R) | Intp (i : Z).

(** The memory: the number at the address 8*k, [None] when it is not allocated *)
Definition heap := Z -> option cell.

(** Reading of a double by a pointer *)
Definition fetch (m : heap) (addr : Z) : result (option R) :=
  if addr mod 8 =? 0 then
    match m (addr / 8) with Some (Dbl x) => Ok x | _ => Err OutOfBounds end
  else Err OutOfBounds.

(** Reading of a double which is not NaN.  The calculations with NaN are not modelled; the theorems
    are about arrays without NaN where this is used. *)
Definition fetch_real (m : heap) (addr : Z) : result R :=
  do x <- fetch m addr;
  match x with Some v => Ok v | None => Err OutOfBounds end.

(** Assignment by a pointer *)
Definition put (m : heap) (addr : Z) (c : cell) : result heap :=
  if addr mod 8 =? 0 then
    match m (addr / 8) with
    | Some _ => Ok (fun k => if k =? addr / 8 then Some c else m k)
    | None => Err OutOfBounds
    end
  else Err OutOfBounds.

(** Reading of the [n] doubles p[0], p[1], ... *)
Fixpoint fetch_list (m : heap) (addr : Z) (n : nat) : result (list R) :=
  match n with
  | O => Ok []
  | S n' =>
      do v <- fetch_real m addr;
      do vs <- fetch_list m (addr + 8) n';
      Ok (v :: vs)
  end.
(** the same as an array, and [n] pairs p[k][0], p[k][1]; only these elements are read by the
    called functions *)
Definition fetch_arr (m : heap) (addr : Z) (n : nat) : result arr :=
  do l <- fetch_list m addr n; Ok (fun k => nth k l 0%R).
Definition fetch_pairs (m : heap) (addr : Z) (n : nat) : result coefs :=
  do l <- fetch_list m addr (2 * n); Ok (fun k => (nth (2 * k) l 0%R, nth (2 * k + 1) l 0%R)).

(** Assignments to p[0], p[1], ..., where the elements are [step] bytes from each other *)
Fixpoint put_list (m : heap) (addr step : Z) (l : list cell) : result heap :=
  match l with
  | [] => Ok m
  | c :: l' => do m <- put m addr c; put_list m (addr + step) step l'
  end.

(** PyArray_EMPTY (pymm_aux.h:138-140): a new array at the free address [base]; its elements
    are not initialised, they have the values [junk]. *)
Definition alloc (m : heap) (base : Z) (junk : Z -> cell) (dims : list nat) : heap * arrd :=
  (fun k => if (base / 8 <=? k) && (k <? base / 8 + Z.of_nat (size dims))
            then Some (junk k) else m k,
   {| data := base; shape := dims; stride := c_strides dims |}).

(** The recursion common to all the functions: [dims] are the dimensions which are iterated over.  The
    items of the arrays [ins] are taken by _get_arrd_item_with_guard with the given guards
    (_get_arrd_item is the guard 0; _get_arrd_item_nocheck is used for arrays with at least one
    dimension, where the guard 0 makes no difference) and those of the new arrays [outs] by
    _get_arrd_item_nocheck.  [item] is the else-branch.  The state [S] is the memory, with the
    buffers of fourier2d. *)
Fixpoint walk {S} (item : list arrd -> list arrd -> S -> result S) (dims : list nat)
  (ins : list (nat * arrd)) (outs : list arrd) (s : S) : result S :=
  match dims with
  | [] => item (map snd ins) outs s
  | d :: ds =>
      for_st d (fun i s =>
        walk item ds (map (fun '(g, a) => (g, get_arrd_item_with_guard a i g)) ins)
          (map (fun a => get_arrd_item_nocheck a i) outs) s) s
  end.

(** The number of elements of a 1D array *)
Definition dim0 (a : arrd) : nat := hd 0%nat (shape a).

(** ** pymm_bisect.h *)

(** pymm_bisect.h:138-147 and 168-177 *)
Definition bisect_item (right : bool) (nodes : arrd) (ins outs : list arrd) (m : heap) : result heap :=
  match ins, outs with
  | [x], [out] =>
      do v <- fetch_list m (data nodes) (dim0 nodes);
      do x <- fetch m (data x);
      match (if right then bisect_right x v else bisect_left x v) with
      | Some i => put m (data out) (Intp i)
      | None => Err OutOfBounds
      end
  | _, _ => Err OutOfBounds
  end.

(** pymm_bisect.h:59-114; the sides are 0 and 1 (36-37) and the array of the nodes has one dimension
    (dmin = dmax = 1) *)
Definition bisect_array (m : heap) (base : Z) (junk : Z -> cell) (v x : arrd) (side : Z)
  : result (heap * arrd) :=
  if negb (side =? 0) && negb (side =? 1) then Err ValueError
  else if negb (Nat.eqb (length (shape v)) 1) then Err ValueError
  else
    let '(m1, out) := alloc m base junk (shape x) in
    do m2 <- walk (bisect_item (side =? 1) v) (shape x) [(0%nat, x)] [out] m1;
    Ok (m2, out).

(** ** pymm_interp.h *)

(** pymm_interp.h:250-275, _interp_eval *)
Definition interp_eval_item (kind : interp_kind) (b : basis) (nt : nat) (ins outs : list arrd) (m : heap)
  : result heap :=
  match ins, outs with
  | [c0], [c] =>
      do v <- fetch_list m (data c0) nt;
      match interp_eval kind b v with
      | Some r => put m (data c) (Dbl r)
      | None => Err OutOfBounds
      end
  | _, _ => Err OutOfBounds
  end.

(** pymm_interp.h:279-293, _fill_value *)
Definition fill_item (value : option R) (ins outs : list arrd) (m : heap) : result heap :=
  match outs with
  | [c] => put m (data c) (Dbl value)
  | _ => Err OutOfBounds
  end.

(** pymm_interp.h:228-246, the else-branch of _interp *)
Definition interp_item (kind : interp_kind) (extrapolate : bool) (t0 c0 : arrd) (ins outs : list arrd) (m : heap)
  : result heap :=
  match ins, outs with
  | [t], [c] =>
      do t <- fetch m (data t);
      do v <- fetch_list m (data t0) (dim0 t0);
      match get_interp_basis kind t v, is_last t v with
      | Some b, Some last =>
          if extrapolate || (b_i0 b =? b_i b) || last
          then walk (interp_eval_item kind b (dim0 t0)) (shape c) [(0%nat, c0)] [c] m
          else walk (fill_item None) (shape c) [] [c] m
      | _, _ => Err OutOfBounds
      end
  | _, _ => Err OutOfBounds
  end.

(** pymm_interp.h:106-128 with the codes of pymm_interp.h:37-39 *)
Definition check_kind (kind : Z) : result interp_kind :=
  if kind =? 0 then Ok INTERP_C0
  else if kind =? 1 then Ok INTERP_C1
  else if kind =? 17 then Ok INTERP_C1D1
  else Err ValueError.

(** pymm_interp.h:75-208.  The nodes are converted to an array with one dimension and the
    coefficients with at least one. *)
Definition interp_array (m : heap) (base : Z) (junk : Z -> cell) (t t0 c0 : arrd) (kind : Z) (extrapolate : bool)
  : result (heap * arrd) :=
  do kind <- check_kind kind;
  if negb (Nat.eqb (length (shape t0)) 1) then Err ValueError
  else if Nat.ltb (length (shape c0)) 1 then Err ValueError
  else if negb (Nat.eqb (dim0 t0) (last (shape c0) 0%nat)) then Err ValueError
  else if Nat.ltb (dim0 t0) (min_nt kind) then Err ValueError
  else
    let '(m1, c) := alloc m base junk (shape t ++ removelast (shape c0)) in
    do m2 <- walk (interp_item kind extrapolate t0 c0) (shape t) [(0%nat, t)] [c] m1;
    Ok (m2, c).

(** ** pymm_legendre.h, pymm_relradpow.h and pymm_loncossin.h

    The initial contents of the output arrays of an item, [init] below, are arbitrary numbers. *)

(** the cells of the first [n] elements of an array *)
Definition cells (a : arr) (n : nat) : list cell := map (fun k => Dbl (Some (a k))) (seq 0 n).
Definition cells2 (a : coefs) (n : nat) : list cell :=
  flat_map (fun k => [Dbl (Some (fst (a k))); Dbl (Some (snd (a k)))]) (seq 0 n).

(** the number of the written elements: the elements 0, 1 and 2 are written for any degree
    (spherical_harmonics.h:106-112) *)
Definition legendre_written (degree : nat) : nat := Nat.max 3 ((degree + 1) * (degree + 2) / 2).

(** pymm_legendre.h:192-201 *)
Definition legendre_item (degree : nat) (psqrt prsqrt : arr) (init : arr * arr) (ins outs : list arrd) (m : heap)
  : result heap :=
  match ins, outs with
  | [lat], [p; dp] =>
      do v <- fetch_real m (data lat);
      let '(lp, ldp) := shc_legendre (fst init) (snd init) degree (v * DG2RAD)%R psqrt prsqrt in
      do m <- put_list m (data p) 8 (cells lp (legendre_written degree));
      put_list m (data dp) 8 (cells ldp (legendre_written degree))
  | _, _ => Err OutOfBounds
  end.

(** pymm_legendre.h:65-163; the arrays are allocated at the addresses [base_p] and [base_dp], the
    buffers of the square roots have the contents [buf] *)
Definition legendre_array (m : heap) (base_p base_dp : Z) (junk : Z -> cell) (lat : arrd) (degree : Z)
  (buf : arr) (init : arr * arr) : result (heap * arrd * arrd) :=
  if degree <? 0 then Err ValueError
  else
    let degree := Z.to_nat degree in
    let dims := shape lat ++ [((degree + 1) * (degree + 2) / 2)%nat] in
    let '(m1, p) := alloc m base_p junk dims in
    let '(m2, dp) := alloc m1 base_dp junk dims in
    do m3 <- walk (legendre_item degree (shc_presqrt degree buf) (shc_prersqrt degree buf) init) (shape lat)
               [(0%nat, lat)] [p; dp] m2;
    Ok (m3, p, dp).

(** pymm_relradpow.h:179-185 *)
Definition relradpow_item (degree : nat) (internal : bool) (reference : R) (init : arr) (ins outs : list arrd)
  (m : heap) : result heap :=
  match ins, outs with
  | [rad], [rrp] =>
      do v <- fetch_real m (data rad);
      let rel_rad := (v / reference)%R in
      let a := if internal then shc_relradpow_internal init degree rel_rad
               else shc_relradpow_external init degree rel_rad in
      put_list m (data rrp) 8 (cells a (degree + 1))
  | _, _ => Err OutOfBounds
  end.

(** pymm_relradpow.h:69-145 *)
Definition relradpow_array (m : heap) (base : Z) (junk : Z -> cell) (rad : arrd) (degree : Z) (reference : R)
  (internal : bool) (init : arr) : result (heap * arrd) :=
  if degree <? 0 then Err ValueError
  else if Rleb reference 0 then Err ValueError
  else
    let degree := Z.to_nat degree in
    let '(m1, rrp) := alloc m base junk (shape rad ++ [(degree + 1)%nat]) in
    do m2 <- walk (relradpow_item degree internal reference init) (shape rad) [(0%nat, rad)] [rrp] m1;
    Ok (m2, rrp).

(** pymm_loncossin.h:151-157 *)
Definition loncossin_item (degree : nat) (fast_alg : bool) (init : coefs) (ins outs : list arrd)
  (m : heap) : result heap :=
  match ins, outs with
  | [lon], [cos_sin] =>
      do v <- fetch_real m (data lon);
      let a := (if fast_alg then fs_cos_sin else fs_cos_sin_ref) init degree (v * DG2RAD)%R in
      put_list m (data cos_sin) 8 (cells2 a (degree + 1))
  | _, _ => Err OutOfBounds
  end.

(** pymm_loncossin.h:55-118 *)
Definition loncossin_array (m : heap) (base : Z) (junk : Z -> cell) (lon : arrd) (degree : Z) (fast_alg : bool)
  (init : coefs) : result (heap * arrd) :=
  if degree <? 0 then Err ValueError
  else
    let degree := Z.to_nat degree in
    let '(m1, cos_sin) := alloc m base junk (shape lon ++ [(degree + 1)%nat; 2%nat]) in
    do m2 <- walk (loncossin_item degree fast_alg init) (shape lon) [(0%nat, lon)] [cos_sin] m1;
    Ok (m2, cos_sin).

(** ** pymm_spharpot.h and pymm_sphargrd.h *)

(** the dimension PyArray_DIMS(arr)[PyArray_NDIM(arr)-n] *)
Definition dim_last (n : nat) (a : arrd) : nat := nth (length (shape a) - n) (shape a) 0%nat.

(** pymm_spharpot.h:263-272.  The elements up to the degree are read. *)
Definition spharpot_item (degree : nat) (ins outs : list arrd) (m : heap) : result heap :=
  match ins, outs with
  | [rad; coef; lp; rrp; lcs], [pot] =>
      do rad <- fetch_real m (data rad);
      do coef <- fetch_pairs m (data coef) (nterm_of degree);
      do lp <- fetch_arr m (data lp) (nterm_of degree);
      do rrp <- fetch_arr m (data rrp) (degree + 1);
      do lcs <- fetch_pairs m (data lcs) (degree + 1);
      put m (data pot) (Dbl (Some (shc_eval_v degree rad coef lcs lp rrp)))
  | _, _ => Err OutOfBounds
  end.

(** pymm_spharpot.h:65-226; the conversions require at least 2, 1, 1 and 2 dimensions of the last
    four arrays *)
Definition spharpot_array (m : heap) (base : Z) (junk : Z -> cell) (rad coef lp rrp lcs : arrd) (degree : Z)
  : result (heap * arrd) :=
  if Nat.ltb (length (shape coef)) 2 || Nat.ltb (length (shape lp)) 1 ||
     Nat.ltb (length (shape rrp)) 1 || Nat.ltb (length (shape lcs)) 2 then Err ValueError
  else
  do degree <- applied_degree [size_to_degree (Z.of_nat (dim_last 2 coef)); size_to_degree (Z.of_nat (dim_last 1 lp));
                               (Z.of_nat (dim_last 1 rrp) - 1)%Z; (Z.of_nat (dim_last 2 lcs) - 1)%Z] degree;
  do odims <- output_shape [shape rad; drop_last 2 (shape coef); drop_last 1 (shape lp); drop_last 1 (shape rrp);
                            drop_last 2 (shape lcs)] [dim_last 1 coef; dim_last 1 lcs];
  let '(m1, pot) := alloc m base junk odims in
  do m2 <- walk (spharpot_item degree) odims
             [(0%nat, rad); (2%nat, coef); (1%nat, lp); (1%nat, rrp); (2%nat, lcs)] [pot] m1;
  Ok (m2, pot).

(** pymm_sphargrd.h:296-309 *)
Definition sphargrd_item (degree : nat) (internal : bool) (ins outs : list arrd) (m : heap) : result heap :=
  match ins, outs with
  | [lat; coef; lp; ldp; rrp; lcs], [grd] =>
      do lat <- fetch_real m (data lat);
      do coef <- fetch_pairs m (data coef) (nterm_of degree);
      do lp <- fetch_arr m (data lp) (nterm_of degree);
      do ldp <- fetch_arr m (data ldp) (nterm_of degree);
      do rrp <- fetch_arr m (data rrp) (degree + 1);
      do lcs <- fetch_pairs m (data lcs) (degree + 1);
      let '(g0, g1, g2) := shc_eval_dv degree (lat * DG2RAD)%R coef lcs lp ldp rrp internal in
      put_list m (data grd) 8 [Dbl (Some g0); Dbl (Some g1); Dbl (Some g2)]
  | _, _ => Err OutOfBounds
  end.

(** pymm_sphargrd.h:69-255 *)
Definition sphargrd_array (m : heap) (base : Z) (junk : Z -> cell) (lat coef lp ldp rrp lcs : arrd)
  (internal : bool) (degree : Z) : result (heap * arrd) :=
  if Nat.ltb (length (shape coef)) 2 || Nat.ltb (length (shape lp)) 1 || Nat.ltb (length (shape ldp)) 1 ||
     Nat.ltb (length (shape rrp)) 1 || Nat.ltb (length (shape lcs)) 2 then Err ValueError
  else
  do degree <- applied_degree [size_to_degree (Z.of_nat (dim_last 2 coef)); size_to_degree (Z.of_nat (dim_last 1 lp));
                               size_to_degree (Z.of_nat (dim_last 1 ldp));
                               (Z.of_nat (dim_last 1 rrp) - 1)%Z; (Z.of_nat (dim_last 2 lcs) - 1)%Z] degree;
  do odims <- output_shape [shape lat; drop_last 2 (shape coef); drop_last 1 (shape lp); drop_last 1 (shape ldp);
                            drop_last 1 (shape rrp); drop_last 2 (shape lcs)] [dim_last 1 coef; dim_last 1 lcs];
  let '(m1, grd) := alloc m base junk (odims ++ [3%nat]) in
  do m2 <- walk (sphargrd_item degree internal) odims
             [(0%nat, lat); (2%nat, coef); (1%nat, lp); (1%nat, ldp); (1%nat, rrp); (2%nat, lcs)] [grd] m1;
  Ok (m2, grd).

(** ** pymm_fourier2d.h

    The buffers of FOURIER_2D are outside of this memory. *)

(** pymm_fourier2d.h:293-299 *)
Definition single_time_item (f : fourier_2d) (ins outs : list arrd) (m : heap) : result heap :=
  match ins, outs with
  | [c0], [c] =>
      do ab <- fetch_pairs m (data c0) (f2d_size1 f * f2d_size2 f);
      match fourier2d_eval f ab with
      | Some v => put m (data c) (Dbl (Some v))
      | None => Err OutOfBounds
      end
  | _, _ => Err OutOfBounds
  end.

(** pymm_fourier2d.h:264-271 *)
Definition fourier2d_item (c0 : arrd) (ins outs : list arrd) (s : heap * fourier_2d) : result (heap * fourier_2d) :=
  match ins, outs with
  | [t1; t2], [c] =>
      let '(m, f) := s in
      do t1 <- fetch_real m (data t1);
      do t2 <- fetch_real m (data t2);
      match fourier2d_cossin f t1 t2 with
      | None => Err OutOfBounds
      | Some f' =>
          do m <- walk (single_time_item f') (shape c) [(0%nat, c0)] [c] m;
          Ok (m, f')
      end
  | _, _ => Err OutOfBounds
  end.

(** pymm_fourier2d.h:104-221; [mem] is the content of the allocated buffers *)
Definition fourier2d_array (m : heap) (base : Z) (junk : Z -> cell) (t1 t2 c0 : arrd) (min1 min2 : Z) (s1 s2 : R)
  (mem : coefs * coefs * coefs * coefs) : result (heap * arrd) :=
  if Nat.ltb (length (shape c0)) 3 then Err ValueError
  else if negb (same_dims (shape t1) (shape t2)) then Err ValueError
  else if negb (Nat.eqb (dim_last 1 c0) 2) then Err ValueError
  else
    let '(m1, c) := alloc m base junk (shape t1 ++ drop_last 3 (shape c0)) in
    let f := fourier2d_init min1 (dim_last 3 c0) min2 (dim_last 2 c0) s1 s2 mem in
    do s <- walk (fourier2d_item c0) (shape t1) [(0%nat, t1); (0%nat, t2)] [c] (m1, f);
    Ok (fst s, c).

(** ** pysunpos.h and pysunpos_original.h *)

(** V(arrd_out,0) = ..., V(arrd_out,4) = ... (pysunpos.h:87-91, pysunpos_original.h:98-102) *)
Definition put_sun (m : heap) (out : arrd) (s : sun) : result heap :=
  put_list m (data out) (hd 0 (stride out))
    (map (fun v => Dbl (Some v)) [declination s; right_ascension s; hour_angle s; azimuth s; zenith s]).

(** reading of V(a,0) for each of the arrays.  The arrays have no dimension here and stride[0] is
    behind their strides; it is multiplied by 0 and left out. *)
Fixpoint fetch_args (m : heap) (ins : list arrd) : result (list R) :=
  match ins with
  | [] => Ok []
  | a :: ins' => do v <- fetch_real m (data a); do vs <- fetch_args m ins'; Ok (v :: vs)
  end.

(** pysunpos.h:71-95 and pysunpos_original.h:77-106; [calc] is the calculation for the list of the arguments *)
Definition sun_item (calc : list R -> option sun) (ins outs : list arrd) (m : heap) : result heap :=
  match outs with
  | [out] =>
      do args <- fetch_args m ins;
      match calc args with
      | Some s => put_sun m out s
      | None => Err OutOfBounds
      end
  | _ => Err OutOfBounds
  end.

(** pysunpos.h:166-173: the shape of the first of the arrays with the largest number of dimensions *)
Fixpoint largest_shape (s : list nat) (arrs : list arrd) : list nat :=
  match arrs with
  | [] => s
  | a :: arrs' => largest_shape (if Nat.ltb (length s) (length (shape a)) then shape a else s) arrs'
  end.

(** pysunpos.h:166-227 and pysunpos_original.h:192-263 *)
Definition sun_array (calc : list R -> option sun) (m : heap) (base : Z) (junk : Z -> cell) (first : arrd)
  (others : list arrd) : result (heap * arrd) :=
  let dims := largest_shape (shape first) others in
  if Nat.ltb (MAX_OUT_ARRAY_NDIM - 1) (length dims) then Err ValueError
  else if existsb (fun a => Nat.ltb 0 (length (shape a)) && check_equal_shape (shape a) dims) (first :: others)
  then Err ValueError
  else
    let '(m1, out) := alloc m base junk (dims ++ [5%nat]) in
    do m2 <- walk (sun_item calc) dims (map (fun a => (0%nat, a)) (first :: others)) [out] m1;
    Ok (m2, out).

(** pysunpos.h:124-243 *)
Definition sunpos_array (m : heap) (base : Z) (junk : Z -> cell) (mjd lat lon rad dtt : arrd) : result (heap * arrd) :=
  sun_array (fun args =>
    match args with
    | [t; la; lo; r; d] => Some (sunpos_item t la lo r d)
    | _ => None
    end) m base junk mjd [lat; lon; rad; dtt].

(** pysunpos_original.h:137-281 *)
Definition sunpos_original_array (m : heap) (base : Z) (junk : Z -> cell) (mjd lat lon rad dtt pres temp : arrd)
  : result (heap * arrd) :=
  sun_array (fun args =>
    match args with
    | [t; la; lo; r; d; p; te] => Some (sunpos_original_item t la lo r d p te)
    | _ => None
    end) m base junk mjd [lat; lon; rad; dtt; pres; temp].
