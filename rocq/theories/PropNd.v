(** Property C93: the functions of the C extension which are applied item by item return, for arguments of any number of
    dimensions and any layout of the memory (strided, reversed, or with all the items at one address), a new contiguous array of
    the documented shape with the value of each item, and change nothing else. *)
From Coq Require Import Bool List Reals ZArith.
From Verif Require Import ArrModel LegendreModel LegendreSpec CoefModel ShEvalModel ShEvalSpec InterpModel BisectModel ROrd SpharModel
  FourierModel FourierSpec SunModel StridedModel StridedSpec StridedEvalModel StridedEvalSpec NdModel NdSpec NdProofs NdFunProofs
  NdLegendreProofs NdExamples.
Import ListNotations.
Open Scope Z_scope.

(** The interval of each of the values, NaN included. *)
Theorem C93_bisect : forall m base junk v x nodes nx side,
  side = 0 \/ side = 1 ->
  node_array m v nodes -> c_contiguous v -> double_array m x nx -> free_cells m base (size (dims nx)) ->
  gives m (bisect_array m base junk v x side) (dims nx)
    (fun idx c => exists i, bisect nodes [get nx idx] (side =? 1) = [Some i] /\ c = Some (Intp i)).
Proof. exact bisect_gives. Qed.
Print Assumptions C93_bisect.

Example C93_example_bisect : node_array ex_heap ex_nodes ex_list /\ c_contiguous ex_nodes.
Proof. exact ex_nodes_array. Qed.
Example C93_example_same : double_array ex_heap ex_same ex_same_nd /\ forall n, free_cells ex_heap (8 * 100) n.
Proof. exact (conj ex_same_doubles ex_free). Qed.

(** The interpolated series, for each time and each item of the coefficients. *)
Theorem C93_interp : forall m base junk t t0 c0 kind k extrapolate nt nodes nc,
  of_code kind k ->
  double_array m t nt -> node_array m t0 nodes -> c_contiguous t0 -> series_array m c0 (length nodes) nc -> c_contiguous c0 ->
  (min_nt k <= length nodes)%nat -> free_cells m base (size (dims nt ++ dims nc)) ->
  gives m (interp_array m base junk t t0 c0 kind extrapolate) (dims nt ++ dims nc)
    (fun idx c => exists r,
       interp_one nodes (map (get nc (skipn (length (dims nt)) idx)) (seq 0 (length nodes))) k extrapolate
         (get nt (firstn (length (dims nt)) idx)) = Some r /\ c = Some (Dbl r)).
Proof. exact interp_gives. Qed.
Print Assumptions C93_interp.

Example C93_example_interp : series_array ex_heap ex_series 4 ex_series_nd /\ c_contiguous ex_series.
Proof. exact ex_series_array. Qed.

(** The associated Legendre functions and their derivatives.  Missing: the degree 0, for which it is false, see below. *)
Theorem C93_legendre_partial : forall m base_p base_dp junk lat degree buf init nlat,
  1 <= degree ->
  let size1 := nm_size (Z.to_nat degree) in
  let D := dims nlat ++ [size1] in
  number_array m lat nlat -> free_cells m base_p (size D) -> free_cells m base_dp (size D) ->
  base_p + 8 * Z.of_nat (size D) <= base_dp \/ base_dp + 8 * Z.of_nat (size D) <= base_p ->
  gives2 m (legendre_array m base_p base_dp junk lat degree buf init) D
    (fun idx c => forall mem, c = Some (num (fst (legendre [at_index nlat idx] (Z.to_nat degree) mem buf) (last idx 0%nat))))
    (fun idx c => forall mem, c = Some (num (snd (legendre [at_index nlat idx] (Z.to_nat degree) mem buf) (last idx 0%nat)))).
Proof. exact legendre_gives. Qed.
Print Assumptions C93_legendre_partial.

Example C93_example_reversed : number_array ex_heap ex_back ex_back_nd.
Proof. exact ex_back_numbers. Qed.
Example C93_example_two : forall n, free_cells ex_heap (8 * 100) n /\ free_cells ex_heap (8 * 200) n.
Proof. exact (fun n => conj (ex_free n) (ex_free2 n)). Qed.

(** For the degree 0 memory outside of the new arrays is written. *)
Theorem C93_legendre_refuted : ~ (forall m base_p base_dp junk lat degree buf init nlat, 0 <= degree ->
  let D := dims nlat ++ [nm_size (Z.to_nat degree)] in
  number_array m lat nlat -> free_cells m base_p (size D) -> free_cells m base_dp (size D) ->
  base_p + 8 * Z.of_nat (size D) <= base_dp \/ base_dp + 8 * Z.of_nat (size D) <= base_p ->
  exists r, legendre_array m base_p base_dp junk lat degree buf init = Ok r).
Proof. exact legendre_all_refuted. Qed.
Print Assumptions C93_legendre_refuted.

(** The powers of the relative radii. *)
Theorem C93_relradpow : forall m base junk rad degree reference internal init nrad,
  0 <= degree -> (0 < reference)%R ->
  number_array m rad nrad -> free_cells m base (size (dims nrad ++ [(Z.to_nat degree + 1)%nat])) ->
  gives m (relradpow_array m base junk rad degree reference internal init) (dims nrad ++ [(Z.to_nat degree + 1)%nat])
    (fun idx c => forall mem,
       c = Some (num (relradpow [at_index nrad idx] (Z.to_nat degree) reference internal mem (last idx 0%nat)))).
Proof. exact relradpow_gives. Qed.
Print Assumptions C93_relradpow.

(** The cosines and sines of the multiples of the longitudes, with both algorithms. *)
Theorem C93_loncossin : forall m base junk lon degree fast init nlon,
  0 <= degree ->
  number_array m lon nlon -> free_cells m base (size (dims nlon ++ [(Z.to_nat degree + 1)%nat; 2%nat])) ->
  gives m (loncossin_array m base junk lon degree fast init) (dims nlon ++ [(Z.to_nat degree + 1)%nat; 2%nat])
    (fun idx c =>
       let k := nth (length (dims nlon)) idx 0%nat in
       let arg := (INR k * (at_index nlon idx * (PI / 180)))%R in
       c = Some (num (if Nat.eqb (last idx 0%nat) 0 then cos arg else sin arg))).
Proof. exact loncossin_gives. Qed.
Print Assumptions C93_loncossin.

(** The potentials: the values and the refusals of the array function. *)
Theorem C93_spharpot : forall m base junk rad coef lp rrp lcs nrad nc ncoef nl nlp nr nrrp ns nlcs degree,
  number_array m rad nrad -> pair_array m coef nc ncoef -> c_contiguous coef -> series_array m lp nl nlp -> c_contiguous lp ->
  series_array m rrp nr nrrp -> c_contiguous rrp -> pair_array m lcs ns nlcs -> c_contiguous lcs ->
  Z.of_nat nc < 2 ^ 50 -> Z.of_nat nl < 2 ^ 50 ->
  let pure := spharpot nrad (Z.of_nat nc) 2 ncoef (Z.of_nat nl) nlp (Z.of_nat nr) nrrp (Z.of_nat ns) 2 nlcs degree in
  (forall odims out, pure = Ok (odims, out) -> free_cells m base (size odims)) ->
  match pure with
  | Ok (odims, out) =>
      gives m (spharpot_array m base junk rad coef lp rrp lcs degree) odims
        (fun idx c => exists v, nth_error out (offset odims idx) = Some v /\ c = Some (num v))
  | Err e => spharpot_array m base junk rad coef lp rrp lcs degree = Err e
  end.
Proof. exact spharpot_gives. Qed.
Print Assumptions C93_spharpot.

Example C93_example_pairs : forall n, (n <= 10)%nat -> pair_array ex_heap (ex_pairs n) n ex_pairs_nd /\ c_contiguous (ex_pairs n).
Proof. exact ex_pairs_array. Qed.
Example C93_example_rows : forall n, (n <= 10)%nat -> series_array ex_heap (ex_row n) n ex_row_nd /\ c_contiguous (ex_row n).
Proof. exact ex_row_array. Qed.
Example C93_example_spharpot : exists v, spharpot ex_scalar_nd 3 2 ex_pairs_nd 3 ex_row_nd 2 ex_row_nd 2 2 ex_pairs_nd 1 = Ok ([], [v]).
Proof. exact ex_spharpot. Qed.

(** The gradients. *)
Theorem C93_sphargrd : forall m base junk lat coef lp ldp rrp lcs nlat nc ncoef nl nlp nd' nldp nr nrrp ns nlcs internal degree,
  number_array m lat nlat -> pair_array m coef nc ncoef -> c_contiguous coef -> series_array m lp nl nlp -> c_contiguous lp ->
  series_array m ldp nd' nldp -> c_contiguous ldp ->
  series_array m rrp nr nrrp -> c_contiguous rrp -> pair_array m lcs ns nlcs -> c_contiguous lcs ->
  Z.of_nat nc < 2 ^ 50 -> Z.of_nat nl < 2 ^ 50 -> Z.of_nat nd' < 2 ^ 50 ->
  let pure := sphargrd nlat (Z.of_nat nc) 2 ncoef (Z.of_nat nl) nlp (Z.of_nat nd') nldp (Z.of_nat nr) nrrp (Z.of_nat ns) 2 nlcs internal degree in
  (forall odims out, pure = Ok (odims, out) -> free_cells m base (size (odims ++ [3%nat]))) ->
  match pure with
  | Ok (odims, out) =>
      gives m (sphargrd_array m base junk lat coef lp ldp rrp lcs internal degree) (odims ++ [3%nat])
        (fun idx c => exists v, nth_error out (offset odims (removelast idx)) = Some v /\
           c = Some (num (component v (last idx 0%nat))))
  | Err e => sphargrd_array m base junk lat coef lp ldp rrp lcs internal degree = Err e
  end.
Proof. exact sphargrd_gives. Qed.
Print Assumptions C93_sphargrd.

Example C93_example_sphargrd :
  exists v, sphargrd ex_scalar_nd 3 2 ex_pairs_nd 3 ex_row_nd 3 ex_row_nd 2 ex_row_nd 2 2 ex_pairs_nd true 1 = Ok ([], [v]).
Proof. exact ex_sphargrd. Qed.

(** The 2D Fourier series.  Missing: the ranges of degrees which do not fit the buffers (degrees_fit), see C29. *)
Theorem C93_fourier2d_partial : forall m base junk t1 t2 c0 min1 min2 s1 s2 mem nt1 nt2 n1 n2 nc,
  degrees_fit n1 n2 min1 min2 -> dims nt1 = dims nt2 ->
  number_array m t1 nt1 -> number_array m t2 nt2 -> matrix_array m c0 n1 n2 nc -> c_contiguous c0 ->
  free_cells m base (size (dims nt1 ++ dims nc)) ->
  gives m (fourier2d_array m base junk t1 t2 c0 min1 min2 s1 s2 mem) (dims nt1 ++ dims nc)
    (fun idx c => c = Some (num (fourier_value (get nc (skipn (length (dims nt1)) idx)) n1 n2 min1 min2 s1 s2
                                   (at_index nt1 idx) (at_index nt2 idx)))).
Proof. exact fourier2d_gives. Qed.
Print Assumptions C93_fourier2d_partial.

Example C93_example_fourier2d : degrees_fit 2 2 0 0 /\ matrix_array ex_heap ex_matrix 2 2 ex_matrix_nd /\ c_contiguous ex_matrix.
Proof. exact (conj ex_fit ex_matrix_array). Qed.

(** The positions of the Sun. *)
Theorem C93_sunpos : forall m base junk mjd lat lon rad dtt nmjd nlat nlon nrad ndtt,
  number_array m mjd nmjd -> number_array m lat nlat -> number_array m lon nlon -> number_array m rad nrad -> number_array m dtt ndtt ->
  let pure := sunpos nmjd nlat nlon nrad ndtt in
  (forall odims out, pure = Ok (odims, out) -> free_cells m base (size (odims ++ [5%nat]))) ->
  match pure with
  | Ok (odims, out) =>
      gives m (sunpos_array m base junk mjd lat lon rad dtt) (odims ++ [5%nat])
        (fun idx c => exists s, nth_error out (offset odims (removelast idx)) = Some (Some s) /\
           c = Some (num (sun_component s (last idx 0%nat))))
  | Err e => sunpos_array m base junk mjd lat lon rad dtt = Err e
  end.
Proof. exact sunpos_gives. Qed.
Print Assumptions C93_sunpos.

Example C93_example_sunpos : number_array ex_heap ex_scalar ex_scalar_nd /\
  exists out, sunpos ex_back_nd ex_scalar_nd ex_back_nd ex_scalar_nd ex_scalar_nd = Ok ([2; 3]%nat, out).
Proof. exact (conj ex_scalar_number ex_sunpos). Qed.

(** The positions of the Sun, the original algorithm. *)
Theorem C93_sunpos_original : forall m base junk mjd lat lon rad dtt pres temp nmjd nlat nlon nrad ndtt npres ntemp,
  number_array m mjd nmjd -> number_array m lat nlat -> number_array m lon nlon -> number_array m rad nrad -> number_array m dtt ndtt ->
  number_array m pres npres -> number_array m temp ntemp ->
  let pure := sunpos_original nmjd nlat nlon nrad ndtt npres ntemp in
  (forall odims out, pure = Ok (odims, out) -> free_cells m base (size (odims ++ [5%nat]))) ->
  match pure with
  | Ok (odims, out) =>
      gives m (sunpos_original_array m base junk mjd lat lon rad dtt pres temp) (odims ++ [5%nat])
        (fun idx c => exists s, nth_error out (offset odims (removelast idx)) = Some (Some s) /\
           c = Some (num (sun_component s (last idx 0%nat))))
  | Err e => sunpos_original_array m base junk mjd lat lon rad dtt pres temp = Err e
  end.
Proof. exact sunpos_original_gives. Qed.
Print Assumptions C93_sunpos_original.

(** The refused arguments. *)
Theorem C93_errors : forall m base base' junk v x t t0 c0 lat t1 t2,
  (forall side, side <> 0 -> side <> 1 -> bisect_array m base junk v x side = Err ValueError) /\
  (forall side, length (shape v) <> 1%nat -> bisect_array m base junk v x side = Err ValueError) /\
  (forall kind extrapolate, kind <> 0 -> kind <> 1 -> kind <> 17 -> interp_array m base junk t t0 c0 kind extrapolate = Err ValueError) /\
  (forall kind extrapolate n ds n', shape t0 = [n] -> shape c0 = ds ++ [n'] -> n <> n' \/ (n < 2)%nat /\ kind <> 0 \/ n = 0%nat ->
     interp_array m base junk t t0 c0 kind extrapolate = Err ValueError) /\
  (forall degree buf init, degree < 0 -> legendre_array m base base' junk lat degree buf init = Err ValueError) /\
  (forall degree reference internal init, degree < 0 \/ (reference <= 0)%R ->
     relradpow_array m base junk lat degree reference internal init = Err ValueError) /\
  (forall degree fast init, degree < 0 -> loncossin_array m base junk lat degree fast init = Err ValueError) /\
  (forall min1 min2 s1 s2 mem, (length (shape c0) < 3)%nat \/ shape t1 <> shape t2 \/ last (shape c0) 0%nat <> 2%nat ->
     fourier2d_array m base junk t1 t2 c0 min1 min2 s1 s2 mem = Err ValueError).
Proof. exact nd_errors. Qed.
Print Assumptions C93_errors.
