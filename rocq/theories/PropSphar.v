(** C76-C77: spharpot and sphargrd *)

From Coq Require Import List Reals Arith ZArith.
From Coquelicot Require Import Coquelicot.
From Verif Require Import LegendreModel LegendreSpec CoefModel ShEvalModel ShEvalSpec SpharModel SpharSpec SpharProofs.
Import ListNotations.
Open Scope R_scope.

(** spharpot of the results of legendre(latitudes, dl), relradpow(radii, dr, ref) and
    loncossin(longitudes, dc), for one set of coefficients or one for each location, is the
    potential at each of the locations.  The degree is the least of the requested one and of
    those of the arrays. *)
Theorem C76_potential : forall lats lons radii n csize deg coef D0 internal fast ref dl dr dc mem junk mem_r mem_c,
  length lats = n -> length lons = n -> length radii = n ->
  (forall x, In x lats -> -90 <= x <= 90) -> (forall x, In x radii -> x <> 0) -> ref <> 0 ->
  (1 <= csize < 2 ^ 50)%Z -> expansion_degree csize deg D0 -> dims coef = [] \/ dims coef = [n] -> (Z.of_nat dl < 2 ^ 24)%Z ->
  exists out,
    spharpot (vector 0 radii) csize 2 coef
      (Z.of_nat (nm_size dl)) (rows n (nm_size dl) (fst (legendre lats dl mem junk)))
      (Z.of_nat (dr + 1)) (rows n (dr + 1) (relradpow radii dr ref internal mem_r))
      (Z.of_nat (dc + 1)) 2 (rows n (dc + 1) (loncossin lons dc fast mem_c)) deg = Ok ([n], out) /\
    length out = n /\
    forall i lat lon rad, nth_error lats i = Some lat -> nth_error lons i = Some lon -> nth_error radii i = Some rad ->
      nth_error out i = Some (potential internal ref (fun n m => at_index coef [i] (n * (n + 1) / 2 + m)%nat)
        (Nat.min D0 (Nat.min dl (Nat.min dr dc))) rad (lat * (PI / 180)) (lon * (PI / 180))).
Proof. exact sphar_potential. Qed.
Print Assumptions C76_potential.

(** sphargrd of these arrays is the gradient of this potential along the northward, eastward
    and radial directions (the eastward component where the cosine of the latitude is not below
    1e-10). *)
Theorem C76_gradient : forall lats lons radii n csize deg coef D0 internal fast ref dl dr dc mem junk mem_r mem_c,
  length lats = n -> length lons = n -> length radii = n ->
  (forall x, In x lats -> -90 <= x <= 90) -> (forall x, In x radii -> x <> 0) -> ref <> 0 ->
  (1 <= csize < 2 ^ 50)%Z -> expansion_degree csize deg D0 -> dims coef = [] \/ dims coef = [n] -> (Z.of_nat dl < 2 ^ 24)%Z ->
  exists out,
    sphargrd (vector 0 lats) csize 2 coef
      (Z.of_nat (nm_size dl)) (rows n (nm_size dl) (fst (legendre lats dl mem junk)))
      (Z.of_nat (nm_size dl)) (rows n (nm_size dl) (snd (legendre lats dl mem junk)))
      (Z.of_nat (dr + 1)) (rows n (dr + 1) (relradpow radii dr ref internal mem_r))
      (Z.of_nat (dc + 1)) 2 (rows n (dc + 1) (loncossin lons dc fast mem_c)) internal deg = Ok ([n], out) /\
    length out = n /\
    forall i lat lon rad, nth_error lats i = Some lat -> nth_error lons i = Some lon -> nth_error radii i = Some rad ->
      let V := potential internal ref (fun n m => at_index coef [i] (n * (n + 1) / 2 + m)%nat)
        (Nat.min D0 (Nat.min dl (Nat.min dr dc))) in
      let th := lat * (PI / 180) in
      let ph := lon * (PI / 180) in
      exists north east up, nth_error out i = Some (north, east, up) /\
        is_derive (fun t => V rad t ph) th (rad * north) /\
        (1 / 10 ^ 10 <= cos th -> is_derive (fun p => V rad th p) ph (rad * cos th * east)) /\
        is_derive (fun r => V r th ph) rad up.
Proof. exact sphar_gradient. Qed.
Print Assumptions C76_gradient.

(** With the reference radius 6371.2 km the two functions return what sheval returns for the
    positions, everywhere on the sphere. *)
Theorem C76_sheval : forall lats lons radii n csize deg coef D0 internal fast dl dr dc mem junk mem_r mem_c mem_s,
  length lats = n -> length lons = n -> length radii = n ->
  (forall x, In x lats -> -90 <= x <= 90) -> (forall x, In x radii -> x <> 0) ->
  (1 <= csize < 2 ^ 50)%Z -> expansion_degree csize deg D0 -> dims coef = [] \/ dims coef = [n] -> (Z.of_nat dl < 2 ^ 24)%Z ->
  exists pot grd,
    spharpot (vector 0 radii) csize 2 coef
      (Z.of_nat (nm_size dl)) (rows n (nm_size dl) (fst (legendre lats dl mem junk)))
      (Z.of_nat (dr + 1)) (rows n (dr + 1) (relradpow radii dr 6371.2 internal mem_r))
      (Z.of_nat (dc + 1)) 2 (rows n (dc + 1) (loncossin lons dc fast mem_c)) deg = Ok ([n], pot) /\
    sphargrd (vector 0 lats) csize 2 coef
      (Z.of_nat (nm_size dl)) (rows n (nm_size dl) (fst (legendre lats dl mem junk)))
      (Z.of_nat (nm_size dl)) (rows n (nm_size dl) (snd (legendre lats dl mem junk)))
      (Z.of_nat (dr + 1)) (rows n (dr + 1) (relradpow radii dr 6371.2 internal mem_r))
      (Z.of_nat (dc + 1)) 2 (rows n (dc + 1) (loncossin lons dc fast mem_c)) internal deg = Ok ([n], grd) /\
    sheval (vector (0, 0, 0) (combine (combine lats lons) radii)) csize coef
      CT_GEOCENTRIC_SPHERICAL CT_GEOCENTRIC_SPHERICAL SM_POTENTIAL_AND_GRADIENT internal
      (Z.of_nat (Nat.min D0 (Nat.min dl (Nat.min dr dc)))) 1 (1, 1, 1) mem_s
    = Ok ([n], map (fun vg => (Some (fst vg), Some (snd vg))) (combine pot grd)).
Proof. exact sphar_sheval. Qed.
Print Assumptions C76_sheval.

Example C76_example :
  (forall x, In x [30; -45] -> -90 <= x <= 90) /\ (forall x, In x [6371.2; 7000] -> x <> 0) /\ expansion_degree 6 (-1) 2.
Proof. exact ex_sphar_arrays. Qed.

(** spharpot and sphargrd of arrays: there is one result for each multi-index of the output
    shape, and it is the result of a separate call for the items at this index. *)
Theorem C77_spharpot_pointwise : forall rad csize cpair coef lpsize lp rsize rrp lsize lpair lcs degree odims out,
  spharpot rad csize cpair coef lpsize lp rsize rrp lsize lpair lcs degree = Ok (odims, out) ->
  length out = length (indices odims) /\
  forall k ix, nth_error (indices odims) k = Some ix ->
    exists v, nth_error out k = Some v /\
      spharpot (nd0 (at_index rad ix)) csize cpair (nd0 (at_index coef ix)) lpsize (nd0 (at_index lp ix))
        rsize (nd0 (at_index rrp ix)) lsize lpair (nd0 (at_index lcs ix)) degree = Ok ([], [v]).
Proof. exact spharpot_pointwise. Qed.
Print Assumptions C77_spharpot_pointwise.

Theorem C77_sphargrd_pointwise : forall lat csize cpair coef lpsize lp ldpsize ldp rsize rrp lsize lpair lcs int degree odims out,
  sphargrd lat csize cpair coef lpsize lp ldpsize ldp rsize rrp lsize lpair lcs int degree = Ok (odims, out) ->
  length out = length (indices odims) /\
  forall k ix, nth_error (indices odims) k = Some ix ->
    exists v, nth_error out k = Some v /\
      sphargrd (nd0 (at_index lat ix)) csize cpair (nd0 (at_index coef ix)) lpsize (nd0 (at_index lp ix))
        ldpsize (nd0 (at_index ldp ix)) rsize (nd0 (at_index rrp ix)) lsize lpair (nd0 (at_index lcs ix)) int degree
      = Ok ([], [v]).
Proof. exact sphargrd_pointwise. Qed.
Print Assumptions C77_sphargrd_pointwise.

(** The calls succeed if and only if the dimensions of all the arrays are the leading ones of
    the dimensions of one of them, which are those of the output. *)
Theorem C77_spharpot_shape : forall rad csize coef lpsize lp rsize rrp lsize lcs degree,
  (1 <= csize < 2 ^ 50)%Z -> (1 <= lpsize < 2 ^ 50)%Z -> (1 <= rsize)%Z -> (1 <= lsize)%Z ->
  let shapes := [dims rad; dims coef; dims lp; dims rrp; dims lcs] in
  ((exists odims out, spharpot rad csize 2 coef lpsize lp rsize rrp lsize 2 lcs degree = Ok (odims, out)) <->
    exists s, In s shapes /\ forall s', In s' shapes -> prefix s' s) /\
  forall odims out, spharpot rad csize 2 coef lpsize lp rsize rrp lsize 2 lcs degree = Ok (odims, out) ->
    In odims shapes /\ forall s, In s shapes -> prefix s odims.
Proof. exact spharpot_shape. Qed.
Print Assumptions C77_spharpot_shape.

Theorem C77_sphargrd_shape : forall lat csize coef lpsize lp ldpsize ldp rsize rrp lsize lcs internal degree,
  (1 <= csize < 2 ^ 50)%Z -> (1 <= lpsize < 2 ^ 50)%Z -> (1 <= ldpsize < 2 ^ 50)%Z -> (1 <= rsize)%Z -> (1 <= lsize)%Z ->
  let shapes := [dims lat; dims coef; dims lp; dims ldp; dims rrp; dims lcs] in
  ((exists odims out, sphargrd lat csize 2 coef lpsize lp ldpsize ldp rsize rrp lsize 2 lcs internal degree = Ok (odims, out)) <->
    exists s, In s shapes /\ forall s', In s' shapes -> prefix s' s) /\
  forall odims out, sphargrd lat csize 2 coef lpsize lp ldpsize ldp rsize rrp lsize 2 lcs internal degree = Ok (odims, out) ->
    In odims shapes /\ forall s, In s shapes -> prefix s odims.
Proof. exact sphargrd_shape. Qed.
Print Assumptions C77_sphargrd_shape.

Example C77_example :
  let shapes := [[2; 3]; [2]; [2; 3]; []; [2; 3]]%nat in
  exists s, In s shapes /\ forall s', In s' shapes -> prefix s' s.
Proof. exact ex_sphar_shape. Qed.
