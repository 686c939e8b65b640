(** Model of the functions spharpot and sphargrd, which evaluate the spherical harmonics from
    the arrays calculated by legendre, relradpow and loncossin. *)

From Coq Require Import Bool List Reals Arith ZArith.
From Verif Require Import ArrModel LegendreModel SizeModel CoefModel ShEvalModel.
Import ListNotations.
Open Scope R_scope.

(** pymm_sphar_common.h:57-91, the largest of the shapes (without the dimensions of the
    items); the index of the array is left out *)
Definition extract_common_shape (shapes : list (list nat)) : list nat :=
  match shapes with
  | [] => []
  | s :: ss => fold_left (fun dims s' => if Nat.ltb (length dims) (length s') then s' else dims) ss s
  end.

(** pymm_spharpot.h:110-144 and pymm_sphargrd.h:124-159, the applied degree *)
Definition applied_degree (degrees : list Z) (degree : Z) : result nat :=
  let max_degree := snd (get_max_degree degrees) in
  if (max_degree <? 0)%Z then Err ValueError
  else if (2147483647 <? max_degree)%Z && (degree <? 0)%Z then Err ValueError
  else Ok (Z.to_nat (if (degree <? 0)%Z || (max_degree <? degree)%Z then max_degree else degree)).

(** pymm_spharpot.h:146-190 and pymm_sphargrd.h:161-216: the shape of the output.  The array
    of the largest shape is here compared with itself too.  [pairs] are the last dimensions
    of the arrays of pairs. *)
Definition output_shape (shapes : list (list nat)) (pairs : list nat) : result (list nat) :=
  let dims := extract_common_shape shapes in
  if existsb (compare_dimensions dims) shapes || existsb (fun d => negb (Nat.eqb d 2)) pairs
  then Err ValueError
  else Ok dims.

(** pymm_spharpot.h:232-273; the output is the list of the items in the order of the array *)
Fixpoint spharpot_items (degree : nat) (odims : list nat) (rad : nd R) (coef : nd coefs)
  (lp rrp : nd arr) (lcs : nd coefs) : list R :=
  match odims with
  | [] => [shc_eval_v degree (get rad []) (get coef []) (get lcs []) (get lp []) (get rrp [])]
  | d :: ds =>
      flat_map (fun i => spharpot_items degree ds (nd_item rad i) (nd_item coef i)
                           (nd_item lp i) (nd_item rrp i) (nd_item lcs i)) (seq 0 d)
  end.

(** pymm_spharpot.h:65-226.  The sizes are the dimensions of the arrays following those of
    [nd]: (csize, cpair) for the coefficients, lpsize for the Legendre functions, rsize for the
    powers of the radius and (lsize, lpair) for the sines and cosines.  The parsing of the
    Python objects is left out. *)
Definition spharpot (rad : nd R) (csize : Z) (cpair : nat) (coef : nd coefs) (lpsize : Z) (lp : nd arr)
  (rsize : Z) (rrp : nd arr) (lsize : Z) (lpair : nat) (lcs : nd coefs) (degree : Z)
  : result (list nat * list R) :=
  match applied_degree [size_to_degree csize; size_to_degree lpsize; (rsize - 1)%Z; (lsize - 1)%Z] degree with
  | Err e => Err e
  | Ok degree =>
      match output_shape [dims rad; dims coef; dims lp; dims rrp; dims lcs] [cpair; lpair] with
      | Err e => Err e
      | Ok odims => Ok (odims, spharpot_items degree odims rad coef lp rrp lcs)
      end
  end.

(** pymm_sphargrd.h:262-310; the items of the output are the triples of components *)
Fixpoint sphargrd_items (degree : nat) (is_internal : bool) (odims : list nat) (lat : nd R) (coef : nd coefs)
  (lp ldp rrp : nd arr) (lcs : nd coefs) : list (R * R * R) :=
  match odims with
  | [] =>
      let lat := get lat [] * DG2RAD in
      [shc_eval_dv degree lat (get coef []) (get lcs []) (get lp []) (get ldp []) (get rrp []) is_internal]
  | d :: ds =>
      flat_map (fun i => sphargrd_items degree is_internal ds (nd_item lat i) (nd_item coef i)
                           (nd_item lp i) (nd_item ldp i) (nd_item rrp i) (nd_item lcs i)) (seq 0 d)
  end.

(** pymm_sphargrd.h:69-255.  The last dimension of the output is 3 and it is left out of the
    returned dimensions. *)
Definition sphargrd (lat : nd R) (csize : Z) (cpair : nat) (coef : nd coefs) (lpsize : Z) (lp : nd arr)
  (ldpsize : Z) (ldp : nd arr) (rsize : Z) (rrp : nd arr) (lsize : Z) (lpair : nat) (lcs : nd coefs)
  (is_internal : bool) (degree : Z) : result (list nat * list (R * R * R)) :=
  match applied_degree [size_to_degree csize; size_to_degree lpsize; size_to_degree ldpsize;
                        (rsize - 1)%Z; (lsize - 1)%Z] degree with
  | Err e => Err e
  | Ok degree =>
      match output_shape [dims lat; dims coef; dims lp; dims ldp; dims rrp; dims lcs] [cpair; lpair] with
      | Err e => Err e
      | Ok odims => Ok (odims, sphargrd_items degree is_internal odims lat coef lp ldp rrp lcs)
      end
  end.
