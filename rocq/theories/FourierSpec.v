(** Specification of the 2D Fourier series. *)

From Coq Require Import List Reals ZArith.
From Verif Require Import LegendreModel ShEvalModel ShEvalSpec SparseSpec SparseModel FourierModel.
Import ListNotations.

(** f 0 + ... + f (n-1) *)
Definition fsum (n : nat) (f : nat -> R) : R := fold_right Rplus 0%R (map f (seq 0 n)).

(** The sum over the degrees i = min1, ..., min1+size1-1 and j = min2, ..., min2+size2-1 of
    a*cos(i*s1*x + j*s2*y) + b*sin(i*s1*x + j*s2*y), where (a, b) are stored row by row. *)
Definition fourier_value (ab : coefs) (size1 size2 : nat) (min1 min2 : Z) (s1 s2 x y : R) : R :=
  fsum size1 (fun p => fsum size2 (fun q =>
    let i := IZR (min1 + Z.of_nat p) in
    let j := IZR (min2 + Z.of_nat q) in
    let arg := (i * (s1 * x) + j * (s2 * y))%R in
    let '(a, b) := ab (p * size2 + q)%nat in
    (a * cos arg + b * sin arg)%R)).

(** The first degree of the second series is not larger, in its absolute value, than all of the
    other limits (and than one). *)
Definition degrees_fit (size1 size2 : nat) (min1 min2 : Z) : Prop :=
  (Z.abs min2 <= 1 \/ Z.abs min2 <= Z.abs min1 \/
   Z.abs min2 <= Z.abs (min1 + Z.of_nat size1 - 1) \/
   Z.abs min2 <= Z.abs (min2 + Z.of_nat size2 - 1))%Z.

(** The coefficient of the degree [n] and of the order [m]: the row n(n+1)/2 + |m|, the second
    column for the negative orders *)
Definition coef_nm (c : coefs) (n m : Z) : R :=
  let row := c (Z.to_nat (n * (n + 1) / 2 + Z.abs m)) in
  if (m <? 0)%Z then snd row else fst row.

(** A coefficient set of sheval2dfs: one 2D series for each (n, m) *)
Definition usable_2dfs (s : f2d_set) : Prop :=
  length (fs_ab s) = length (fs_nm s) /\ (forall n m, In (n, m) (fs_nm s) -> valid_nm n m) /\
  degrees_fit (fs_size1 s) (fs_size2 s) (fs_min1 s) (fs_min2 s).

(** N is the largest of the degrees, 0 if there is none. *)
Definition largest_degree (nms : list (Z * Z)) (N : Z) : Prop :=
  (forall n m, In (n, m) nms -> (n <= N)%Z) /\
  (N = 0%Z /\ nms = [] \/ exists m, In (N, m) nms).

(** The value of the i-th series of the set for the times *)
Definition series_value (s : f2d_set) (ab : coefs) (t1 t2 : R) : R :=
  fourier_value ab (fs_size1 s) (fs_size2 s) (fs_min1 s) (fs_min2 s) (fs_scale1 s) (fs_scale2 s) t1 t2.

(** The list which has all of the elements of the others as its beginning, i.e., the longest one *)
Definition longest_of (d a b c : list nat) : Prop :=
  (d = a \/ d = b \/ d = c) /\ prefix a d /\ prefix b d /\ prefix c d.
