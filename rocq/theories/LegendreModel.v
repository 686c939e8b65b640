(** Model of the associated Legendre functions and of the radial and longitude series,
    include/spherical_harmonics.h:38-335 and include/fourier_series.h:54-86.
    The doubles are real numbers. *)

From Coq Require Import Bool List Reals Arith.
From Verif Require Import ArrModel.
Open Scope R_scope.

(** spherical_harmonics.h:45-60; [buf] is the allocated memory.  The index i runs from 0
    to 2*degree + 1. *)
Definition shc_presqrt (degree : nat) (buf : arr) : arr :=
  loop 0 (2 * degree + 1) (fun i psqrt => upd psqrt i (sqrt (INR i))) buf.

(** spherical_harmonics.h:71-86; element 0 is infinite in the code and is not used. *)
Definition shc_prersqrt (degree : nat) (buf : arr) : arr :=
  loop 0 (2 * degree + 1) (fun i prsqrt => upd prsqrt i (1 / sqrt (INR i))) buf.

(** spherical_harmonics.h:98-168; the index i_off + j - i - i + 1 is reordered, because the
    natural numbers do not have the negative intermediate result. *)
Definition shc_legendre_low (lp ldp : arr) (degree : nat) (sin_elv cos_elv : R)
  (psqrt prsqrt : arr) : arr * arr :=
  (* 106-112 *)
  let lp := upd (upd (upd lp 0 1) 1 sin_elv) 2 cos_elv in
  let ldp := upd (upd (upd ldp 0 0) 1 cos_elv) 2 (- sin_elv) in
  (* 114-142 *)
  let '(lp, ldp) :=
    loop 2 degree (fun i '(lp, ldp) =>
      let i_off := (i * (i + 1) / 2)%nat in
      let i1sq := ((i - 1) * (i - 1))%nat in
      let w_dnm := 1 / INR ((2 * i - 1) * (2 * i - 3)) in
      let '(lp, ldp) :=
        loop 0 (i - 2) (fun j '(lp, ldp) =>          (* j < i-1 *)
          let idx0 := (i_off + j)%nat in
          let idx1 := (i_off + j - i)%nat in
          let idx2 := (i_off + j + 1 - i - i)%nat in
          let w := w_dnm * INR (i1sq - j * j) in
          let lp' := upd lp idx0 (sin_elv * lp idx1 - w * lp idx2) in
          let ldp' := upd ldp idx0
                        (sin_elv * ldp idx1 - w * ldp idx2 + cos_elv * lp' idx1) in
          (lp', ldp')) (lp, ldp) in
      let idx0 := (i_off + i)%nat in
      let idx1 := (i_off - 1)%nat in
      let lp := upd lp (idx0 - 1) (sin_elv * lp idx1) in
      let ldp := upd ldp (idx0 - 1) (sin_elv * ldp idx1 + cos_elv * lp idx1) in
      let lp := upd lp idx0 (cos_elv * lp idx1) in
      let ldp := upd ldp idx0 (cos_elv * ldp idx1 - sin_elv * lp idx1) in
      (lp, ldp)) (lp, ldp) in
  (* 145-167 *)
  let '(lp, ldp, _) :=
    loop 2 degree (fun i '(lp, ldp, sqn0) =>
      let i_off := (i * (i + 1) / 2)%nat in
      let sqn0 := sqn0 * (INR (2 * i - 1) / INR i) in
      let lp := upd lp i_off (lp i_off * sqn0) in
      let ldp := upd ldp i_off (ldp i_off * sqn0) in
      let sqn1 := sqn0 * psqrt (2 * i)%nat * prsqrt (i + 1)%nat in
      let lp := upd lp (i_off + 1) (lp (i_off + 1)%nat * sqn1) in
      let ldp := upd ldp (i_off + 1) (ldp (i_off + 1)%nat * sqn1) in
      let '(lp, ldp, _) :=
        loop 2 i (fun j '(lp, ldp, sqn1) =>
          let sqn1 := sqn1 * (psqrt (i - j + 1)%nat * prsqrt (i + j)%nat) in
          let lp := upd lp (i_off + j) (lp (i_off + j)%nat * sqn1) in
          let ldp := upd ldp (i_off + j) (ldp (i_off + j)%nat * sqn1) in
          (lp, ldp, sqn1)) (lp, ldp, sqn1) in
      (lp, ldp, sqn0)) (lp, ldp, 1) in
  (lp, ldp).

(** spherical_harmonics.h:33 *)
Definition SHC_LEG_HIGH_SCALE : R := 10 ^ 280.

(** spherical_harmonics.h:182-252; the loop counters idx and idx0 are part of the
    states of the loops. *)
Definition shc_legendre_high (lp ldp : arr) (degree : nat) (sin_elv cos_elv : R)
  (psqrt prsqrt : arr) : arr * arr :=
  let scale := SHC_LEG_HIGH_SCALE in
  let rscale := 1 / SHC_LEG_HIGH_SCALE in
  let rcos_elv := 1 / cos_elv in
  let lp := upd (upd lp 0 1) 1 sin_elv in                      (* 192-193 *)
  let ldp := upd (upd ldp 0 0) 1 cos_elv in                    (* 195-196 *)
  let '(lp, ldp, _, _, _) :=                                   (* 198-208 *)
    loop 2 degree (fun i '(lp, ldp, idx, pm2, pm1) =>
      let f1 := INR (2 * i - 1) / INR i in
      let f2 := INR (i - 1) / INR i in
      let pm0 := f1 * sin_elv * pm1 - f2 * pm2 in
      let lp := upd lp idx pm0 in
      let ldp := upd ldp idx (INR i * rcos_elv * (pm1 - sin_elv * pm0)) in
      (lp, ldp, (idx + (i + 1))%nat, pm1, pm0)) (lp, ldp, 3%nat, 1, sin_elv) in
  let pmm := rscale * psqrt 2%nat in                           (* 210 *)
  let pow_cos_elv := scale in                                  (* 211 *)
  let '(lp, ldp, idx0, pmm, pow_cos_elv) :=                    (* 213-246 *)
    loop 1 (degree - 1) (fun j '(lp, ldp, idx0, pmm, pow_cos_elv) =>
      let pow_cos_elv_last := pow_cos_elv in
      let pow_cos_elv := pow_cos_elv * cos_elv in
      let pmm := pmm * (psqrt (2 * j + 1)%nat * prsqrt (2 * j)%nat) in
      let pm2 := pmm * prsqrt (2 * j + 1)%nat in
      let pm1 := sin_elv * pmm in
      let lp := upd lp idx0 (pow_cos_elv * pm2) in
      let ldp := upd ldp idx0 (- pow_cos_elv_last * (INR j * sin_elv * pm2)) in
      let idx := (idx0 + j + 1)%nat in
      let lp := upd lp idx (pow_cos_elv * pm1) in
      let ldp := upd ldp idx (- pow_cos_elv_last * (INR (j + 1) * sin_elv * pm1 - pmm)) in
      let '(lp, ldp, _, _, _) :=
        loop (j + 2) degree (fun i '(lp, ldp, idx, pm2, pm1) =>
          let f0 := psqrt (i + j)%nat * psqrt (i - j)%nat in
          let rf0 := prsqrt (i + j)%nat * prsqrt (i - j)%nat in
          let f1 := INR (2 * i - 1) in
          let f2 := psqrt (i - j - 1)%nat * psqrt (i + j - 1)%nat in
          let plm := (f1 * sin_elv * pm1 - f2 * pm2) * rf0 in
          let lp := upd lp idx (pow_cos_elv * plm) in
          let ldp := upd ldp idx (- pow_cos_elv_last * (INR i * sin_elv * plm - f0 * pm1)) in
          (lp, ldp, (idx + (i + 1))%nat, pm1, plm)) (lp, ldp, (idx + (j + 2))%nat, pm2, pm1) in
      (lp, ldp, (idx0 + (j + 1 + 1))%nat, pmm, pow_cos_elv)) (lp, ldp, 2%nat, pmm, pow_cos_elv) in
  let j := Nat.max 1 degree in                                 (* j after the loop *)
  let pm2 := pmm * prsqrt (2 * j)%nat in                       (* 248 *)
  let lp := upd lp idx0 (pow_cos_elv * cos_elv * pm2) in       (* 250 *)
  let ldp := upd ldp idx0 (- pow_cos_elv * (INR j * sin_elv * pm2)) in
  (lp, ldp).

(** a < b *)
Definition Rltb (a b : R) : bool := if Rlt_dec a b then true else false.

(** spherical_harmonics.h:270-282 *)
Definition shc_legendre (lp ldp : arr) (degree : nat) (elv : R) (psqrt prsqrt : arr) : arr * arr :=
  let sin_elv := sin elv in
  let cos_elv := sqrt ((1 - sin_elv) * (1 + sin_elv)) in
  if Nat.leb degree 16 || Rltb (Rabs cos_elv) (1 / 10 ^ 10)
  then shc_legendre_low lp ldp degree sin_elv cos_elv psqrt prsqrt
  else shc_legendre_high lp ldp degree sin_elv cos_elv psqrt prsqrt.

(** spherical_harmonics.h:295-306 *)
Definition shc_relradpow_internal (rrp : arr) (degree : nat) (relrad : R) : arr :=
  let rr := 1 / relrad in
  fst (loop 0 degree (fun i '(rrp, rrp_last) =>
         let rrp_last := rrp_last * rr in (upd rrp i rrp_last, rrp_last)) (rrp, rr)).

(** spherical_harmonics.h:319-335 *)
Definition shc_relradpow_external (rrp : arr) (degree : nat) (relrad : R) : arr :=
  let rrp_val := 1 in
  let rrp := upd rrp 0 (rrp_val / relrad) in
  let rrp := if Nat.leb 1 degree then upd rrp 1 rrp_val else rrp in
  fst (loop 2 degree (fun i '(rrp, rrp_val) =>
         let rrp_val := rrp_val * relrad in (upd rrp i rrp_val, rrp_val)) (rrp, rrp_val)).

(** fourier_series.h:54-86 *)
Definition fs_cos_sin (cos_sin_ix : nat -> R * R) (n : nat) (x : R) : nat -> R * R :=
  let cos_sin_ix := upd cos_sin_ix 0 (1, 0) in
  if Nat.leb 1 n then
    let cos_x := cos x in
    let sin_x := sin x in
    let cos_sin_ix := upd cos_sin_ix 1 (cos_x, sin_x) in
    fst (loop 2 n (fun i '(cos_sin_ix, (cos_ix, sin_ix)) =>
           let cos_ix_new := cos_ix * cos_x - sin_ix * sin_x in
           let sin_ix_new := cos_ix * sin_x + sin_ix * cos_x in
           (upd cos_sin_ix i (cos_ix_new, sin_ix_new), (cos_ix_new, sin_ix_new)))
         (cos_sin_ix, (cos_x, sin_x)))
  else cos_sin_ix.

(** fourier_series.h:104-117, the reference algorithm *)
Definition fs_cos_sin_ref (cos_sin_it : nat -> R * R) (n : nat) (t : R) : nat -> R * R :=
  loop 0 n (fun i a => upd a i (cos (INR i * t), sin (INR i * t))) cos_sin_it.

(** include/geo_conversion.h:35 *)
Definition DG2RAD : R := PI / 180.

(** A pointer to the element [off] of the array [a], and the array after the elements
    from that pointer on have been replaced. *)
Definition ptr {A} (a : nat -> A) (off : nat) : nat -> A := fun k => a (off + k)%nat.
Definition unptr {A} (a : nat -> A) (off : nat) (v : nat -> A) : nat -> A :=
  fun k => if Nat.ltb k off then a k else v (k - off)%nat.

(** pymm_legendre.h:170-203: the loop over the items of a 1D array of latitudes.  The
    outputs of the items follow each other in the output arrays. *)
Fixpoint legendre_items (lats : list R) (off size degree : nat) (psqrt prsqrt : arr)
  (p dp : arr) : arr * arr :=
  match lats with
  | nil => (p, dp)
  | cons lat lats' =>
      let '(p', dp') := shc_legendre (ptr p off) (ptr dp off) degree (lat * DG2RAD) psqrt prsqrt in
      legendre_items lats' (off + size) size degree psqrt prsqrt (unptr p off p') (unptr dp off dp')
  end.

(** pymm_legendre.h:65-163, legendre(latitude, degree) for a 1D array of latitudes (one
    element for a scalar) and degree >= 0 (a negative degree is rejected).  [mem] is the
    content of the allocated output arrays and [junk] that of the auxiliary ones.  The
    elements of the result at and above [length lats * size] are the memory behind the
    arrays. *)
Definition legendre (lats : list R) (degree : nat) (mem : arr * arr) (junk : arr) : arr * arr :=
  legendre_items lats 0 ((degree + 1) * (degree + 2) / 2) degree
    (shc_presqrt degree junk) (shc_prersqrt degree junk) (fst mem) (snd mem).

(** pymm_relradpow.h:156-186 and pymm_loncossin.h:125-158, for functions with a single
    output array *)
Fixpoint array_items {A} (f : R -> (nat -> A) -> (nat -> A)) (xs : list R) (off size : nat)
  (out : nat -> A) : nat -> A :=
  match xs with
  | nil => out
  | cons x xs' => array_items f xs' (off + size) size (unptr out off (f x (ptr out off)))
  end.

(** pymm_relradpow.h:69-150, relradpow(radius, degree, reference_radius, is_internal);
    the checks of the arguments (degree >= 0, reference_radius > 0) are left out. *)
Definition relradpow (radii : list R) (degree : nat) (reference_radius : R) (is_internal : bool)
  (mem : arr) : arr :=
  array_items (fun rad rrp =>
      let rel_rad := rad / reference_radius in
      if is_internal then shc_relradpow_internal rrp degree rel_rad
      else shc_relradpow_external rrp degree rel_rad)
    radii 0 (degree + 1) mem.

(** pymm_loncossin.h:55-118, loncossin(longitude, degree, fast_alg) *)
Definition loncossin (lons : list R) (degree : nat) (fast_alg : bool) (mem : nat -> R * R)
  : nat -> R * R :=
  array_items (fun lon cos_sin =>
      (if fast_alg then fs_cos_sin else fs_cos_sin_ref) cos_sin degree (lon * DG2RAD))
    lons 0 (degree + 1) mem.
