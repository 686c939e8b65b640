(** Model of the buffers of the evaluation of the spherical harmonics: the functions of LegendreModel
    and ShEvalModel again, for arrays which have an end and whose elements have no value before
    they are written.  An access outside of an array and the reading of an element which was
    not written are [None].  The sizes are natural numbers: the overflow of the 32 bit integers
    for degrees above 46339 is not modelled. *)

From Coq Require Import Bool List Reals Arith ZArith.
From Verif Require Import ArrModel LegendreModel GeoModel SizeModel CoefModel ShEvalModel.
Import ListNotations.
Open Scope R_scope.

(** an allocated array; an element which was not written is [None] *)
Record buf (A : Type) := { bf_size : nat; bf_cell : nat -> option A }.
Arguments bf_size {A} _.
Arguments bf_cell {A} _ _.

(** malloc(n*sizeof(A)) *)
Definition malloc {A} (n : nat) : buf A := {| bf_size := n; bf_cell := fun _ => None |}.

(** b[i] *)
Definition rd {A} (b : buf A) (i : nat) : option A :=
  if Nat.ltb i (bf_size b) then bf_cell b i else None.

(** b[i] = v *)
Definition wr {A} (b : buf A) (i : nat) (v : A) : option (buf A) :=
  if Nat.ltb i (bf_size b) then Some {| bf_size := bf_size b; bf_cell := upd (bf_cell b) i (Some v) |}
  else None.

Notation "'try' x <- a ; b" := (match a with Some x => b | None => None end)
  (at level 200, x pattern, a at level 100, b at level 200).

(** for (i = lo; i <= hi; ++i) *)
Definition loopb {S : Type} (lo hi : nat) (body : nat -> S -> option S) (s : S) : option S :=
  fold_left (fun s i => try s <- s; body i s) (seq lo (Datatypes.S hi - lo)) (Some s).

(** spherical_harmonics.h:45-60 *)
Definition b_presqrt (degree : nat) : option (buf R) :=
  loopb 0 (2 * degree + 1) (fun i psqrt => wr psqrt i (sqrt (INR i))) (malloc (2 * degree + 2)).

(** spherical_harmonics.h:71-86 *)
Definition b_prersqrt (degree : nat) : option (buf R) :=
  loopb 0 (2 * degree + 1) (fun i prsqrt => wr prsqrt i (1 / sqrt (INR i))) (malloc (2 * degree + 2)).

(** spherical_harmonics.h:98-168 *)
Definition b_legendre_low (lp ldp : buf R) (degree : nat) (sin_elv cos_elv : R)
  (psqrt prsqrt : buf R) : option (buf R * buf R) :=
  try lp <- wr lp 0 1;
  try lp <- wr lp 1 sin_elv;
  try lp <- wr lp 2 cos_elv;
  try ldp <- wr ldp 0 0;
  try ldp <- wr ldp 1 cos_elv;
  try ldp <- wr ldp 2 (- sin_elv);
  try (lp, ldp) <-
    loopb 2 degree (fun i '(lp, ldp) =>
      let i_off := (i * (i + 1) / 2)%nat in
      let i1sq := ((i - 1) * (i - 1))%nat in
      let w_dnm := 1 / INR ((2 * i - 1) * (2 * i - 3)) in
      try (lp, ldp) <-
        loopb 0 (i - 2) (fun j '(lp, ldp) =>
          let idx0 := (i_off + j)%nat in
          let idx1 := (i_off + j - i)%nat in
          let idx2 := (i_off + j + 1 - i - i)%nat in
          let w := w_dnm * INR (i1sq - j * j) in
          try lp1 <- rd lp idx1;
          try lp2 <- rd lp idx2;
          try lp <- wr lp idx0 (sin_elv * lp1 - w * lp2);
          try ldp1 <- rd ldp idx1;
          try ldp2 <- rd ldp idx2;
          try lp1 <- rd lp idx1;
          try ldp <- wr ldp idx0 (sin_elv * ldp1 - w * ldp2 + cos_elv * lp1);
          Some (lp, ldp)) (lp, ldp);
      let idx0 := (i_off + i)%nat in
      let idx1 := (i_off - 1)%nat in
      try lp1 <- rd lp idx1;
      try lp <- wr lp (idx0 - 1) (sin_elv * lp1);
      try ldp1 <- rd ldp idx1;
      try lp1 <- rd lp idx1;
      try ldp <- wr ldp (idx0 - 1) (sin_elv * ldp1 + cos_elv * lp1);
      try lp1 <- rd lp idx1;
      try lp <- wr lp idx0 (cos_elv * lp1);
      try ldp1 <- rd ldp idx1;
      try lp1 <- rd lp idx1;
      try ldp <- wr ldp idx0 (cos_elv * ldp1 - sin_elv * lp1);
      Some (lp, ldp)) (lp, ldp);
  try (lp, ldp, _) <-
    loopb 2 degree (fun i '(lp, ldp, sqn0) =>
      let i_off := (i * (i + 1) / 2)%nat in
      let sqn0 := sqn0 * (INR (2 * i - 1) / INR i) in
      try v <- rd lp i_off;
      try lp <- wr lp i_off (v * sqn0);
      try v <- rd ldp i_off;
      try ldp <- wr ldp i_off (v * sqn0);
      try q <- rd psqrt (2 * i);
      try r <- rd prsqrt (i + 1);
      let sqn1 := sqn0 * q * r in
      try v <- rd lp (i_off + 1);
      try lp <- wr lp (i_off + 1) (v * sqn1);
      try v <- rd ldp (i_off + 1);
      try ldp <- wr ldp (i_off + 1) (v * sqn1);
      try (lp, ldp, _) <-
        loopb 2 i (fun j '(lp, ldp, sqn1) =>
          try q <- rd psqrt (i - j + 1);
          try r <- rd prsqrt (i + j);
          let sqn1 := sqn1 * (q * r) in
          try v <- rd lp (i_off + j);
          try lp <- wr lp (i_off + j) (v * sqn1);
          try v <- rd ldp (i_off + j);
          try ldp <- wr ldp (i_off + j) (v * sqn1);
          Some (lp, ldp, sqn1)) (lp, ldp, sqn1);
      Some (lp, ldp, sqn0)) (lp, ldp, 1);
  Some (lp, ldp).

(** spherical_harmonics.h:182-252 *)
Definition b_legendre_high (lp ldp : buf R) (degree : nat) (sin_elv cos_elv : R)
  (psqrt prsqrt : buf R) : option (buf R * buf R) :=
  let scale := SHC_LEG_HIGH_SCALE in
  let rscale := 1 / SHC_LEG_HIGH_SCALE in
  let rcos_elv := 1 / cos_elv in
  try lp <- wr lp 0 1;
  try lp <- wr lp 1 sin_elv;
  try ldp <- wr ldp 0 0;
  try ldp <- wr ldp 1 cos_elv;
  try (lp, ldp, _, _, _) <-
    loopb 2 degree (fun i '(lp, ldp, idx, pm2, pm1) =>
      let f1 := INR (2 * i - 1) / INR i in
      let f2 := INR (i - 1) / INR i in
      let pm0 := f1 * sin_elv * pm1 - f2 * pm2 in
      try lp <- wr lp idx pm0;
      try ldp <- wr ldp idx (INR i * rcos_elv * (pm1 - sin_elv * pm0));
      Some (lp, ldp, (idx + (i + 1))%nat, pm1, pm0)) (lp, ldp, 3%nat, 1, sin_elv);
  try q <- rd psqrt 2;
  let pmm := rscale * q in
  let pow_cos_elv := scale in
  try (lp, ldp, idx0, pmm, pow_cos_elv) <-
    loopb 1 (degree - 1) (fun j '(lp, ldp, idx0, pmm, pow_cos_elv) =>
      let pow_cos_elv_last := pow_cos_elv in
      let pow_cos_elv := pow_cos_elv * cos_elv in
      try q <- rd psqrt (2 * j + 1);
      try r <- rd prsqrt (2 * j);
      let pmm := pmm * (q * r) in
      try r <- rd prsqrt (2 * j + 1);
      let pm2 := pmm * r in
      let pm1 := sin_elv * pmm in
      try lp <- wr lp idx0 (pow_cos_elv * pm2);
      try ldp <- wr ldp idx0 (- pow_cos_elv_last * (INR j * sin_elv * pm2));
      let idx := (idx0 + j + 1)%nat in
      try lp <- wr lp idx (pow_cos_elv * pm1);
      try ldp <- wr ldp idx (- pow_cos_elv_last * (INR (j + 1) * sin_elv * pm1 - pmm));
      try (lp, ldp, _, _, _) <-
        loopb (j + 2) degree (fun i '(lp, ldp, idx, pm2, pm1) =>
          try q0 <- rd psqrt (i + j);
          try q1 <- rd psqrt (i - j);
          let f0 := q0 * q1 in
          try r0 <- rd prsqrt (i + j);
          try r1 <- rd prsqrt (i - j);
          let rf0 := r0 * r1 in
          let f1 := INR (2 * i - 1) in
          try q2 <- rd psqrt (i - j - 1);
          try q3 <- rd psqrt (i + j - 1);
          let f2 := q2 * q3 in
          let plm := (f1 * sin_elv * pm1 - f2 * pm2) * rf0 in
          try lp <- wr lp idx (pow_cos_elv * plm);
          try ldp <- wr ldp idx (- pow_cos_elv_last * (INR i * sin_elv * plm - f0 * pm1));
          Some (lp, ldp, (idx + (i + 1))%nat, pm1, plm)) (lp, ldp, (idx + (j + 2))%nat, pm2, pm1);
      Some (lp, ldp, (idx0 + (j + 1 + 1))%nat, pmm, pow_cos_elv)) (lp, ldp, 2%nat, pmm, pow_cos_elv);
  let j := Nat.max 1 degree in
  try r <- rd prsqrt (2 * j);
  let pm2 := pmm * r in
  try lp <- wr lp idx0 (pow_cos_elv * cos_elv * pm2);
  try ldp <- wr ldp idx0 (- pow_cos_elv * (INR j * sin_elv * pm2));
  Some (lp, ldp).

(** spherical_harmonics.h:270-282 *)
Definition b_legendre (lp ldp : buf R) (degree : nat) (elv : R) (psqrt prsqrt : buf R)
  : option (buf R * buf R) :=
  let sin_elv := sin elv in
  let cos_elv := sqrt ((1 - sin_elv) * (1 + sin_elv)) in
  if Nat.leb degree 16 || Rltb (Rabs cos_elv) (1 / 10 ^ 10)
  then b_legendre_low lp ldp degree sin_elv cos_elv psqrt prsqrt
  else b_legendre_high lp ldp degree sin_elv cos_elv psqrt prsqrt.

(** spherical_harmonics.h:295-306 *)
Definition b_relradpow_internal (rrp : buf R) (degree : nat) (relrad : R) : option (buf R) :=
  let rr := 1 / relrad in
  try (rrp, _) <-
    loopb 0 degree (fun i '(rrp, rrp_last) =>
      let rrp_last := rrp_last * rr in
      try rrp <- wr rrp i rrp_last; Some (rrp, rrp_last)) (rrp, rr);
  Some rrp.

(** spherical_harmonics.h:319-335 *)
Definition b_relradpow_external (rrp : buf R) (degree : nat) (relrad : R) : option (buf R) :=
  let rrp_val := 1 in
  try rrp <- wr rrp 0 (rrp_val / relrad);
  try rrp <- (if Nat.leb 1 degree then wr rrp 1 rrp_val else Some rrp);
  try (rrp, _) <-
    loopb 2 degree (fun i '(rrp, rrp_val) =>
      let rrp_val := rrp_val * relrad in
      try rrp <- wr rrp i rrp_val; Some (rrp, rrp_val)) (rrp, rrp_val);
  Some rrp.

(** fourier_series.h:54-86 *)
Definition b_cos_sin (cos_sin_ix : buf (R * R)) (n : nat) (x : R) : option (buf (R * R)) :=
  try cos_sin_ix <- wr cos_sin_ix 0 (1, 0);
  if Nat.leb 1 n then
    let cos_x := cos x in
    let sin_x := sin x in
    try cos_sin_ix <- wr cos_sin_ix 1 (cos_x, sin_x);
    try (cos_sin_ix, _) <-
      loopb 2 n (fun i '(cos_sin_ix, (cos_ix, sin_ix)) =>
        let cos_ix_new := cos_ix * cos_x - sin_ix * sin_x in
        let sin_ix_new := cos_ix * sin_x + sin_ix * cos_x in
        try cos_sin_ix <- wr cos_sin_ix i (cos_ix_new, sin_ix_new);
        Some (cos_sin_ix, (cos_ix_new, sin_ix_new)))
      (cos_sin_ix, (cos_x, sin_x));
    Some cos_sin_ix
  else Some cos_sin_ix.

(** spherical_harmonics.h:352-383 *)
Definition b_eval_v (degree : nat) (rad : R) (coef lcs : buf (R * R)) (lp rrp : buf R) : option R :=
  try c <- rd coef 0;
  try rr <- rd rrp 0;
  let vpot := fst c * rr in
  try vpot <-
    loopb 1 degree (fun i vpot =>
      let i_off := (i * (i + 1) / 2)%nat in
      try c <- rd coef i_off;
      try p <- rd lp i_off;
      let vpot_i := fst c * p in
      try vpot_i <-
        loopb 1 i (fun j vpot_i =>
          let idx := (i_off + j)%nat in
          try c <- rd coef idx;
          try cs <- rd lcs j;
          try p <- rd lp (i_off + j);
          let tmp := fst c * fst cs + snd c * snd cs in
          Some (vpot_i + tmp * p)) vpot_i;
      try rr <- rd rrp i;
      Some (vpot + rr * vpot_i)) vpot;
  Some (vpot * rad).

(** spherical_harmonics.h:401-436 *)
Definition b_eval_dvaz_pole (degree : nat) (elv : R) (coef lcs : buf (R * R)) (rrp : buf R) : option R :=
  let sin_elv := sin elv in
  try cs1 <- rd lcs 1;
  let lcos1 := fst cs1 in
  let lsin1 := snd cs1 in
  try c2 <- rd coef 2;
  try rr1 <- rd rrp 1;
  let dvaz := (fst c2 * lsin1 - snd c2 * lcos1) * rr1 in
  try (_, _, _, dvaz) <-
    loopb 2 degree (fun i '(sqn1, ps1, ps0, dvaz) =>
      let idx := (1 + i * (i + 1) / 2)%nat in
      let tmp := INR ((i - 1) * (i - 1) - 1) / INR ((2 * i - 1) * (2 * i - 3)) in
      let sqn1 := sqn1 * (INR (2 * i - 1) / INR i) in
      let sqn3 := sqn1 * sqrt (INR (i * 2) / INR (i + 1)) in
      let ps2 := ps1 in
      let ps1 := ps0 in
      let ps0 := sin_elv * ps1 - tmp * ps2 in
      try c <- rd coef idx;
      try rr <- rd rrp i;
      Some (sqn1, ps1, ps0, dvaz + (fst c * lsin1 - snd c * lcos1) * rr * ps0 * sqn3))
      (1, 1, 1, dvaz);
  Some (- dvaz).

(** spherical_harmonics.h:458-516 *)
Definition b_eval_dv (degree : nat) (elv : R) (coef lcs : buf (R * R)) (lp ldp rrp : buf R)
  (is_internal : bool) : option (R * R * R) :=
  let cos_elv := cos elv in
  let dr_scale := if is_internal then 1 else -1 in
  let dr_offset := if is_internal then 1%nat else 0%nat in
  try c <- rd coef 0;
  try rr <- rd rrp 0;
  let tmp := fst c * rr in
  let i_dr := dr_scale * INR dr_offset in
  try (dvel, dvaz, dvrd) <-
    loopb 1 degree (fun i '(dvel, dvaz, dvrd) =>
      let i_off := (i * (i + 1) / 2)%nat in
      let i_dr := dr_scale * INR (i + dr_offset) in
      try c <- rd coef i_off;
      try d <- rd ldp i_off;
      try p <- rd lp i_off;
      try (dvel_i, dvaz_i, dvrd_i) <-
        loopb 1 i (fun j '(dvel_i, dvaz_i, dvrd_i) =>
          let idx := (i_off + j)%nat in
          try c <- rd coef idx;
          try cs <- rd lcs j;
          try d <- rd ldp idx;
          try p <- rd lp idx;
          let tmp0 := fst c * fst cs + snd c * snd cs in
          let tmp1 := fst c * snd cs - snd c * fst cs in
          Some (dvel_i + tmp0 * d, dvaz_i + tmp1 * p * INR j, dvrd_i + tmp0 * p * i_dr))
          (fst c * d, 0, fst c * p * i_dr);
      try rr <- rd rrp i;
      Some (dvel + rr * dvel_i, dvaz - rr * dvaz_i, dvrd - rr * dvrd_i))
      (0, 0, - tmp * i_dr);
  try dvaz <- (if Nat.ltb 0 degree && Rltb (Rabs cos_elv) (1 / 10 ^ 10)
               then b_eval_dvaz_pole degree elv coef lcs rrp else Some (dvaz / cos_elv));
  Some (dvel, dvaz, dvrd).

(** spherical_harmonics.h:541-605 *)
Definition b_eval_v_dv (degree : nat) (elv rad : R) (coef lcs : buf (R * R)) (lp ldp rrp : buf R)
  (is_internal : bool) : option (R * (R * R * R)) :=
  let cos_elv := cos elv in
  let dr_scale := if is_internal then 1 else -1 in
  let dr_offset := if is_internal then 1%nat else 0%nat in
  try c <- rd coef 0;
  try rr <- rd rrp 0;
  let tmp := fst c * rr in
  let i_dr := dr_scale * INR dr_offset in
  try (vpot, dvel, dvaz, dvrd) <-
    loopb 1 degree (fun i '(vpot, dvel, dvaz, dvrd) =>
      let i_off := (i * (i + 1) / 2)%nat in
      let i_dr := dr_scale * INR (i + dr_offset) in
      try c <- rd coef i_off;
      try d <- rd ldp i_off;
      try p <- rd lp i_off;
      try (vpot_i, dvel_i, dvaz_i, dvrd_i) <-
        loopb 1 i (fun j '(vpot_i, dvel_i, dvaz_i, dvrd_i) =>
          let idx := (i_off + j)%nat in
          try c <- rd coef idx;
          try cs <- rd lcs j;
          try d <- rd ldp idx;
          try p <- rd lp idx;
          let tmp0 := fst c * fst cs + snd c * snd cs in
          let tmp1 := fst c * snd cs - snd c * fst cs in
          Some (vpot_i + tmp0 * p,
                dvel_i + tmp0 * d, dvaz_i + tmp1 * p * INR j, dvrd_i + tmp0 * p * i_dr))
          (fst c * p, fst c * d, 0, fst c * p * i_dr);
      try rr <- rd rrp i;
      Some (vpot + rr * vpot_i, dvel + rr * dvel_i, dvaz - rr * dvaz_i, dvrd - rr * dvrd_i))
      (tmp, 0, 0, - tmp * i_dr);
  try dvaz <- (if Nat.ltb 0 degree && Rltb (Rabs cos_elv) (1 / 10 ^ 10)
               then b_eval_dvaz_pole degree elv coef lcs rrp else Some (dvaz / cos_elv));
  Some (vpot * rad, (dvel, dvaz, dvrd)).

(** spherical_harmonics.h:634-663 *)
Definition b_eval (degree : nat) (mode : sheval_mode) (elv rad : R) (coef lcs : buf (R * R))
  (lp ldp rrp : buf R) (is_internal : bool) : option (option R * option (R * R * R)) :=
  match mode with
  | SM_POTENTIAL => try v <- b_eval_v degree rad coef lcs lp rrp; Some (Some v, None)
  | SM_GRADIENT => try dv <- b_eval_dv degree elv coef lcs lp ldp rrp is_internal; Some (None, Some dv)
  | SM_POTENTIAL_AND_GRADIENT =>
      try (v, dv) <- b_eval_v_dv degree elv rad coef lcs lp ldp rrp is_internal; Some (Some v, Some dv)
  end.

(** pymm_sheval.h:73-94: the fields of the configuration without the tables of the square roots,
    which are in the state; [None] is NaN *)
Record buf_state := {
  bs_clat_last : option R;
  bs_clon_last : option R;
  bs_crad_last : option R;
  bs_lp : buf R;
  bs_ldp : buf R;
  bs_lcs : buf (R * R);
  bs_rrp : buf R;
  bs_psqrt : buf R;
  bs_prsqrt : buf R
}.

(** pymm_sheval.h:501-597; the fields [psqrt] and [prsqrt] of [cfg] are not used *)
Definition b_model_eval (cfg : model_cfg) (mode : sheval_mode) (xyz : R * R * R) (coeff : buf (R * R))
  (st : buf_state) : option (option R * option (R * R * R) * buf_state) :=
  let '(x, y, z) := xyz in
  let '(clat, clon, crad, glat) := input_coordinates cfg x y z in
  try (lp', ldp') <-
    (if neq_last (bs_clat_last st) clat
     then b_legendre (bs_lp st) (bs_ldp st) (degree cfg) clat (bs_psqrt st) (bs_prsqrt st)
     else Some (bs_lp st, bs_ldp st));
  try lcs' <- (if neq_last (bs_clon_last st) clon then b_cos_sin (bs_lcs st) (degree cfg) clon
               else Some (bs_lcs st));
  try rrp' <-
    (if neq_last (bs_crad_last st) crad
     then (if is_internal cfg then b_relradpow_internal else b_relradpow_external)
            (bs_rrp st) (degree cfg) (crad / crad_ref cfg)
     else Some (bs_rrp st));
  let st' := {| bs_clat_last := Some clat; bs_clon_last := Some clon; bs_crad_last := Some crad;
                bs_lp := lp'; bs_ldp := ldp'; bs_lcs := lcs'; bs_rrp := rrp';
                bs_psqrt := bs_psqrt st; bs_prsqrt := bs_prsqrt st |} in
  try (fpot, fgrd) <-
    b_eval (degree cfg) mode clat crad coeff lcs' lp' ldp' rrp' (is_internal cfg);
  Some (match fpot with Some v => Some (v * scale_potential cfg) | None => None end,
        match fgrd with
        | Some grd =>
            match project_gradient cfg clat clon glat grd with
            | Some (fx, fy, fz) =>
                Some (fx * scale_gradient0 cfg, fy * scale_gradient1 cfg, fz * scale_gradient2 cfg)
            | None => None
            end
        | None => None
        end,
        st').

(** pymm_sheval.h:625-692, the allocations *)
Definition b_model_init (degree : nat) : option buf_state :=
  let nterm := ((degree + 1) * (degree + 2) / 2)%nat in
  try psqrt <- b_presqrt degree;
  try prsqrt <- b_prersqrt degree;
  Some {| bs_clat_last := None; bs_clon_last := None; bs_crad_last := None;
          bs_lp := malloc nterm; bs_ldp := malloc nterm;
          bs_lcs := malloc (degree + 1); bs_rrp := malloc (degree + 1);
          bs_psqrt := psqrt; bs_prsqrt := prsqrt |}.

(** pymm_sheval.h:391-497 *)
Fixpoint b_sheval_items (cfg : model_cfg) (mode : sheval_mode) (odims : list nat)
  (x : nd (R * R * R)) (coef : nd (buf (R * R))) (st : buf_state)
  : option (list (option R * option (R * R * R)) * buf_state) :=
  match odims with
  | [] => try (out, st') <- b_model_eval cfg mode (get x []) (get coef []) st; Some ([out], st')
  | d :: ds =>
      (fix items (is : list nat) (st : buf_state) :=
         match is with
         | [] => Some ([], st)
         | i :: is' =>
             try (o, st1) <- b_sheval_items cfg mode ds (nd_item x i) (nd_item coef i) st;
             try (os, st2) <- items is' st1;
             Some (o ++ os, st2)
         end) (seq 0 d) st
  end.

(** pymm_sheval.h:144-360; [csize] is the second last dimension of the coefficients *)
Definition b_sheval (x : nd (R * R * R)) (csize : Z) (coef : nd (buf (R * R)))
  (ct_in ct_out : coord_type) (mode : sheval_mode) (internal : bool) (degree : Z)
  (scale_pot : R) (scale_grd : R * R * R)
  : option (result (list nat * list (option R * option (R * R * R)))) :=
  let max_degree := size_to_degree csize in
  if (max_degree <? 0)%Z then Some (Err ValueError)
  else if (2147483647 <? max_degree)%Z && (degree <? 0)%Z then Some (Err ValueError)
  else
  let degree := if (degree <? 0)%Z || (max_degree <? degree)%Z then max_degree else degree in
  let odims := if Nat.ltb (length (dims x)) (length (dims coef)) then dims coef else dims x in
  if compare_dimensions odims (dims x) || compare_dimensions odims (dims coef) then Some (Err ValueError)
  else
  let '(s0, s1, s2) := scale_grd in
  let cfg := {| is_internal := internal; ShEvalModel.degree := Z.to_nat degree; coord_in := ct_in; coord_out := ct_out;
                elps_a := WGS84_A; elps_eps2 := WGS84_EPS2; crad_ref := 6371.2;
                scale_potential := scale_pot;
                scale_gradient0 := s0; scale_gradient1 := s1; scale_gradient2 := s2;
                psqrt := fun _ => 0; prsqrt := fun _ => 0 |} in
  try st <- b_model_init (Z.to_nat degree);
  try (out, _) <- b_sheval_items cfg mode odims x coef st;
  Some (Ok (odims, out)).

(** The calls of _model_eval (pymm_sheval.h:501-597) on one model: what the loops of pymm_sheval.h,
    pymm_shevaltemp.h:436-542 and pymm_sheval2dfs.h do with the buffers of the model, whatever the
    positions and the coefficients are *)
Fixpoint b_evals (cfg : model_cfg) (mode : sheval_mode) (items : list ((R * R * R) * buf (R * R)))
  (st : buf_state) : option (list (option R * option (R * R * R))) :=
  match items with
  | [] => Some []
  | (xyz, coeff) :: items' =>
      try (o, st') <- b_model_eval cfg mode xyz coeff st;
      try os <- b_evals cfg mode items' st';
      Some (o :: os)
  end.
