(** Model of the arithmetic of the C type int in the evaluation of the spherical harmonics:
    the functions of LegendreModel and ShEvalModel which calculate with int, again, with the
    operations of the C code, in their order.  What the operations give when their exact result
    does not fit in 32 bits is not defined by C: it is a parameter.  The arrays have no end
    (BufModel has the buffers), but a negative index is [None].  The type npy_intp, size_t and
    ptrdiff_t of 64 bits do not overflow: the arrays fit in memory. *)

From Coq Require Import Bool List Reals Arith ZArith.
From Verif Require Import ArrModel LegendreModel GeoModel SizeModel CoefModel ShEvalModel BufModel TempModel.
Import ListNotations.

(** ** Operations *)

(** C expressions of the type int *)
Inductive iexp :=
| Num (z : Z)
| Add (a b : iexp)
| Sub (a b : iexp)
| Mul (a b : iexp)
| Half (a : iexp).      (* a/2 *)
Coercion Num : Z >-> iexp.
Declare Scope cint_scope.
Delimit Scope cint_scope with cint.
Bind Scope cint_scope with iexp.
Arguments Add _%cint _%cint.
Arguments Sub _%cint _%cint.
Arguments Mul _%cint _%cint.
Arguments Half _%cint.
Notation "a + b" := (Add a b) : cint_scope.
Notation "a - b" := (Sub a b) : cint_scope.
Notation "a * b" := (Mul a b) : cint_scope.

(** the result of an operation, given its exact result; [None] is undefined behaviour *)
Definition machine := Z -> option Z.

(** a machine which stops at an overflow, as with -ftrapv or -fsanitize=undefined: what C leaves undefined *)
Definition trapping : machine :=
  fun x => if ((- 2 ^ 31 <=? x) && (x <? 2 ^ 31))%Z then Some x else None.

(** a machine of which the integers wrap around, as with -fwrapv *)
Definition wrap32 (x : Z) : Z := ((x + 2 ^ 31) mod 2 ^ 32 - 2 ^ 31)%Z.
Definition wrapping : machine := fun x => Some (wrap32 x).

(** The value of an expression *)
Fixpoint ev (ar : machine) (e : iexp) : option Z :=
  match e with
  | Num z => Some z
  | Add a b => try x <- ev ar a; try y <- ev ar b; ar (x + y)%Z
  | Sub a b => try x <- ev ar a; try y <- ev ar b; ar (x - y)%Z
  | Mul a b => try x <- ev ar a; try y <- ev ar b; ar (x * y)%Z
  | Half a => try x <- ev ar a; ar (Z.quot x 2)
  end.

(** The value of an index *)
Definition ix (ar : machine) (e : iexp) : option nat :=
  try z <- ev ar e; if (z <? 0)%Z then None else Some (Z.to_nat z).

(** for (i = lo; i <= hi; ++i), with the increment after each pass *)
Definition loopi {S : Type} (ar : machine) (lo hi : nat) (body : Z -> S -> option S) (s : S) : option S :=
  fold_left (fun s i =>
      try s <- s;
      try s <- body (Z.of_nat i) s;
      try _ <- ev ar (Z.of_nat i + 1%Z)%cint;
      Some s) (seq lo (Datatypes.S hi - lo)) (Some s).

(** ** Legendre functions *)

(** spherical_harmonics.h:45-60: nval, and the loop of i < nval *)
Definition i_presqrt (ar : machine) (degree : nat) (buf : arr) : option arr :=
  try nval <- ix ar (2%Z * Z.of_nat degree + 2%Z)%cint;
  loopi ar 0 (nval - 1) (fun i psqrt => try k <- ix ar i; Some (upd psqrt k (sqrt (IZR i)))) buf.

(** spherical_harmonics.h:71-86 *)
Definition i_prersqrt (ar : machine) (degree : nat) (buf : arr) : option arr :=
  try nval <- ix ar (2%Z * Z.of_nat degree + 2%Z)%cint;
  loopi ar 0 (nval - 1) (fun i prsqrt => try k <- ix ar i; Some (upd prsqrt k (1 / sqrt (IZR i))%R)) buf.

Open Scope R_scope.

(** spherical_harmonics.h:98-168 *)
Definition i_legendre_low (ar : machine) (lp ldp : arr) (degree : nat) (sin_elv cos_elv : R)
  (psqrt prsqrt : arr) : option (arr * arr) :=
  (* 106-112 *)
  let lp := upd (upd (upd lp 0 1) 1 sin_elv) 2 cos_elv in
  let ldp := upd (upd (upd ldp 0 0) 1 cos_elv) 2 (- sin_elv) in
  (* 114-142 *)
  try (lp, ldp) <-
    loopi ar 2 degree (fun i '(lp, ldp) =>
      try i_off <- ev ar (Half (i * (i + 1%Z)));
      try i1sq <- ev ar ((i - 1%Z) * (i - 1%Z));
      try dnm <- ev ar ((2%Z * i - 1%Z) * (2%Z * i - 3%Z));
      let w_dnm := 1 / IZR dnm in
      try _ <- ev ar (i - 1%Z);
      try (lp, ldp) <-
        loopi ar 0 (Z.to_nat i - 2) (fun j '(lp, ldp) =>     (* j < i-1 *)
          try idx0 <- ix ar (i_off + j);
          try idx1 <- ix ar (i_off + j - i);
          try idx2 <- ix ar (i_off + j - i - i + 1%Z);
          try num <- ev ar (i1sq - j * j);
          let w := w_dnm * IZR num in
          let lp' := upd lp idx0 (sin_elv * lp idx1 - w * lp idx2) in
          let ldp' := upd ldp idx0
                        (sin_elv * ldp idx1 - w * ldp idx2 + cos_elv * lp' idx1) in
          Some (lp', ldp')) (lp, ldp);
      try idx0 <- ix ar (i_off + i);
      try idx1 <- ix ar (i_off - 1%Z);
      try idx01 <- ix ar (i_off + i - 1%Z);
      let lp := upd lp idx01 (sin_elv * lp idx1) in
      let ldp := upd ldp idx01 (sin_elv * ldp idx1 + cos_elv * lp idx1) in
      let lp := upd lp idx0 (cos_elv * lp idx1) in
      let ldp := upd ldp idx0 (cos_elv * ldp idx1 - sin_elv * lp idx1) in
      Some (lp, ldp)) (lp, ldp);
  (* 145-167 *)
  try (lp, ldp, _) <-
    loopi ar 2 degree (fun i '(lp, ldp, sqn0) =>
      try i_off <- ev ar (Half (i * (i + 1%Z)));
      try off0 <- ix ar i_off;
      try f <- ev ar (2%Z * i - 1%Z);
      let sqn0 := sqn0 * (IZR f / IZR i) in
      let lp := upd lp off0 (lp off0 * sqn0) in
      let ldp := upd ldp off0 (ldp off0 * sqn0) in
      try k2 <- ix ar (2%Z * i);
      try k1 <- ix ar (i + 1%Z);
      let sqn1 := sqn0 * psqrt k2 * prsqrt k1 in
      try off1 <- ix ar (i_off + 1%Z);
      let lp := upd lp off1 (lp off1 * sqn1) in
      let ldp := upd ldp off1 (ldp off1 * sqn1) in
      try (lp, ldp, _) <-
        loopi ar 2 (Z.to_nat i) (fun j '(lp, ldp, sqn1) =>
          try a <- ix ar (i - j + 1%Z);
          try b <- ix ar (i + j);
          let sqn1 := sqn1 * (psqrt a * prsqrt b) in
          try off <- ix ar (i_off + j);
          let lp := upd lp off (lp off * sqn1) in
          let ldp := upd ldp off (ldp off * sqn1) in
          Some (lp, ldp, sqn1)) (lp, ldp, sqn1);
      Some (lp, ldp, sqn0)) (lp, ldp, 1);
  Some (lp, ldp).

(** spherical_harmonics.h:182-252; j after its loop is the maximum of 1 and the degree *)
Definition i_legendre_high (ar : machine) (lp ldp : arr) (degree : nat) (sin_elv cos_elv : R)
  (psqrt prsqrt : arr) : option (arr * arr) :=
  let scale := SHC_LEG_HIGH_SCALE in
  let rscale := 1 / SHC_LEG_HIGH_SCALE in
  let rcos_elv := 1 / cos_elv in
  let lp := upd (upd lp 0 1) 1 sin_elv in                      (* 192-193 *)
  let ldp := upd (upd ldp 0 0) 1 cos_elv in                    (* 195-196 *)
  try (lp, ldp, _, _, _) <-                                    (* 198-208 *)
    loopi ar 2 degree (fun i '(lp, ldp, idx, pm2, pm1) =>
      try n1 <- ev ar (2%Z * i - 1%Z);
      try n2 <- ev ar (i - 1%Z);
      let f1 := IZR n1 / IZR i in
      let f2 := IZR n2 / IZR i in
      let pm0 := f1 * sin_elv * pm1 - f2 * pm2 in
      try k <- ix ar (Num idx);
      let lp := upd lp k pm0 in
      let ldp := upd ldp k (IZR i * rcos_elv * (pm1 - sin_elv * pm0)) in
      try idx <- ev ar (idx + (i + 1%Z));
      Some (lp, ldp, idx, pm1, pm0)) (lp, ldp, 3%Z, 1, sin_elv);
  let pmm := rscale * psqrt 2%nat in                           (* 210 *)
  let pow_cos_elv := scale in                                  (* 211 *)
  try (lp, ldp, idx0, pmm, pow_cos_elv) <-                     (* 213-246 *)
    loopi ar 1 (degree - 1) (fun j '(lp, ldp, idx0, pmm, pow_cos_elv) =>
      let pow_cos_elv_last := pow_cos_elv in
      let pow_cos_elv := pow_cos_elv * cos_elv in
      try j21 <- ix ar (2%Z * j + 1%Z);
      try j2 <- ix ar (2%Z * j);
      let pmm := pmm * (psqrt j21 * prsqrt j2) in
      let pm2 := pmm * prsqrt j21 in
      let pm1 := sin_elv * pmm in
      try k <- ix ar (Num idx0);
      let lp := upd lp k (pow_cos_elv * pm2) in
      let ldp := upd ldp k (- pow_cos_elv_last * (IZR j * sin_elv * pm2)) in
      try idx <- ev ar (idx0 + j + 1%Z);
      try k <- ix ar (Num idx);
      try j1 <- ev ar (j + 1%Z);
      let lp := upd lp k (pow_cos_elv * pm1) in
      let ldp := upd ldp k (- pow_cos_elv_last * (IZR j1 * sin_elv * pm1 - pmm)) in
      try idx <- ev ar (idx + (j + 2%Z));
      try (lp, ldp, _, _, _) <-
        loopi ar (Z.to_nat j + 2) degree (fun i '(lp, ldp, idx, pm2, pm1) =>
          try ipj <- ix ar (i + j);
          try imj <- ix ar (i - j);
          try imj1 <- ix ar (i - j - 1%Z);
          try ipj1 <- ix ar (i + j - 1%Z);
          let f0 := psqrt ipj * psqrt imj in
          let rf0 := prsqrt ipj * prsqrt imj in
          try n1 <- ev ar (2%Z * i - 1%Z);
          let f1 := IZR n1 in
          let f2 := psqrt imj1 * psqrt ipj1 in
          let plm := (f1 * sin_elv * pm1 - f2 * pm2) * rf0 in
          try k <- ix ar (Num idx);
          let lp := upd lp k (pow_cos_elv * plm) in
          let ldp := upd ldp k (- pow_cos_elv_last * (IZR i * sin_elv * plm - f0 * pm1)) in
          try idx <- ev ar (idx + (i + 1%Z));
          Some (lp, ldp, idx, pm1, plm)) (lp, ldp, idx, pm2, pm1);
      try idx0 <- ev ar (idx0 + (j + 1%Z + 1%Z));
      Some (lp, ldp, idx0, pmm, pow_cos_elv)) (lp, ldp, 2%Z, pmm, pow_cos_elv);
  let j := Z.max 1 (Z.of_nat degree) in
  try j2 <- ix ar (2%Z * j);
  let pm2 := pmm * prsqrt j2 in                                (* 248 *)
  try k <- ix ar (Num idx0);
  let lp := upd lp k (pow_cos_elv * cos_elv * pm2) in          (* 250 *)
  let ldp := upd ldp k (- pow_cos_elv * (IZR j * sin_elv * pm2)) in
  Some (lp, ldp).

(** spherical_harmonics.h:270-282 *)
Definition i_legendre (ar : machine) (lp ldp : arr) (degree : nat) (elv : R) (psqrt prsqrt : arr)
  : option (arr * arr) :=
  let sin_elv := sin elv in
  let cos_elv := sqrt ((1 - sin_elv) * (1 + sin_elv)) in
  if Nat.leb degree 16 || Rltb (Rabs cos_elv) (1 / 10 ^ 10)
  then i_legendre_low ar lp ldp degree sin_elv cos_elv psqrt prsqrt
  else i_legendre_high ar lp ldp degree sin_elv cos_elv psqrt prsqrt.

(** pymm_legendre.h:170-203 *)
Fixpoint i_legendre_items (ar : machine) (lats : list R) (off size degree : nat) (psqrt prsqrt : arr)
  (p dp : arr) : option (arr * arr) :=
  match lats with
  | nil => Some (p, dp)
  | cons lat lats' =>
      try (p', dp') <- i_legendre ar (ptr p off) (ptr dp off) degree (lat * DG2RAD) psqrt prsqrt;
      i_legendre_items ar lats' (off + size) size degree psqrt prsqrt (unptr p off p') (unptr dp off dp')
  end.

(** pymm_legendre.h:65-163, legendre(latitude, degree); the size of the output, line 105, is of the type
    npy_intp *)
Definition i_legendre_call (ar : machine) (lats : list R) (degree : nat) (mem : arr * arr) (junk : arr)
  : option (arr * arr) :=
  try psqrt <- i_presqrt ar degree junk;
  try prsqrt <- i_prersqrt ar degree junk;
  i_legendre_items ar lats 0 ((degree + 1) * (degree + 2) / 2) degree psqrt prsqrt (fst mem) (snd mem).

(** ** Radial series *)

(** spherical_harmonics.h:295-306 *)
Definition i_relradpow_internal (ar : machine) (rrp : arr) (degree : nat) (relrad : R) : option arr :=
  let rr := 1 / relrad in
  try (rrp, _) <-
    loopi ar 0 degree (fun i '(rrp, rrp_last) =>
         let rrp_last := rrp_last * rr in
         try k <- ix ar i; Some (upd rrp k rrp_last, rrp_last)) (rrp, rr);
  Some rrp.

(** spherical_harmonics.h:319-335 *)
Definition i_relradpow_external (ar : machine) (rrp : arr) (degree : nat) (relrad : R) : option arr :=
  let rrp_val := 1 in
  let rrp := upd rrp 0 (rrp_val / relrad) in
  let rrp := if Nat.leb 1 degree then upd rrp 1 rrp_val else rrp in
  try (rrp, _) <-
    loopi ar 2 degree (fun i '(rrp, rrp_val) =>
         let rrp_val := rrp_val * relrad in
         try k <- ix ar i; Some (upd rrp k rrp_val, rrp_val)) (rrp, rrp_val);
  Some rrp.

(** pymm_relradpow.h:156-186 *)
Definition i_relradpow_item (ar : machine) (degree : nat) (reference : R) (is_internal : bool) (radius : R)
  (rrp : arr) : option arr :=
  (if is_internal then i_relradpow_internal else i_relradpow_external) ar rrp degree (radius / reference).

(** ** Allocation of a model *)

(** pymm_sheval.h:629, nterm *)
Definition i_nterm (ar : machine) (degree : Z) : option Z :=
  ev ar (Half ((degree + 1%Z) * (degree + 2%Z))).

(** n*sizeof(type) of the type size_t, for n of the type int *)
Definition bytes (n size : Z) : Z := ((n mod 2 ^ 64) * size mod 2 ^ 64)%Z.

(** pymm_sheval.h:648-680 with spherical_harmonics.h:47, 49, 73 and 75: the arguments of malloc for
    lp, ldp, lcs, rrp, psqrt and prsqrt *)
Definition i_sizes (ar : machine) (degree : Z) : option (list Z) :=
  try nterm <- i_nterm ar degree;
  try n1 <- ev ar (degree + 1%Z);
  try nval <- ev ar (2%Z * degree + 2%Z);
  Some [bytes nterm 8; bytes nterm 8; bytes n1 16; bytes n1 8; bytes nval 8; bytes nval 8].

(** pymm_sheval.h:625-692 *)
Definition i_model_init (ar : machine) (internal : bool) (degree : nat) (coord_in coord_out : coord_type)
  (scale_pot : R) (scale_grd : R * R * R) (mem : arr * arr * coefs * arr * arr * arr)
  : option (model_cfg * model_state) :=
  let '(m_lp, m_ldp, m_lcs, m_rrp, m_psqrt, m_prsqrt) := mem in
  let '(s0, s1, s2) := scale_grd in
  try _ <- i_sizes ar (Z.of_nat degree);
  try psqrt <- i_presqrt ar degree m_psqrt;
  try prsqrt <- i_prersqrt ar degree m_prsqrt;
  Some ({| is_internal := internal; degree := degree; coord_in := coord_in; coord_out := coord_out;
      elps_a := WGS84_A; elps_eps2 := WGS84_EPS2; crad_ref := 6371.2;
      scale_potential := scale_pot;
      scale_gradient0 := s0; scale_gradient1 := s1; scale_gradient2 := s2;
      psqrt := psqrt; prsqrt := prsqrt |},
   {| clat_last := None; clon_last := None; crad_last := None;
      lp := m_lp; ldp := m_ldp; lcs := m_lcs; rrp := m_rrp |}).

(** ** Evaluation *)

(** pymm_sheval.h:501-597; fs_cos_sin and shc_eval calculate with size_t *)
Definition i_model_eval (ar : machine) (cfg : model_cfg) (mode : sheval_mode) (xyz : R * R * R) (coeff : coefs)
  (st : model_state) : option (option R * option (R * R * R) * model_state) :=
  let '(x, y, z) := xyz in
  let '(clat, clon, crad, glat) := input_coordinates cfg x y z in
  try (lp', ldp') <-
    (if neq_last (clat_last st) clat
     then i_legendre ar (lp st) (ldp st) (degree cfg) clat (psqrt cfg) (prsqrt cfg)
     else Some (lp st, ldp st));
  let lcs' := if neq_last (clon_last st) clon then fs_cos_sin (lcs st) (degree cfg) clon else lcs st in
  try rrp' <-
    (if neq_last (crad_last st) crad
     then (if is_internal cfg then i_relradpow_internal else i_relradpow_external)
            ar (rrp st) (degree cfg) (crad / crad_ref cfg)
     else Some (rrp st));
  let st' := {| clat_last := Some clat; clon_last := Some clon; crad_last := Some crad;
                lp := lp'; ldp := ldp'; lcs := lcs'; rrp := rrp' |} in
  let '(fpot, fgrd) :=
    shc_eval (degree cfg) mode clat crad coeff lcs' lp' ldp' rrp' (is_internal cfg) in
  Some (match fpot with Some v => Some (v * scale_potential cfg) | None => None end,
   match fgrd with
   | Some grd =>
       match project_gradient cfg clat clon glat grd with
       | Some (fx, fy, fz) =>
           Some (fx * scale_gradient0 cfg, fy * scale_gradient1 cfg, fz * scale_gradient2 cfg)
       | None => None
       end
   | None => None
   end,
   st').

(** pymm_sheval.h:391-497 *)
Fixpoint i_sheval_items (ar : machine) (cfg : model_cfg) (mode : sheval_mode) (odims : list nat)
  (x : nd (R * R * R)) (coef : nd coefs) (st : model_state)
  : option (list (option R * option (R * R * R)) * model_state) :=
  match odims with
  | [] => try (out, st') <- i_model_eval ar cfg mode (get x []) (get coef []) st; Some ([out], st')
  | d :: ds =>
      (fix items (is : list nat) (st : model_state) :=
         match is with
         | [] => Some ([], st)
         | i :: is' =>
             try (o, st1) <- i_sheval_items ar cfg mode ds (nd_item x i) (nd_item coef i) st;
             try (os, st2) <- items is' st1;
             Some (o ++ os, st2)
         end) (seq 0 d) st
  end.

(** pymm_sheval.h:144-360; the assignment of max_degree, of the type npy_intp, to the int degree, line 219,
    is the identity, as max_degree is at most 2147483647 or not assigned. *)
Definition i_sheval (ar : machine) (x : nd (R * R * R)) (csize : Z) (coef : nd coefs)
  (ct_in ct_out : coord_type) (mode : sheval_mode) (internal : bool) (degree : Z)
  (scale_pot : R) (scale_grd : R * R * R) (mem : arr * arr * coefs * arr * arr * arr)
  : option (result (list nat * list (option R * option (R * R * R)))) :=
  let max_degree := size_to_degree csize in
  if (max_degree <? 0)%Z then Some (Err ValueError)
  else if (2147483647 <? max_degree)%Z && (degree <? 0)%Z then Some (Err ValueError)
  else
  let degree := if (degree <? 0)%Z || (max_degree <? degree)%Z then max_degree else degree in
  let odims := if Nat.ltb (length (dims x)) (length (dims coef)) then dims coef else dims x in
  if compare_dimensions odims (dims x) || compare_dimensions odims (dims coef) then Some (Err ValueError)
  else
  try (cfg, st) <- i_model_init ar internal (Z.to_nat degree) ct_in ct_out scale_pot scale_grd mem;
  try (out, _) <- i_sheval_items ar cfg mode odims x coef st;
  Some (Ok (odims, out)).

(** ** Coefficients of the time-dependent models *)

(** pymm_shevaltemp.h:742 and 762 and pymm_sheval2dfs.h:511: the row of the coefficient array,
    abs(offset), where abs has an argument of the type int; the conversion of the ptrdiff_t keeps the
    low 32 bits. *)
Definition i_row (offset : Z) : Z := Z.abs (wrap32 offset).

(** coef[row][kind] = value for an array of [nterm] rows *)
Definition i_write_in_bounds (nterm : Z) (nm : Z * Z) : bool := (i_row (nm_offset nm) <? nterm)%Z.
