(** Model of the 2D Fourier series: include/fourier_series.h, pymm_fourier2d.h and
    pymm_sheval2dfs.h.  The doubles are real numbers and the integers (degrees, sizes) do not
    overflow.  The work arrays have their allocated sizes and every access is checked: [None] is
    an access outside of the array. *)

From Coq Require Import Bool List Reals ZArith.
From Verif Require Import ArrModel LegendreModel GeoModel CoefModel ShEvalModel TempModel.
Import ListNotations.

(** an allocated array of pairs of doubles *)
Record buffer := { b_size : nat; b_at : coefs }.

Definition buf_read (b : buffer) (i : nat) : option (R * R) :=
  if Nat.ltb i (b_size b) then Some (b_at b i) else None.
Definition buf_write (b : buffer) (i : nat) (v : R * R) : option buffer :=
  if Nat.ltb i (b_size b) then Some {| b_size := b_size b; b_at := upd (b_at b) i v |} else None.

(** a loop over the given indices whose body may fail *)
Fixpoint oloop {S : Type} (is : list nat) (body : nat -> S -> option S) (s : S) : option S :=
  match is with
  | [] => Some s
  | i :: is' => match body i s with None => None | Some s' => oloop is' body s' end
  end.

(** fourier_series.h:54-85 *)
Definition fs_cos_sin_buf (out : buffer) (n : nat) (x : R) : option buffer :=
  match buf_write out 0 (1, 0)%R with
  | None => None
  | Some out0 =>
      if Nat.leb 1 n then
        let cos_x := cos x in
        let sin_x := sin x in
        match buf_write out0 1 (cos_x, sin_x) with
        | None => None
        | Some out1 =>
            match oloop (seq 2 (n - 1)) (fun i s =>
                    let '(b, cos_ix, sin_ix) := s in
                    let cos_new := (cos_ix * cos_x - sin_ix * sin_x)%R in
                    let sin_new := (cos_ix * sin_x + sin_ix * cos_x)%R in
                    match buf_write b i (cos_new, sin_new) with
                    | None => None
                    | Some b' => Some (b', cos_new, sin_new)
                    end) (out1, cos_x, sin_x) with
            | None => None
            | Some (b, _, _) => Some b
            end
        end
      else Some out0
  end.

(** fourier_series.h:146-165; the loop runs over the difference from n_min *)
Definition fs_cos_sin_neg (out positive : buffer) (n_min n_max : Z) : option buffer :=
  oloop (seq 0 (Z.to_nat (n_max - n_min + 1))) (fun idx out =>
    let i := (n_min + Z.of_nat idx)%Z in
    match buf_read positive (Z.to_nat (Z.abs i)) with
    | None => None
    | Some (cos_ix, sin_ix) => buf_write out idx (cos_ix, if (i <? 0)%Z then (- sin_ix)%R else sin_ix)
    end) out.

(** fourier_series.h:190-212 *)
Definition fs_cos_sin_2d (out bx by_ : buffer) (n m : nat) : option buffer :=
  oloop (seq 0 n) (fun i out =>
    oloop (seq 0 m) (fun j out =>
      match buf_read bx i, buf_read by_ j with
      | Some (cx, sx), Some (cy, sy) =>
          buf_write out (i * m + j) (cx * cy - sx * sy, cx * sy + sx * cy)%R
      | _, _ => None
      end) out) out.

(** fourier_series.h:230-245.  The coefficients [ab] are an input array of the size n*m. *)
Definition fs_eval_2d (ab : coefs) (cs : buffer) (n m : nat) : option R :=
  oloop (seq 0 (n * m)) (fun i f =>
    match buf_read cs i with
    | None => None
    | Some (c, s) => Some (f + (fst (ab i) * c + snd (ab i) * s))%R
    end) 0%R.

(** pymm_fourier2d.h:47-59, FOURIER_2D.  max_abs_degree is the size of cos_sin_tmp less one. *)
Record fourier_2d := {
  min_degree1 : Z;
  max_degree1 : Z;
  min_degree2 : Z;
  max_degree2 : Z;
  scale1 : R;
  scale2 : R;
  cos_sin_tmp : buffer;
  cos_sin_1 : buffer;
  cos_sin_2 : buffer;
  cos_sin_12 : buffer
}.

Definition with_buffers (f : fourier_2d) (tmp b1 b2 b12 : buffer) : fourier_2d :=
  {| min_degree1 := min_degree1 f; max_degree1 := max_degree1 f;
     min_degree2 := min_degree2 f; max_degree2 := max_degree2 f;
     scale1 := scale1 f; scale2 := scale2 f;
     cos_sin_tmp := tmp; cos_sin_1 := b1; cos_sin_2 := b2; cos_sin_12 := b12 |}.

(** pymm_fourier2d.h:324-383.  [mem] is the content of the allocated memory; failures of malloc are
    left out. *)
Definition fourier2d_init (min1 : Z) (size1 : nat) (min2 : Z) (size2 : nat) (s1 s2 : R)
  (mem : coefs * coefs * coefs * coefs) : fourier_2d :=
  let '(m0, m1, m2, m12) := mem in
  let max1 := (min1 + Z.of_nat size1 - 1)%Z in
  let max2 := (min2 + Z.of_nat size2 - 1)%Z in
  let max_abs_degree := 1%Z in
  let max_abs_degree := Z.max max_abs_degree (Z.abs min1) in
  let max_abs_degree := Z.max max_abs_degree (Z.abs max1) in
  let max_abs_degree := Z.max max_abs_degree (Z.abs min1) in
  let max_abs_degree := Z.max max_abs_degree (Z.abs max2) in
  {| min_degree1 := min1; max_degree1 := max1; min_degree2 := min2; max_degree2 := max2;
     scale1 := s1; scale2 := s2;
     cos_sin_tmp := {| b_size := Z.to_nat (max_abs_degree + 1); b_at := m0 |};
     cos_sin_1 := {| b_size := size1; b_at := m1 |};
     cos_sin_2 := {| b_size := size2; b_at := m2 |};
     cos_sin_12 := {| b_size := size1 * size2; b_at := m12 |} |}.

Definition f2d_size1 (f : fourier_2d) : nat := Z.to_nat (max_degree1 f - min_degree1 f + 1).
Definition f2d_size2 (f : fourier_2d) : nat := Z.to_nat (max_degree2 f - min_degree2 f + 1).

(** pymm_fourier2d.h:387-394 *)
Definition fourier2d_eval (f : fourier_2d) (ab : coefs) : option R :=
  fs_eval_2d ab (cos_sin_12 f) (f2d_size1 f) (f2d_size2 f).

(** pymm_fourier2d.h:398-427 *)
Definition fourier2d_cossin (f : fourier_2d) (t1 t2 : R) : option fourier_2d :=
  match fs_cos_sin_buf (cos_sin_tmp f) (Z.to_nat (Z.max (Z.abs (min_degree1 f)) (Z.abs (max_degree1 f)))) (t1 * scale1 f) with
  | None => None
  | Some tmp1 =>
  match fs_cos_sin_neg (cos_sin_1 f) tmp1 (min_degree1 f) (max_degree1 f) with
  | None => None
  | Some b1 =>
  match fs_cos_sin_buf tmp1 (Z.to_nat (Z.max (Z.abs (min_degree2 f)) (Z.abs (max_degree2 f)))) (t2 * scale2 f) with
  | None => None
  | Some tmp2 =>
  match fs_cos_sin_neg (cos_sin_2 f) tmp2 (min_degree2 f) (max_degree2 f) with
  | None => None
  | Some b2 =>
  match fs_cos_sin_2d (cos_sin_12 f) b1 b2 (f2d_size1 f) (f2d_size2 f) with
  | None => None
  | Some b12 => Some (with_buffers f tmp2 b1 b2 b12)
  end end end end end.

(** pymm_fourier2d.h:276-300; [cdims] are the dimensions of the coefficients without the last three *)
Fixpoint eval_coeff_single_time (cdims : list nat) (c0 : nd coefs) (f : fourier_2d) : option (list R) :=
  match cdims with
  | [] => match fourier2d_eval f (get c0 []) with None => None | Some v => Some [v] end
  | d :: ds =>
      (fix items (is : list nat) :=
         match is with
         | [] => Some []
         | i :: is' =>
             match eval_coeff_single_time ds (nd_item c0 i) f, items is' with
             | Some o, Some os => Some (o ++ os)
             | _, _ => None
             end
         end) (seq 0 d)
  end.

(** pymm_fourier2d.h:236-273 *)
Fixpoint eval_coeff (tdims : list nat) (t1 t2 : nd R) (c0 : nd coefs) (f : fourier_2d)
  : option (list R * fourier_2d) :=
  match tdims with
  | [] =>
      match fourier2d_cossin f (get t1 []) (get t2 []) with
      | None => None
      | Some f' =>
          match eval_coeff_single_time (dims c0) c0 f' with
          | None => None
          | Some out => Some (out, f')
          end
      end
  | d :: ds =>
      (fix items (is : list nat) (f : fourier_2d) :=
         match is with
         | [] => Some ([], f)
         | i :: is' =>
             match eval_coeff ds (nd_item t1 i) (nd_item t2 i) c0 f with
             | None => None
             | Some (o, f1) =>
                 match items is' f1 with
                 | None => None
                 | Some (os, f2) => Some (o ++ os, f2)
                 end
             end
         end) (seq 0 d) f
  end.

(** pymm_fourier2d.h:143-160, the comparison of the dimensions *)
Fixpoint same_dims (a b : list nat) : bool :=
  match a, b with
  | [], [] => true
  | x :: a', y :: b' => Nat.eqb x y && same_dims a' b'
  | _, _ => false
  end.

(** pymm_fourier2d.h:104-221.  The coefficients are an array of the dimensions (...,size1,size2,2),
    i.e., an array of the arrays [ab] of size1*size2 pairs; the parsing of the Python objects is
    left out. *)
Definition fourier2d (t1 t2 : nd R) (c0 : nd coefs) (size1 size2 : nat) (min1 min2 : Z) (s1 s2 : R)
  (mem : coefs * coefs * coefs * coefs) : result (list nat * list R) :=
  if negb (same_dims (dims t1) (dims t2)) then Err ValueError
  else
    match eval_coeff (dims t1) t1 t2 c0 (fourier2d_init min1 size1 min2 size2 s1 s2 mem) with
    | None => Err OutOfBounds
    | Some (out, _) => Ok (dims t1 ++ dims c0, out)
    end.

(** ** pymm_sheval2dfs.h *)

(** coef_set: coef_ab of the dimensions (c,size1,size2,2) as the list of its c rows, coef_nm,
    min_degree1, min_degree2, scale1, scale2 *)
Record f2d_set := {
  fs_ab : list coefs;
  fs_size1 : nat;
  fs_size2 : nat;
  fs_nm : list (Z * Z);
  fs_min1 : Z;
  fs_min2 : Z;
  fs_scale1 : R;
  fs_scale2 : R
}.

(** pymm_sheval2dfs.h:39-49 *)
Record f2d_coefset := {
  fc_rows : list (Z * coefs);     (* offset, ab *)
  fc_degree : Z
}.

(** pymm_sheval2dfs.h:604-654 (_f2d_coefset_init) and 728-743 (the check of the shapes). [None] is the
    ValueError. *)
Definition f2d_coefset_parse (s : f2d_set) : option f2d_coefset :=
  if negb (length (fs_ab s) =? length (fs_nm s))%nat then None
  else Some {| fc_rows := combine (map nm_offset (fs_nm s)) (fs_ab s);
               fc_degree := fold_left (fun d nm => Z.max d (fst nm)) (fs_nm s) 0%Z |}.

(** pymm_sheval2dfs.h:70-76, the fields which change *)
Record fs_state := {
  fst_coef : coefs;
  fst_last1 : option R;           (* [None] is NaN *)
  fst_last2 : option R;
  fst_f2d : fourier_2d;
  fst_sh : model_state
}.

(** the loop of pymm_sheval2dfs.h:508-515 *)
Fixpoint fs_write_rows (nterm : nat) (f : fourier_2d) (rows : list (Z * coefs)) (coef : coefs) : option coefs :=
  match rows with
  | [] => Some coef
  | (offset, ab) :: rows' =>
      match fourier2d_eval f ab with
      | None => None
      | Some value =>
          match write_coef nterm coef offset value with
          | None => None
          | Some coef' => fs_write_rows nterm f rows' coef'
          end
      end
  end.

(** pymm_sheval2dfs.h:489-520 and the test of the last times (404-405) *)
Definition fs_update (nterm : nat) (rows : list (Z * coefs)) (time1 time2 : R) (st : fs_state) : option fs_state :=
  if neq_last (fst_last1 st) time1 || neq_last (fst_last2 st) time2 then
    match fourier2d_cossin (fst_f2d st) time1 time2 with
    | None => None
    | Some f =>
        match fs_write_rows nterm f rows (fst_coef st) with
        | None => None
        | Some coef =>
            Some {| fst_coef := coef; fst_last1 := Some time1; fst_last2 := Some time2;
                    fst_f2d := f; fst_sh := fst_sh st |}
        end
    end
  else Some st.

(** pymm_sheval2dfs.h:373-487; the three functions, one for each mode, are the same.  [fuel] is
    the larger of the numbers of dimensions of the times. *)
Fixpoint sheval2dfs_items (cfg : model_cfg) (nterm : nat) (rows : list (Z * coefs)) (mode : sheval_mode)
  (fuel : nat) (odims : list nat) (t1 t2 : nd R) (x : nd (R * R * R)) (st : fs_state)
  : option (list (option R * option (R * R * R)) * fs_state) :=
  let n := match dims t1, dims t2 with
           | d :: _, _ => Some d
           | [], d :: _ => Some d
           | [], [] => None
           end in
  match n, fuel with
  | None, _ =>
      match fs_update nterm rows (get t1 []) (get t2 []) st with
      | None => None
      | Some st1 =>
          let '(out, sh) := sheval_items cfg mode odims x (scalar_array (fst_coef st1)) (fst_sh st1) in
          Some (out, {| fst_coef := fst_coef st1; fst_last1 := fst_last1 st1; fst_last2 := fst_last2 st1;
                        fst_f2d := fst_f2d st1; fst_sh := sh |})
      end
  | Some _, O => None
  | Some d, S fuel' =>
      (fix items (is : list nat) (st : fs_state) :=
         match is with
         | [] => Some ([], st)
         | i :: is' =>
             match sheval2dfs_items cfg nterm rows mode fuel' (tl odims)
                     (nd_item t1 i) (nd_item t2 i) (nd_item x i) st with
             | None => None
             | Some (o, st1) =>
                 match items is' st1 with
                 | None => None
                 | Some (os, st2) => Some (o ++ os, st2)
                 end
             end
         end) (seq 0 d) st
  end.

(** pymm_sheval2dfs.h:268-281, the dimensions of the output *)
Definition fs_out_dims (t1 t2 x : list nat) : list nat :=
  let ndim := Nat.max (Nat.max (length t1) (length t2)) (length x) in
  if Nat.eqb (length t1) ndim then t1
  else if Nat.eqb (length t2) ndim then t2
  else x.

(** The structure filled with zeros (pymm_sheval2dfs.h:176): all the pointers are NULL. *)
Definition null_f2d (mem : coefs * coefs * coefs * coefs) : fourier_2d :=
  let '(m0, m1, m2, m12) := mem in
  {| min_degree1 := 0; max_degree1 := 0; min_degree2 := 0; max_degree2 := 0; scale1 := 0%R; scale2 := 0%R;
     cos_sin_tmp := {| b_size := 0; b_at := m0 |}; cos_sin_1 := {| b_size := 0; b_at := m1 |};
     cos_sin_2 := {| b_size := 0; b_at := m2 |}; cos_sin_12 := {| b_size := 0; b_at := m12 |} |}.

(** pymm_sheval2dfs.h:150-362 and 543-578.  The parsing of the Python objects is left out; the
    last dimension of the positions is 3 (checked by the code).  The result of the parsing of
    the coefficients is ignored (line 247), so after its ValueError the evaluation goes on without
    any coefficients; should it come to the end, the interpreter finds both a result and an
    exception and raises SystemError. *)
Definition sheval2dfs (t1 t2 : nd R) (x : nd (R * R * R)) (s : f2d_set)
  (ct_in ct_out : coord_type) (mode : sheval_mode) (internal : bool)
  (scale_pot : R) (scale_grd : R * R * R) (mem : arr * arr * coefs * arr * arr * arr)
  (fmem : coefs * coefs * coefs * coefs)
  : result (list nat * list (option R * option (R * R * R))) :=
  if negb (common_dims_match (dims t1) (dims t2)) then Err ValueError
  else if negb (common_dims_match (dims t1) (dims x)) then Err ValueError
  else if negb (common_dims_match (dims t2) (dims x)) then Err ValueError
  else
  let parsed := f2d_coefset_parse s in
  let fc := match parsed with Some fc => fc | None => {| fc_rows := []; fc_degree := 0%Z |} end in
  let f2d := match parsed with
             | Some _ => fourier2d_init (fs_min1 s) (fs_size1 s) (fs_min2 s) (fs_size2 s)
                           (fs_scale1 s) (fs_scale2 s) fmem
             | None => null_f2d fmem
             end in
  let degree := Z.to_nat (fc_degree fc) in
  let odims := fs_out_dims (dims t1) (dims t2) (dims x) in
  let '(cfg, sh) := model_init internal degree ct_in ct_out scale_pot scale_grd mem in
  match sheval2dfs_items cfg (nterm_of degree) (fc_rows fc) mode
          (Nat.max (length (dims t1)) (length (dims t2))) odims t1 t2 x
          {| fst_coef := fun _ => (0, 0)%R; fst_last1 := None; fst_last2 := None;
             fst_f2d := f2d; fst_sh := sh |} with
  | None => Err OutOfBounds
  | Some (out, _) => match parsed with Some _ => Ok (odims, out) | None => Err SystemError end
  end.
