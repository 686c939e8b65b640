(** Model of the evaluation of the models on the level of the memory: sheval, shevaltemp and
    sheval2dfs (pymm_sheval.h:144-499, pymm_shevaltemp.h:170-360,479-586,
    pymm_sheval2dfs.h:150-362,373-487) and the extraction of the gradient scales
    (pymm_aux.h:266-298).

    The arrays are those after the conversion by _get_as_double_array: aligned arrays of doubles
    of any strides; the array of coefficients of sheval and that of the scales are also
    C-contiguous.  The coefficient sets of shevaltemp and sheval2dfs and the buffers of the
    evaluation are outside of this memory.  The limit of NumPy of 32 dimensions is left out. *)

From Coq Require Import Bool List Reals ZArith.
From Verif Require Import ArrModel LegendreModel GeoModel SizeModel CoefModel ShEvalModel TempModel
  FourierModel StridedModel.
Import ListNotations.
Open Scope Z_scope.

Local Notation "'do' x <- r ; e" := (bind r (fun x => e)) (at level 200, x pattern).

(** the integers of SHEVAL_MODE (pymm_sheval.h:61-66) and _check_sheval_mode (363-378) *)
Definition check_sheval_mode (mode : Z) : result sheval_mode :=
  if mode =? 1 then Ok SM_POTENTIAL
  else if mode =? 2 then Ok SM_GRADIENT
  else if mode =? 3 then Ok SM_POTENTIAL_AND_GRADIENT
  else Err ValueError.

(** mode & SM_POTENTIAL and mode & SM_GRADIENT *)
Definition has_potential (mode : sheval_mode) : bool :=
  match mode with SM_GRADIENT => false | _ => true end.
Definition has_gradient (mode : sheval_mode) : bool :=
  match mode with SM_POTENTIAL => false | _ => true end.

(** pymm_aux.h:266-298 for 3 values *)
Definition extract_1d (m : memory) (a : arrd) : result (R * R * R) :=
  match shape a, stride a with
  | [], _ => do v <- load m (data a); Ok (v, v, v)
  | [n], [s] =>
      if Nat.eqb n 3 then
        do v0 <- load m (data a);
        do v1 <- load m (data a + s);
        do v2 <- load m (data a + 2 * s);
        Ok (v0, v1, v2)
      else Err ValueError
  | _, _ => Err ValueError
  end.

(** pymm_sheval.h:309-317, the default is 1 *)
Definition gradient_scale (m : memory) (scale : option arrd) : result (R * R * R) :=
  match scale with None => Ok (1, 1, 1)%R | Some a => extract_1d m a end.

(** for (i = 0; i < n; ++i) *)
Definition for_st {S} (n : nat) (body : nat -> S -> result S) (s : S) : result S :=
  fold_left (fun r i => match r with Ok s => body i s | Err e => Err e end) (seq 0 n) (Ok s).

(** the argument arrd_coef of _sheval_*: the array of sheval, or the pointer model->coef of the
    other functions (pymm_shevaltemp.h:504-506) *)
Inductive coef_ref := Rows (a : arrd) | Workspace (c : coefs).
Definition coef_item (c : coef_ref) (i : nat) : coef_ref :=
  match c with Rows a => Rows (get_arrd_item_with_guard a i 2) | Workspace c => Workspace c end.

(** reading of a double by a pointer and whether it is possible *)
Definition read_value (m : memory) (addr : Z) : R := match load m addr with Ok v => v | Err _ => 0%R end.
Definition readable (m : memory) (addr : Z) : bool := match load m addr with Ok _ => true | Err _ => false end.

(** coeff[k][0] and coeff[k][1] for the pointer coeff to pairs of doubles and the n coefficients
    which are read by shc_eval *)
Definition load_coefs (m : memory) (addr : Z) (n : nat) : result coefs :=
  if forallb (fun k => readable m (addr + 16 * Z.of_nat k) && readable m (addr + 16 * Z.of_nat k + 8)) (seq 0 n)
  then Ok (fun k => (read_value m (addr + 16 * Z.of_nat k), read_value m (addr + 16 * Z.of_nat k + 8)))
  else Err OutOfBounds.
Definition get_coefs (m : memory) (c : coef_ref) (n : nat) : result coefs :=
  match c with Rows a => load_coefs m (data a) n | Workspace c => Ok c end.

(** The outputs of _model_eval by the pointers pot and grd+0, grd+1, grd+2.  The error is a
    pointer NULL or an uninitialised output. *)
Definition store_potential (m : memory) (pot : option arrd) (v : option R) : result memory :=
  match pot, v with
  | Some a, Some v => store m (data a) v
  | None, None => Ok m
  | _, _ => Err OutOfBounds
  end.
Definition store_gradient (m : memory) (grd : option arrd) (v : option (R * R * R)) : result memory :=
  match grd, v with
  | Some a, Some (fx, fy, fz) =>
      do m <- store m (data a) fx;
      do m <- store m (data a + 8) fy;
      store m (data a + 16) fz
  | None, None => Ok m
  | _, _ => Err OutOfBounds
  end.

(** pymm_sheval.h:391-497, _sheval_pot, _sheval_grd and _sheval_pot_and_grd; [pot] and [grd] are
    the arrays which the function has and [odims] their dimensions, without the components. *)
Fixpoint sheval_rec (cfg : model_cfg) (mode : sheval_mode) (odims : list nat) (pot grd : option arrd)
  (x : arrd) (coef : coef_ref) (s : memory * model_state) : result (memory * model_state) :=
  match odims with
  | [] =>
      let '(m, st) := s in
      do x0 <- load m (data x);
      do x1 <- load m (data x + 8);
      do x2 <- load m (data x + 16);
      do c <- get_coefs m coef (nterm_of (degree cfg));
      let '(fpot, fgrd, st') := model_eval cfg mode (x0, x1, x2) c st in
      do m <- store_potential m pot fpot;
      do m <- store_gradient m grd fgrd;
      Ok (m, st')
  | d :: ds =>
      for_st d (fun i s =>
        sheval_rec cfg mode ds
          (option_map (fun a => get_arrd_item_nocheck a i) pot)
          (option_map (fun a => get_arrd_item_nocheck a i) grd)
          (get_arrd_item_with_guard x i 1) (coef_item coef i) s) s
  end.

(** pymm_sheval.h:288-306 (and the same code of the other two functions): the new arrays of the
    potential, at the free address [bp], and of the gradient, at [bg] *)
Definition new_outputs (m : memory) (bp bg : Z) (junk : Z -> R) (mode : sheval_mode) (odims : list nat)
  : memory * option arrd * option arrd :=
  let '(m, pot) :=
    if has_potential mode then let '(m, a) := new_array m bp junk odims in (m, Some a) else (m, None) in
  let '(m, grd) :=
    if has_gradient mode then let '(m, a) := new_array m bg junk (odims ++ [3%nat]) in (m, Some a)
    else (m, None) in
  (m, pot, grd).

(** the dimensions of an array without the last n ones *)
Definition drop_last (n : nat) (dims : list nat) : list nat := firstn (length dims - n) dims.

(** pymm_sheval.h:144-360.  [mem] is the content of the buffers allocated by _model_init. The
    result: the memory, the potential and the gradient. *)
Definition sheval_array (m : memory) (bp bg : Z) (junk : Z -> R) (x coef : arrd) (ct_in ct_out mode : Z)
  (internal : bool) (degree : Z) (scale_pot : R) (scale : option arrd)
  (mem : arr * arr * coefs * arr * arr * arr) : result (memory * option arrd * option arrd) :=
  do ct_in <- check_coord_type ct_in;
  do ct_out <- check_coord_type ct_out;
  do mode <- check_sheval_mode mode;
  (* 191-195, the required dimensions *)
  if Nat.ltb (length (shape x)) 1 then Err ValueError
  else if Nat.ltb (length (shape coef)) 2 then Err ValueError
  else
  (* 198-229 *)
  let max_degree := size_to_degree (Z.of_nat (nth (length (shape coef) - 2) (shape coef) 0%nat)) in
  if (max_degree <? 0) then Err ValueError
  else if (2147483647 <? max_degree) && (degree <? 0) then Err ValueError
  else
  let degree := if (degree <? 0) || (max_degree <? degree) then max_degree else degree in
  (* 231-284 *)
  let xdims := drop_last 1 (shape x) in
  let cdims := drop_last 2 (shape coef) in
  let odims := if Nat.ltb (length xdims) (length cdims) then cdims else xdims in
  if compare_dimensions odims xdims || compare_dimensions odims cdims then Err ValueError
  else if negb (Nat.eqb (last (shape coef) 0%nat) 2) then Err ValueError
  else
  (* 286-306 *)
  let '(m1, pot, grd) := new_outputs m bp bg junk mode odims in
  (* 309-317 *)
  do scale_grd <- gradient_scale m1 scale;
  (* 321-356 *)
  let '(cfg, st) := model_init internal (Z.to_nat degree) ct_in ct_out scale_pot scale_grd mem in
  do (m2, _) <- sheval_rec cfg mode odims pot grd x (Rows coef) (m1, st);
  Ok (m2, pot, grd).

(** pymm_shevaltemp.h:479-586, the three functions *)
Fixpoint shevaltemp_rec (cfg : model_cfg) (nterm : nat) (css : list coefset) (mode : sheval_mode)
  (tdims odims : list nat) (pot grd : option arrd) (t x : arrd) (s : memory * temp_state)
  : result (memory * temp_state) :=
  match tdims with
  | [] =>
      let '(m, st) := s in
      do time <- load m (data t);
      match update_coef nterm css time st with
      | None => Err OutOfBounds
      | Some st1 =>
          do (m', sh) <- sheval_rec cfg mode odims pot grd x (Workspace (ts_coef st1)) (m, ts_sh st1);
          Ok (m', {| ts_coef := ts_coef st1; ts_time_last := ts_time_last st1;
                     ts_idx_last := ts_idx_last st1; ts_sh := sh |})
      end
  | d :: ds =>
      for_st d (fun i s =>
        shevaltemp_rec cfg nterm css mode ds (tl odims)
          (option_map (fun a => get_arrd_item a i) pot) (option_map (fun a => get_arrd_item a i) grd)
          (get_arrd_item t i) (get_arrd_item_with_guard x i 1) s) s
  end.

(** pymm_shevaltemp.h:170-360 *)
Definition shevaltemp_array (m : memory) (bp bg : Z) (junk : Z -> R) (t x : arrd) (sets : list set_args)
  (ct_in ct_out mode : Z) (internal : bool) (scale_pot : R) (scale : option arrd)
  (mem : arr * arr * coefs * arr * arr * arr) : result (memory * option arrd * option arrd) :=
  do ct_in <- check_coord_type ct_in;
  do ct_out <- check_coord_type ct_out;
  do mode <- check_sheval_mode mode;
  if (length sets <? 1)%nat then Err ValueError
  else if (16 <? length sets)%nat then Err ValueError
  else
  match parse_coefsets sets with
  | None => Err ValueError
  | Some css =>
      let degree := fold_left (fun d cs => Z.max d (cs_degree cs)) css 0 in
      (* 253-275 *)
      if Nat.ltb (length (shape x)) 1 then Err ValueError
      else if negb (Nat.eqb (last (shape x) 0%nat) 3) then Err ValueError
      else
      let xdims := drop_last 1 (shape x) in
      if negb (common_dims_match (shape t) xdims) then Err ValueError
      else
      (* 278-305 *)
      do scale_grd <- gradient_scale m scale;
      let odims := if Nat.leb (length xdims) (length (shape t)) then shape t else xdims in
      let '(m1, pot, grd) := new_outputs m bp bg junk mode odims in
      let '(cfg, sh) := model_init internal (Z.to_nat degree) ct_in ct_out scale_pot scale_grd mem in
      do (m2, _) <- shevaltemp_rec cfg (nterm_of (Z.to_nat degree)) css mode (shape t) odims pot grd t x
                      (m1, {| ts_coef := fun _ => (0, 0)%R; ts_time_last := None;
                              ts_idx_last := map (fun _ => -1) css; ts_sh := sh |});
      Ok (m2, pot, grd)
  end.

(** pymm_sheval2dfs.h:373-487, the three functions.  [fuel] is the larger of the numbers of
    dimensions of the times. *)
Fixpoint sheval2dfs_rec (cfg : model_cfg) (nterm : nat) (rows : list (Z * coefs)) (mode : sheval_mode)
  (fuel : nat) (odims : list nat) (pot grd : option arrd) (t1 t2 x : arrd) (s : memory * fs_state)
  : result (memory * fs_state) :=
  let n := match shape t1, shape t2 with
           | d :: _, _ => Some d
           | [], d :: _ => Some d
           | [], [] => None
           end in
  match n, fuel with
  | None, _ =>
      let '(m, st) := s in
      do time1 <- load m (data t1);
      do time2 <- load m (data t2);
      match fs_update nterm rows time1 time2 st with
      | None => Err OutOfBounds
      | Some st1 =>
          do (m', sh) <- sheval_rec cfg mode odims pot grd x (Workspace (fst_coef st1)) (m, fst_sh st1);
          Ok (m', {| fst_coef := fst_coef st1; fst_last1 := fst_last1 st1; fst_last2 := fst_last2 st1;
                     fst_f2d := fst_f2d st1; fst_sh := sh |})
      end
  | Some _, O => Err OutOfBounds
  | Some d, S fuel' =>
      for_st d (fun i s =>
        sheval2dfs_rec cfg nterm rows mode fuel' (tl odims)
          (option_map (fun a => get_arrd_item a i) pot) (option_map (fun a => get_arrd_item a i) grd)
          (get_arrd_item t1 i) (get_arrd_item t2 i) (get_arrd_item_with_guard x i 1) s) s
  end.

(** pymm_sheval2dfs.h:150-362; an error of the coefficients is ignored there, see FourierModel. *)
Definition sheval2dfs_array (m : memory) (bp bg : Z) (junk : Z -> R) (t1 t2 x : arrd) (s : f2d_set)
  (ct_in ct_out mode : Z) (internal : bool) (scale_pot : R) (scale : option arrd)
  (mem : arr * arr * coefs * arr * arr * arr) (fmem : coefs * coefs * coefs * coefs)
  : result (memory * option arrd * option arrd) :=
  do ct_in <- check_coord_type ct_in;
  do ct_out <- check_coord_type ct_out;
  do mode <- check_sheval_mode mode;
  (* 207-244 *)
  if Nat.ltb (length (shape x)) 1 then Err ValueError
  else
  let xdims := drop_last 1 (shape x) in
  if negb (common_dims_match (shape t1) (shape t2)) then Err ValueError
  else if negb (common_dims_match (shape t1) xdims) then Err ValueError
  else if negb (common_dims_match (shape t2) xdims) then Err ValueError
  else if negb (Nat.eqb (last (shape x) 0%nat) 3) then Err ValueError
  else
  (* 247-255 *)
  let parsed := f2d_coefset_parse s in
  let fc := match parsed with Some fc => fc | None => {| fc_rows := []; fc_degree := 0 |} end in
  let f2d := match parsed with
             | Some _ => fourier2d_init (fs_min1 s) (fs_size1 s) (fs_min2 s) (fs_size2 s)
                           (fs_scale1 s) (fs_scale2 s) fmem
             | None => null_f2d fmem
             end in
  let degree := Z.to_nat (fc_degree fc) in
  (* 258-309 *)
  do scale_grd <- gradient_scale m scale;
  let odims := fs_out_dims (shape t1) (shape t2) xdims in
  let '(m1, pot, grd) := new_outputs m bp bg junk mode odims in
  let '(cfg, sh) := model_init internal degree ct_in ct_out scale_pot scale_grd mem in
  do (m2, _) <- sheval2dfs_rec cfg (nterm_of degree) (fc_rows fc) mode
                  (Nat.max (length (shape t1)) (length (shape t2))) odims pot grd t1 t2 x
                  (m1, {| fst_coef := fun _ => (0, 0)%R; fst_last1 := None; fst_last2 := None;
                          fst_f2d := f2d; fst_sh := sh |});
  match parsed with Some _ => Ok (m2, pot, grd) | None => Err SystemError end.
