(** Resource management of the C extension functions: the references and the buffers each function
    acquires, uses and releases, the exception state and the [goto exit] control flow.

    Modelled: every acquisition (the conversion of an argument to an array, the allocation of an
    array, malloc/calloc), every check of the arguments, every release (Py_DECREF, free), the
    construction of the returned value, and the order of all these.  An oracle decides the outcome of
    each of the steps which may fail.
    Simplified: the values are not modelled here (see the other models).  A reference owned by the
    function is a token named after the variable first holding it (and a number for the variables of
    the repeated calls), so that two references to the same object (an array passed as two of the
    arguments) are two tokens, as they are two counts of its reference counter.  The arrays passed by
    the caller are alive for the whole call.  The internals of CPython and NumPy are not modelled:
    a conversion or an allocation returns a new reference or raises an exception;
    Py_BuildValue("N...") takes over the references of its arguments whether it succeeds or not, as
    documented ("N" and the note on it, CPython's do_mktuple releasing them on a failure). *)
From Coq Require Import List String Bool Arith.
Import ListNotations.
Local Open Scope string_scope.

Definition token := (string * nat)%type.

Definition token_eqb (a b : token) : bool := (String.eqb (fst a) (fst b)) && (Nat.eqb (snd a) (snd b)).

Definition mem (t : token) (l : list token) : bool := existsb (token_eqb t) l.

Definition drop (t : token) (l : list token) : list token := filter (fun x => negb (token_eqb t x)) l.

(** The steps which may fail. *)
Inductive site :=
| Parse                        (* PyArg_ParseTupleAndKeywords *)
| Truth                        (* PyObject_IsTrue *)
| Convert (v : string)         (* PyArray_FromAny *)
| Check (c : string)           (* a check of the arguments *)
| Alloc (v : string)           (* PyArray_EMPTY, malloc, calloc *)
| Tuple.                       (* Py_BuildValue *)

Definition oracle := site -> nat -> bool.

(** The pointers of a function or of a structure: NULL or an (owned or dangling) reference. *)
Definition pointers := string -> option token.

Definition null : pointers := fun _ => None.

Definition assign (p : pointers) (v : string) (t : option token) : pointers :=
  fun w => if String.eqb v w then t else p w.

Record state := {
  live : list token;         (* the references and the buffers owned by the call *)
  kept : list token;         (* the references owned by the constructed tuple *)
  raised : bool;             (* is an exception set? *)
  ptrs : pointers;           (* the pointers of the running function *)
  sets : list pointers;      (* pymm_shevaltemp.h:192,242: the parsed sets of coefficients *)
  retval : option token      (* the value to be returned *)
}.

Definition start : state :=
  {| live := []; kept := []; raised := false; ptrs := null; sets := []; retval := None |}.

Inductive outcome :=
| Next (s : state)           (* continue with the next statement *)
| Exit (s : state)           (* goto exit (or goto error) *)
| Return (s : state)         (* return *)
| Crash.                     (* undefined behaviour: NULL or a released object is used or released *)

(** The executions of a function: the outcome, or a question to the oracle and what follows upon either
    answer. *)
Inductive tree :=
| End (r : outcome)
| Ask (q : site) (i : nat) (yes no : tree).

Fixpoint exec (o : oracle) (t : tree) : outcome :=
  match t with
  | End r => r
  | Ask q i yes no => if o q i then exec o yes else exec o no
  end.

Fixpoint bind (t : tree) (f : outcome -> tree) : tree :=
  match t with
  | End r => f r
  | Ask q i yes no => Ask q i (bind yes f) (bind no f)
  end.

Definition stmt := state -> tree.

Definition set_live l s := {| live := l; kept := kept s; raised := raised s; ptrs := ptrs s; sets := sets s; retval := retval s |}.
Definition set_ptrs p s := {| live := live s; kept := kept s; raised := raised s; ptrs := p; sets := sets s; retval := retval s |}.
Definition raise s := {| live := live s; kept := kept s; raised := true; ptrs := ptrs s; sets := sets s; retval := retval s |}.
Definition set_retval v s := {| live := live s; kept := kept s; raised := raised s; ptrs := ptrs s; sets := sets s; retval := v |}.
Definition set_sets l s := {| live := live s; kept := kept s; raised := raised s; ptrs := ptrs s; sets := l; retval := retval s |}.
Definition set_kept l s := {| live := live s; kept := l; raised := raised s; ptrs := ptrs s; sets := sets s; retval := retval s |}.

Definition skip : stmt := fun s => End (Next s).

Definition seq (a b : stmt) : stmt := fun s =>
  bind (a s) (fun r => match r with Next s' => b s' | r => End r end).

Notation "a ;; b" := (seq a b) (at level 60, right associativity).

Definition when (c : bool) (a : stmt) : stmt := if c then a else skip.

Definition each (vs : list string) (a : string -> stmt) : stmt :=
  fold_right (fun v r => a v ;; r) skip vs.

(** if (!PyArg_ParseTupleAndKeywords(...)) goto exit; *)
Definition parse : stmt := fun s => Ask Parse 0 (End (Next s)) (End (Exit (raise s))).

(** flag = (obj == NULL) || PyObject_IsTrue(obj); a failure (-1) is not distinguished from truth, the
    exception is left set. *)
Definition truth : stmt := fun s => Ask Truth 0 (End (Next s)) (End (Next (raise s))).

(** v = new reference or NULL; the token must be new (it always is: each step is executed at most
    once). *)
Definition own (v : string) (i : nat) (s : state) : outcome :=
  if mem (v, i) (live s) then Crash
  else Next (set_ptrs (assign (ptrs s) v (Some (v, i))) (set_live ((v, i) :: live s) s)).

(** pymm_aux.h:99-135: if (NULL == (v = _get_as_double_array(obj, ...))) goto exit;  The label is not
    used. *)
Definition convert_i (i : nat) (v : string) : stmt := fun s =>
  Ask (Convert v) i (End (own v i s)) (End (Exit (raise s))).
Definition convert := convert_i 0.

(** pymm_aux.h:140-170: if (NULL == (v = _get_new_array(...))) goto exit; also: if (NULL == (v =
    malloc(...))) {PyErr_Format(PyExc_MemoryError, ...); goto exit;} *)
Definition alloc_i (i : nat) (v : string) : stmt := fun s =>
  Ask (Alloc v) i (End (own v i s)) (End (Exit (raise s))).
Definition alloc := alloc_i 0.

(** if (invalid) {PyErr_Format(PyExc_ValueError, "...%s...", keywords[k], ...); goto exit;}  The
    formatting of a NULL label dereferences it. *)
Definition check_i (i : nat) (keywords : list string) (c : string) (labels : list nat) : stmt := fun s =>
  Ask (Check c) i (End (Next s))
    (End (if forallb (fun k => Nat.ltb k (List.length keywords)) labels then Exit (raise s) else Crash)).
Definition check := check_i 0.

(** The data of the objects are read or written. *)
Definition alive (t : token) (s : state) : bool := mem t (live s) || mem t (kept s).

Definition use1 (v : string) : stmt := fun s => End
  match ptrs s v with
  | Some t => if alive t s then Next s else Crash
  | None => Crash
  end.

Definition use (vs : list string) : stmt := each vs use1.

(** if (v) Py_DECREF(v); if (v) free(v);  The pointer itself is left as it is. *)
Definition release (v : string) : stmt := fun s => End
  match ptrs s v with
  | Some t => if mem t (live s) then Next (set_live (drop t (live s)) s) else Crash
  | None => Next s
  end.

(** memset(structure, 0, ...) *)
Definition reset (vs : list string) : stmt := fun s =>
  End (Next (set_ptrs (fold_left (fun p v => assign p v None) vs (ptrs s)) s)).

(** structure->field = v *)
Definition store (field v : string) : stmt := fun s =>
  End (Next (set_ptrs (assign (ptrs s) field (ptrs s v)) s)).

(** retval = (PyObject* ) v *)
Definition set_ret (v : string) : stmt := fun s => End (Next (set_retval (ptrs s v) s)).

(** if (!retval) ... *)
Definition unless_ret (a : stmt) : stmt := fun s =>
  match retval s with None => a s | Some _ => End (Next s) end.

(** if (NULL == (retval = Py_BuildValue("N...", vs))) goto exit; *)
Definition give (v : string) : stmt := fun s => End
  match ptrs s v with
  | Some t => if mem t (live s)
      then Next (set_kept (t :: kept s) (set_live (drop t (live s)) s)) else Crash
  | None => Crash
  end.

Definition build (vs : list string) : stmt := fun s => bind (each vs give s) (fun r =>
  match r with
  | Next s' => Ask Tuple 0
      (End (Next (set_retval (Some ("retval", 0)) (set_live (("retval", 0) :: live s') s'))))
      (End (Exit (raise (set_kept [] s'))))
  | r => End r
  end).

(** if (f(...)) goto exit; where f ends by [error: handler; return 1;] *)
Definition call (body handler : stmt) : stmt := fun s => bind (body s) (fun r =>
  match r with
  | Exit s' => bind (handler s') (fun r => End match r with Next s'' => Exit s'' | r => r end)
  | r => End r
  end).

(** f(...); the status is ignored *)
Definition call_ignored (body handler : stmt) : stmt := fun s => bind (body s) (fun r =>
  match r with
  | Exit s' => handler s'
  | r => End r
  end).

(** The whole function: the body, then the statements behind the label exit. *)
Definition func (body exit : stmt) : tree := bind (body start) (fun r =>
  match r with
  | Next s | Exit s => exit s
  | Return s => End (Next s)
  | Crash => End Crash
  end).

(** pymm_bisect.h:59-119 *)
Definition bisect : tree :=
  let keywords := ["v"; "x"; "side"] in
  func (
    parse ;;
    check keywords "side" [] ;;
    convert "arr_v" ;;
    convert "arr_x" ;;
    alloc "arr_i" ;;
    use ["arr_x"; "arr_i"; "arr_v"] ;;
    set_ret "arr_i")
   (release "arr_x" ;; release "arr_v" ;; unless_ret (release "arr_i")).

(** pymm_cconv.h:148-205; [identity]: ct_in == ct_out (line 186: return without passing the exit) *)
Definition cconv (identity : bool) : tree :=
  let keywords := ["arr_in"; "coord_type_in"; "coord_type_out"] in
  func (
    parse ;;
    check keywords "ct_in" [1] ;;
    check keywords "ct_out" [2] ;;
    convert "arr_in" ;;
    check keywords "ndim" [0] ;;
    check keywords "last" [0] ;;
    (if identity
     then (set_ret "arr_in" ;; fun s => End (Return s))
     else skip) ;;
    alloc "arr_out" ;;
    use ["arr_in"; "arr_out"] ;;
    set_ret "arr_out")
   (release "arr_in" ;; unless_ret (release "arr_out")).

(** pymm_fourier2d.h:303-382: the initialisation and the destruction of the structure *)
Definition f2d_fields := ["f2d.cos_sin_tmp"; "f2d.cos_sin_1"; "f2d.cos_sin_2"; "f2d.cos_sin_12"].

Definition fourier2d_destroy : stmt := each f2d_fields release ;; reset f2d_fields.

Definition fourier2d_init : stmt :=
  call (reset f2d_fields ;; each f2d_fields alloc) fourier2d_destroy.

(** pymm_fourier2d.h:104-224; [points]: there is a time to be evaluated *)
Definition fourier2d (points : bool) : tree :=
  let keywords := ["time1"; "time2"; "coeff"; "min_degree1"; "min_degree2"; "scale1"; "scale2"] in
  func (
    parse ;;
    convert "arr_t1" ;;
    convert "arr_t2" ;;
    convert "arr_c0" ;;
    check keywords "ndim" [0; 1] ;;
    check keywords "shape" [0; 1] ;;
    check keywords "last" [2] ;;
    alloc "arr_c" ;;
    fourier2d_init ;;
    when points (use (["arr_t1"; "arr_t2"; "arr_c"; "arr_c0"] ++ f2d_fields)) ;;
    set_ret "arr_c")
   (fourier2d_destroy ;;
    release "arr_t1" ;; release "arr_t2" ;; release "arr_c0" ;; unless_ret (release "arr_c")).

(** pymm_interp.h:71-196; [extrapolate]: the flag is given (line 103) *)
Definition interp (extrapolate : bool) : tree :=
  let keywords := ["time"; "time0"; "coeff0"; "kind"; "extrapolate"] in
  func (
    parse ;;
    when extrapolate truth ;;
    check keywords "kind" [] ;;
    convert "arr_t" ;;
    convert "arr_t0" ;;
    convert "arr_c0" ;;
    check keywords "match" [] ;;
    check keywords "min_nt" [] ;;
    alloc "arr_c" ;;
    use ["arr_t"; "arr_c"; "arr_t0"; "arr_c0"] ;;
    set_ret "arr_c")
   (release "arr_t" ;; release "arr_t0" ;; release "arr_c0" ;; unless_ret (release "arr_c")).

(** pymm_legendre.h:65-159 *)
Definition legendre : tree :=
  let keywords := ["latitude"; "degree"] in
  func (
    parse ;;
    check keywords "degree" [1] ;;
    convert "arr_lat" ;;
    alloc "arr_p" ;;
    alloc "arr_dp" ;;
    alloc "psqrt" ;;
    alloc "prsqrt" ;;
    build ["arr_p"; "arr_dp"] ;;
    use ["arr_lat"; "arr_p"; "arr_dp"; "psqrt"; "prsqrt"])
   (release "prsqrt" ;; release "psqrt" ;;
    release "arr_lat" ;; unless_ret (release "arr_p") ;; unless_ret (release "arr_dp")).

(** pymm_loncossin.h:55-123 *)
Definition loncossin : tree :=
  let keywords := ["longitude"; "degree"; "fast_alg"] in
  func (
    parse ;;
    check keywords "degree" [1] ;;
    convert "arr_lon" ;;
    alloc "arr_cos_sin" ;;
    set_ret "arr_cos_sin" ;;
    use ["arr_lon"; "arr_cos_sin"])
   (release "arr_lon" ;; unless_ret (release "arr_cos_sin")).

(** pymm_relradpow.h:69-148; [flag]: is_internal is given (line 91) *)
Definition relradpow (flag : bool) : tree :=
  let keywords := ["radius"; "degree"; "reference_radius"; "is_internal"] in
  func (
    parse ;;
    when flag truth ;;
    check keywords "degree" [1] ;;
    check keywords "reference_radius" [2] ;;
    convert "arr_rad" ;;
    alloc "arr_rrp" ;;
    set_ret "arr_rrp" ;;
    use ["arr_rad"; "arr_rrp"])
   (release "arr_rad" ;; unless_ret (release "arr_rrp")).

(** pymm_spharpot.h:65-225 *)
Definition spharpot : tree :=
  let keywords := ["radius"; "coef"; "leg_p"; "rpp"; "lcs"; "degree"] in
  func (
    parse ;;
    convert "arr_rad" ;;
    convert "arr_coef" ;;
    convert "arr_lp" ;;
    convert "arr_rrp" ;;
    convert "arr_lcs" ;;
    check keywords "empty" [1; 2; 3; 4] ;;
    check keywords "degree" [] ;;
    check keywords "shape" [0; 1; 2; 3; 4] ;;
    check keywords "pairs" [0; 1; 2; 3; 4] ;;
    alloc "arr_pot" ;;
    set_ret "arr_pot" ;;
    use ["arr_pot"; "arr_rad"; "arr_coef"; "arr_lp"; "arr_rrp"; "arr_lcs"])
   (release "arr_rad" ;; release "arr_coef" ;; release "arr_lp" ;; release "arr_rrp" ;;
    release "arr_lcs" ;; unless_ret (release "arr_pot")).

(** pymm_sphargrd.h:69-255; [flag]: is_internal is given (line 103) *)
Definition sphargrd (flag : bool) : tree :=
  let keywords := ["latitude"; "coef"; "leg_p"; "leg_dp"; "rrp"; "lcs"; "is_internal"; "degree"] in
  func (
    parse ;;
    when flag truth ;;
    convert "arr_lat" ;;
    convert "arr_coef" ;;
    convert "arr_lp" ;;
    convert "arr_ldp" ;;
    convert "arr_rrp" ;;
    convert "arr_lcs" ;;
    check keywords "empty" [1; 2; 3; 4; 5] ;;
    check keywords "degree" [] ;;
    check keywords "shape" [0; 1; 2; 3; 4; 5] ;;
    check keywords "pairs" [0; 1; 2; 3; 4; 5] ;;
    alloc "arr_grd" ;;
    set_ret "arr_grd" ;;
    use ["arr_grd"; "arr_lat"; "arr_coef"; "arr_lp"; "arr_ldp"; "arr_rrp"; "arr_lcs"])
   (release "arr_lat" ;; release "arr_coef" ;; release "arr_lp" ;; release "arr_ldp" ;;
    release "arr_rrp" ;; release "arr_lcs" ;; unless_ret (release "arr_grd")).

(** pymm_sheval.h:48-52: the requested output *)
Inductive mode := Potential | Gradient | Both.

Definition with_pot (m : mode) : bool := match m with Gradient => false | _ => true end.
Definition with_grd (m : mode) : bool := match m with Potential => false | _ => true end.

(** pymm_sheval.h:602-692: the initialisation and the destruction of the structure MODEL *)
Definition model_fields := ["model.lp"; "model.ldp"; "model.lcs"; "model.rrp"; "model.psqrt"; "model.prsqrt"].

Definition model_destroy : stmt := each model_fields release ;; reset model_fields.

Definition model_init : stmt := call (reset model_fields ;; each model_fields alloc) model_destroy.

(** pymm_sheval.h:314-346: the evaluation and the returned value; [args]: the arrays read by it *)
Definition evaluate (m : mode) (points : bool) (args : list string) : stmt :=
  match m with
  | Potential => when points (use ("arr_pot" :: args)) ;; set_ret "arr_pot"
  | Gradient => when points (use ("arr_grd" :: args)) ;; set_ret "arr_grd"
  | Both => when points (use ("arr_pot" :: "arr_grd" :: args)) ;; build ["arr_pot"; "arr_grd"]
  end.

(** pymm_sheval.h:144-360; [flag]: is_internal is given, [scale]: scale_gradient is given; the label
    of the latter is keywords[9] (lines 298 and 301) *)
Definition sheval (m : mode) (flag scale points : bool) : tree :=
  let keywords := ["arr_x"; "coef"; "coord_type_in"; "coord_type_out"; "mode"; "is_internal";
                   "degree"; "scale_potential"; "scale_gradient"] in
  func (
    parse ;;
    when flag truth ;;
    check keywords "ct_in" [2] ;;
    check keywords "ct_out" [3] ;;
    check keywords "mode" [] ;;
    convert "arr_x" ;;
    convert "arr_coef" ;;
    check keywords "empty" [1] ;;
    check keywords "degree" [] ;;
    check keywords "shape" [0; 1] ;;
    check keywords "pairs" [0; 1] ;;
    when (with_pot m) (alloc "arr_pot") ;;
    when (with_grd m) (alloc "arr_grd") ;;
    when scale (convert "arr_scale" ;; check keywords "scale_gradient" [9]) ;;
    model_init ;;
    evaluate m points (["arr_x"; "arr_coef"] ++ model_fields))
   (model_destroy ;;
    release "arr_x" ;; release "arr_coef" ;; release "arr_scale" ;;
    unless_ret (release "arr_grd") ;; unless_ret (release "arr_pot")).

(** pymm_shevaltemp.h:590-641 and pymm_sheval2dfs.h:524-578: the structures MODEL_TS and MODEL_2DFS *)
Definition model_ts_destroy : stmt :=
  release "model.coef" ;; model_destroy ;; reset ("model.coef" :: model_fields).

Definition model_ts_init : stmt :=
  call (reset ("model.coef" :: model_fields) ;; model_init ;; alloc "model.coef") model_ts_destroy.

(** pymm_shevaltemp.h:646-724: the structure COEF_SET *)
Definition coefset_fields := ["offset"; "arr_ct"; "arr_cv"; "arr_cm"].

Definition coefset_destroy : stmt := each (map (append "set.") coefset_fields) release ;;
  reset (map (append "set.") coefset_fields).

Definition coefset_init (i : nat) : stmt :=
  call (
    reset (map (append "set.") coefset_fields) ;;
    store "set.arr_ct" "arr_ct" ;;
    store "set.arr_cv" "arr_cv" ;;
    store "set.arr_cm" "arr_cm" ;;
    alloc_i i "offset" ;;
    store "set.offset" "offset" ;;
    check_i i [] "init_spline_order" [])
   coefset_destroy.

(** pymm_shevaltemp.h:371-459: the handler of the errors does not cover the last call (line 451) *)
Definition parse_coefset (i : nat) : stmt :=
  let keywords := ["coef_t"; "coef_gh"; "coef_nm"; "spline_order"] in
  call (
    check_i i keywords "tuple" [] ;;
    check_i i keywords "size" [] ;;
    check_i i keywords "spline_order" [] ;;
    convert_i i "arr_ct" ;;
    convert_i i "arr_cv" ;;
    convert_i i "arr_cm" ;;
    check_i i keywords "rows" [] ;;
    check_i i keywords "columns" [] ;;
    check_i i keywords "pairs" [])
   (release "arr_ct" ;; release "arr_cv" ;; release "arr_cm") ;;
  coefset_init i.

(** pymm_shevaltemp.h:234-247: the loop over the list; the set is destroyed by the caller if it has
    been counted (line 243).  The locals of [parse_coefset] are gone when it returns. *)
Definition with_locals (body : stmt) (p : pointers) (after : pointers -> state -> state) : stmt :=
  fun s => bind (body (set_ptrs p s)) (fun r => End
    match r with
    | Next s' => Next (after (ptrs s') (set_ptrs (ptrs s) s'))
    | Exit s' => Exit (set_ptrs (ptrs s) s')
    | r => r
    end).

Definition push (p : pointers) (s : state) : state := set_sets (sets s ++ [p]) s.

Fixpoint parse_coefsets (i n : nat) : stmt :=
  match n with
  | 0 => skip
  | S n => with_locals (parse_coefset i) null push ;; parse_coefsets (S i) n
  end.

(** pymm_shevaltemp.h:353-358 *)
Definition destroy_coefsets : stmt := fun s =>
  fold_right (fun p r => with_locals coefset_destroy p (fun _ s => s) ;; r) skip (sets s) s.

(** pymm_shevaltemp.h:464-476: the evaluation reads the arrays of the sets *)
Definition use_coefsets : stmt := fun s =>
  fold_right (fun p r => with_locals (use (map (append "set.") coefset_fields)) p (fun _ s => s) ;; r)
    skip (sets s) s.

(** pymm_shevaltemp.h:167-368; [nset]: the length of the list *)
Definition shevaltemp (nset : nat) (m : mode) (flag scale points : bool) : tree :=
  let keywords := ["arr_t"; "arr_x"; "coef_set_list"; "coord_type_in"; "coord_type_out"; "mode";
                   "is_internal"; "scale_potential"; "scale_gradient"] in
  func (
    parse ;;
    when flag truth ;;
    check keywords "ct_in" [3] ;;
    check keywords "ct_out" [4] ;;
    check keywords "mode" [] ;;
    check keywords "list" [2] ;;
    check keywords "not_empty" [2] ;;
    check keywords "max_size" [2] ;;
    parse_coefsets 0 nset ;;
    convert "arr_t" ;;
    convert "arr_x" ;;
    check keywords "degree" [] ;;
    check keywords "last" [1] ;;
    check keywords "shape" [0; 1] ;;
    when scale (convert "arr_scale" ;; check keywords "scale_gradient" [8]) ;;
    when (with_pot m) (alloc "arr_pot") ;;
    when (with_grd m) (alloc "arr_grd") ;;
    model_ts_init ;;
    when points use_coefsets ;;
    evaluate m points (["arr_t"; "arr_x"; "model.coef"] ++ model_fields))
   (model_ts_destroy ;; destroy_coefsets ;;
    release "arr_t" ;; release "arr_x" ;; release "arr_scale" ;;
    unless_ret (release "arr_grd") ;; unless_ret (release "arr_pot")).

(** pymm_sheval2dfs.h:583-600: the offsets are not released *)
Definition f2d_coefset_destroy : stmt :=
  release "set.arr_ab" ;; release "set.arr_cm" ;;
  fourier2d_destroy ;;
  reset (["set.arr_ab"; "set.arr_cm"; "set.offset"] ++ f2d_fields).

(** pymm_sheval2dfs.h:604-654 *)
Definition f2d_coefset_init : stmt :=
  call (
    store "set.arr_ab" "arr_ab" ;;
    store "set.arr_cm" "arr_cm" ;;
    alloc "offset" ;;
    store "set.offset" "offset" ;;
    fourier2d_init)
   f2d_coefset_destroy.

(** pymm_sheval2dfs.h:659-757 *)
Definition f2d_coefset_parse : stmt :=
  let keywords := ["coef_ab"; "coef_cm"; "min_degree1"; "min_degree2"; "scale1"; "scale2"] in
  call (
    check keywords "tuple" [] ;;
    check keywords "size" [] ;;
    check keywords "min_degree1" [] ;;
    check keywords "min_degree2" [] ;;
    check keywords "scale1" [] ;;
    check keywords "scale2" [] ;;
    convert "arr_ab" ;;
    convert "arr_cm" ;;
    check keywords "ab" [1] ;;
    check keywords "cm" [1] ;;
    check keywords "rows" [0; 1])
   (release "arr_ab" ;; release "arr_cm") ;;
  f2d_coefset_init.

(** The arrays of the set are read (the offsets and the degrees and orders: if there is any). *)
Definition use_f2d : stmt := use f2d_fields.

(** pymm_sheval2dfs.h:150-362; the status of the parsing of the set is ignored (line 247) *)
Definition sheval2dfs (m : mode) (flag scale points : bool) : tree :=
  let keywords := ["arr_t1"; "arr_t2"; "arr_x"; "coef_set"; "coord_type_in"; "coord_type_out"; "mode";
                   "is_internal"; "scale_potential"; "scale_gradient"] in
  func (
    parse ;;
    when flag truth ;;
    check keywords "ct_in" [4] ;;
    check keywords "ct_out" [5] ;;
    check keywords "mode" [] ;;
    convert "arr_t1" ;;
    convert "arr_t2" ;;
    convert "arr_x" ;;
    check keywords "shape_t1_t2" [0; 1] ;;
    check keywords "shape_t1_x" [0; 2] ;;
    check keywords "shape_t2_x" [1; 2] ;;
    check keywords "last" [2] ;;
    call_ignored f2d_coefset_parse skip ;;
    check keywords "degree" [] ;;
    when scale (convert "arr_scale" ;; check keywords "scale_gradient" [9]) ;;
    when (with_pot m) (alloc "arr_pot") ;;
    when (with_grd m) (alloc "arr_grd") ;;
    model_ts_init ;;
    when points use_f2d ;;
    evaluate m points (["arr_t1"; "arr_t2"; "arr_x"; "model.coef"] ++ model_fields))
   (model_ts_destroy ;; f2d_coefset_destroy ;;
    release "arr_t1" ;; release "arr_t2" ;; release "arr_x" ;; release "arr_scale" ;;
    unless_ret (release "arr_grd") ;; unless_ret (release "arr_pot")).

(** pymm_vrot_cart2sph.h:92-160 and pymm_vrot_sph2cart.h:92-160 *)
Definition vrot2 : tree :=
  let keywords := ["arr_in"; "arr_lat"; "arr_lon"] in
  func (
    parse ;;
    convert "arr_in" ;;
    convert "arr_lat" ;;
    convert "arr_lon" ;;
    check keywords "ndim" [0] ;;
    check keywords "last" [0] ;;
    check keywords "lat" [0; 1] ;;
    check keywords "lon" [0; 2] ;;
    alloc "arr_out" ;;
    use ["arr_in"; "arr_lat"; "arr_lon"; "arr_out"] ;;
    set_ret "arr_out")
   (release "arr_in" ;; release "arr_lat" ;; release "arr_lon" ;; unless_ret (release "arr_out")).

(** pymm_vrot_sph2geod.h:88-146 *)
Definition vrot_sph2geod : tree :=
  let keywords := ["arr_in"; "arr_dlat"] in
  func (
    parse ;;
    convert "arr_in" ;;
    convert "arr_dlat" ;;
    check keywords "ndim" [0] ;;
    check keywords "last" [0] ;;
    check keywords "dlat" [0; 1] ;;
    alloc "arr_out" ;;
    use ["arr_in"; "arr_dlat"; "arr_out"] ;;
    set_ret "arr_out")
   (release "arr_in" ;; release "arr_dlat" ;; unless_ret (release "arr_out")).

(** pyqd_eval_mlt.h:48-114 *)
Definition eval_mlt : tree :=
  let keywords := ["qdlon"; "time"] in
  func (
    parse ;;
    convert "arr_qdlon" ;;
    convert "arr_time" ;;
    check keywords "shape" [1] ;;
    alloc "arr_mlt" ;;
    use ["arr_mlt"; "arr_qdlon"; "arr_time"] ;;
    check keywords "status" [] ;;
    set_ret "arr_mlt")
   (release "arr_qdlon" ;; release "arr_time" ;; unless_ret (release "arr_mlt")).

(** pyqd_eval_qdlatlon.h:58-243; [flag]: eval_base is given, [base]: the base vectors are requested
    (line 102: a failure of PyObject_IsTrue counts as false, the exception is left set) *)
Definition eval_qdlatlon (flag base : bool) : tree :=
  let keywords := ["gclat"; "gclon"; "gcrad"; "time"; "fname"; "eval_base"] in
  let vectors := ["arr_f11"; "arr_f12"; "arr_f21"; "arr_f22"; "arr_f"] in
  func (
    parse ;;
    check keywords "fname" [] ;;
    when flag truth ;;
    convert "arr_gclat" ;;
    convert "arr_gclon" ;;
    convert "arr_gcrad" ;;
    convert "arr_time" ;;
    check keywords "gclon" [1] ;;
    check keywords "gcrad" [2] ;;
    check keywords "time" [3] ;;
    alloc "arr_qdlat" ;;
    alloc "arr_qdlon" ;;
    when base (each vectors alloc) ;;
    use (["arr_qdlat"; "arr_qdlon"] ++ (if base then vectors else []) ++
         ["arr_time"; "arr_gcrad"; "arr_gclat"; "arr_gclon"]) ;;
    check keywords "status" [] ;;
    build (["arr_qdlat"; "arr_qdlon"] ++ (if base then vectors else [])))
   (release "arr_gclat" ;; release "arr_gclon" ;; release "arr_gcrad" ;; release "arr_time" ;;
    unless_ret (each (["arr_qdlat"; "arr_qdlon"] ++ vectors) release)).

(** pyqd_eval_subsol.h:48-112 *)
Definition eval_subsol : tree :=
  let keywords := ["time"] in
  func (
    parse ;;
    convert "arr_time" ;;
    alloc "arr_gdlat" ;;
    alloc "arr_gdlon" ;;
    use ["arr_gdlat"; "arr_gdlon"; "arr_time"] ;;
    check keywords "status" [] ;;
    build ["arr_gdlat"; "arr_gdlon"])
   (release "arr_time" ;; unless_ret (release "arr_gdlat" ;; release "arr_gdlon")).

(** pysunpos.h:124-243 and pysunpos_original.h:137-282; [args]: the arguments *)
Definition sunpos_like (keywords args : list string) : tree :=
  func (
    parse ;;
    each args convert ;;
    check keywords "ndim" (List.seq 0 (List.length args)) ;;
    each args (fun a => check keywords a (List.seq 0 (List.length args))) ;;
    alloc "arr_out" ;;
    use (args ++ ["arr_out"]) ;;
    set_ret "arr_out")
   (each args release ;; unless_ret (release "arr_out")).

Definition sunpos : tree :=
  sunpos_like ["time_mjd2k"; "lat"; "lon"; "rad"; "dtt"]
    ["arr_mjd"; "arr_lat"; "arr_lon"; "arr_rad"; "arr_dtt"].

Definition sunpos_original : tree :=
  sunpos_like ["time_mjd2k"; "lat"; "lon"; "rad"; "dtt"; "pres"; "temp"]
    ["arr_mjd"; "arr_lat"; "arr_lon"; "arr_rad"; "arr_dtt"; "arr_pres"; "arr_temp"].

(** pytimeconv_decimal_year_to_mjd2000.h:74-123, pytimeconv_mjd2000_to_decimal_year.h:74-123 and
    pytimeconv_mjd2000_to_year_fraction.h:74-123 *)
Definition timeconv : tree :=
  let keywords := ["time_mjd2k"] in
  func (
    parse ;;
    convert "arr_in" ;;
    check keywords "ndim" [0] ;;
    alloc "arr_out" ;;
    use ["arr_in"; "arr_out"] ;;
    set_ret "arr_out")
   (release "arr_in" ;; unless_ret (release "arr_out")).

(** The functions of the modules _pymm, _pyqd, _pysunpos and _pytimeconv (pymm.c:86-103, pyqd.c:61-66,
    pysunpos.c:53-57, pytimeconv.c:54-59). *)
Inductive function :=
| Bisect | Convert_ (identity : bool) | Fourier2d (points : bool) | Interp (extrapolate : bool)
| Legendre | Loncossin | Relradpow (flag : bool) | Spharpot | Sphargrd (flag : bool)
| Sheval (m : mode) (flag scale points : bool)
| Shevaltemp (nset : nat) (m : mode) (flag scale points : bool)
| Sheval2dfs (m : mode) (flag scale points : bool)
| Vrot_sph2cart | Vrot_cart2sph | Vrot_sph2geod
| Eval_mlt | Eval_qdlatlon (flag base : bool) | Eval_subsol
| Sunpos | Sunpos_original
| Decimal_year_to_mjd2000 | Mjd2000_to_decimal_year | Mjd2000_to_year_fraction.

Definition executions (f : function) : tree :=
  match f with
  | Bisect => bisect
  | Convert_ identity => cconv identity
  | Fourier2d points => fourier2d points
  | Interp extrapolate => interp extrapolate
  | Legendre => legendre
  | Loncossin => loncossin
  | Relradpow flag => relradpow flag
  | Spharpot => spharpot
  | Sphargrd flag => sphargrd flag
  | Sheval m flag scale points => sheval m flag scale points
  | Shevaltemp nset m flag scale points => shevaltemp nset m flag scale points
  | Sheval2dfs m flag scale points => sheval2dfs m flag scale points
  | Vrot_sph2cart | Vrot_cart2sph => vrot2
  | Vrot_sph2geod => vrot_sph2geod
  | Eval_mlt => eval_mlt
  | Eval_qdlatlon flag base => eval_qdlatlon flag base
  | Eval_subsol => eval_subsol
  | Sunpos => sunpos
  | Sunpos_original => sunpos_original
  | Decimal_year_to_mjd2000 | Mjd2000_to_decimal_year | Mjd2000_to_year_fraction => timeconv
  end.

(** A call of the function, the failures being decided by the oracle. *)
Definition run (f : function) (o : oracle) : outcome := exec o (executions f).
