(** Model of the Python interface of the quasi-dipole library: quasi_dipole_coordinates.py,
    pyqd_eval_qdlatlon.h, pyqd_eval_mlt.h, pyqd_eval_subsol.h and qdipole/cqdipole.c.

    The arrays are those after the conversion to C-contiguous arrays of doubles: a shape and
    the list of the elements.  The names of the files do not contain the character NUL (they
    are then the same for Python, C and Fortran).  The
    characters are bytes.  Failures of the allocations are left out, and the length of the name in
    the declaration of eval_qdlatlonvb (character*256, eval_qdlatlon.f90:111) is taken to be the
    one of the subroutine it is passed to (1023). *)

From Coq Require Import Bool List String Reals Arith ZArith.
From Verif Require Import QdSunModel QdMltModel QdApexModel.
Import ListNotations.
Open Scope nat_scope.

Record ndarray (A : Type) := { nd_shape : list nat; nd_values : list A }.
Arguments nd_shape {A}.
Arguments nd_values {A}.

(** The exceptions *)
Inductive qd_error := IOError | RuntimeError | ValueError.
Inductive py_result (A : Type) := Value (a : A) | Raises (e : qd_error).
Arguments Value {A} a.
Arguments Raises {A} e.

(** _get_as_double_array(obj, 0, 1, ...), pymm_aux.h:102-132: at most one dimension *)
Definition as_double_array {A} (a : ndarray A) : py_result (ndarray A) :=
  if Nat.ltb 1 (List.length (nd_shape a)) then Raises ValueError else Value a.

(** pymm_aux.h:209-233, the loop over the dimensions; whether there is an error *)
Fixpoint dims_differ (ds dims : list nat) : bool :=
  match ds, dims with
  | d :: ds', r :: dims' => if Nat.eqb d r then dims_differ ds' dims' else true
  | _, _ => false
  end.

(** pymm_aux.h:209-233, _check_arr_dims_all_eq *)
Definition check_arr_dims_all_eq {A} (arr : ndarray A) (dims : list nat) : py_result unit :=
  if negb (Nat.eqb (List.length (nd_shape arr)) (List.length dims)) then Raises ValueError
  else if dims_differ (nd_shape arr) dims then Raises ValueError
  else Value tt.

(** The conversion of the size (npy_intp) to the argument const int n_data of cqdipole.c *)
Definition int_of_size (n : Z) : Z := ((n + 2 ^ 31) mod 2 ^ 32 - 2 ^ 31)%Z.

(** The size passed to the C functions: ndim == 0 ? 1 : dims[0] *)
Definition n_data (dims : list nat) : Z :=
  int_of_size (match dims with [] => 1 | d :: _ => Z.of_nat d end).

(** The number of the passes of the loops do i = 1, n_data *)
Definition passes (dims : list nat) : nat := Z.to_nat (n_data dims).

(** An output array: PyArray_EMPTY of the shape [dims], whose elements have the values [junk],
    and the first of them set to [values] *)
Definition output {A} (junk : nat -> A) (dims : list nat) (values : list A) : ndarray A :=
  {| nd_shape := dims;
     nd_values := map (fun i => nth i values (junk i))
                      (seq 0 (match dims with [] => 1 | d :: _ => d end)) |}.

(** The points of the arrays of the same size *)
Fixpoint zip_points (time : list (option R)) (gcrad gclat gclon : list R) : list point :=
  match time, gcrad, gclat, gclon with
  | t :: time', r :: gcrad', la :: gclat', lo :: gclon' =>
      {| t_dy := t; gcrad := r; gclat := la; gclon := lo |} :: zip_points time' gcrad' gclat' gclon'
  | _, _, _, _ => []
  end.

(** qdipole/cqdipole.c:40, MAX_PATH_LENGTH *)
Definition max_fname_length : nat := 1023.

Definition bind_py {A B} (r : py_result A) (f : A -> B) (raises : qd_error -> B) : B :=
  match r with Value a => f a | Raises e => raises e end.
Local Notation "'do' x <- r ; e" := (bind_py r (fun x => e) (fun er => Returns (Raises er, None)))
  (at level 200, x name).

(** pyqd_eval_qdlatlon.h:58-241 with cqdipole.c:93-133, the function of the module _pyqd.  The
    result are the arrays of the latitudes, the longitudes and the base vectors (the five arrays
    of their components as one array of records; not returned without the flag), and the new state of the library, [None] when it was not called;
    [Terminated] when the process ends.  [junk] is the content of the new arrays. *)
Definition c_eval_qdlatlon (any : unset) (junk : nat -> R) (junk_base : nat -> base_vectors)
  (fs : files) (gclat gclon gcrad : ndarray R) (time : ndarray (option R)) (fname : string)
  (eval_base : bool) (st : apex)
  : outcome (py_result (ndarray R * ndarray R * option (ndarray base_vectors)) * option apex) :=
  (* 95-102; cqdipole.c:103 and 125 do the same check again *)
  if Nat.ltb max_fname_length (String.length fname) then Returns (Raises RuntimeError, None)
  else
    do arr_gclat <- as_double_array gclat;                              (* 109-119 *)
    do arr_gclon <- as_double_array gclon;
    do arr_gcrad <- as_double_array gcrad;
    do arr_time <- as_double_array time;
    let dims := nd_shape arr_gclat in                                   (* 122-123 *)
    do _ <- check_arr_dims_all_eq arr_gclon dims;                       (* 125-132 *)
    do _ <- check_arr_dims_all_eq arr_gcrad dims;
    do _ <- check_arr_dims_all_eq arr_time dims;
    let points := firstn (passes dims)
      (zip_points (nd_values arr_time) (nd_values arr_gcrad) (nd_values arr_gclat) (nd_values arr_gclon)) in
    match eval_qdlatlon any eval_base fs fname points st with
    | Terminated => Terminated
    | Returns (values, st') =>
        Returns (Value (output junk dims (map (fun v => fst (fst v)) values),
                        output junk dims (map (fun v => snd (fst v)) values),
                        if eval_base then Some (output junk_base dims (map snd values)) else None),
                 Some st')
    end.

(** quasi_dipole_coordinates.py:43-61 and 64-87: both functions.  isfile(fname) is whether there
    is a file of this name. *)
Definition py_eval_qdlatlon (any : unset) (junk : nat -> R) (junk_base : nat -> base_vectors)
  (fs : files) (gclat gclon gcrad : ndarray R) (time : ndarray (option R)) (fname : string)
  (eval_base : bool) (st : apex)
  : outcome (py_result (ndarray R * ndarray R * option (ndarray base_vectors)) * option apex) :=
  match fs fname with
  | None => Returns (Raises IOError, None)
  | Some _ => c_eval_qdlatlon any junk junk_base fs gclat gclon gcrad time fname eval_base st
  end.

(** pyqd_eval_subsol.h:48-111, cqdipole.c:83-90, quasi_dipole_coordinates.py:104-115 *)
Definition py_eval_subsol (junk : nat -> R) (time : ndarray R)
  : outcome (py_result (ndarray R * ndarray R)) :=
  match as_double_array time with
  | Raises e => Returns (Raises e)
  | Value arr_time =>
      let dims := nd_shape arr_time in
      match eval_subsol (firstn (passes dims) (nd_values arr_time)) with
      | Terminated => Terminated
      | Returns ps => Returns (Value (output junk dims (map fst ps), output junk dims (map snd ps)))
      end
  end.

(** pyqd_eval_mlt.h:48-112, cqdipole.c:71-78, quasi_dipole_coordinates.py:90-101 *)
Definition py_eval_mlt (any : R * R) (junk : nat -> R) (qdlon time : ndarray R) (saved : magcof)
  : outcome (py_result (ndarray R) * option magcof) :=
  do arr_qdlon <- as_double_array qdlon;
  do arr_time <- as_double_array time;
  let dims := nd_shape arr_qdlon in
  do _ <- check_arr_dims_all_eq arr_time dims;
  match eval_mlt any (firstn (passes dims) (combine (nd_values arr_qdlon) (nd_values arr_time))) saved with
  | Terminated => Terminated
  | Returns (mlts, saved') => Returns (Value (output junk dims mlts), Some saved')
  end.
