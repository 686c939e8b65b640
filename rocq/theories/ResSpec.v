(** What a call of an extension function has to leave behind. *)
From Coq Require Import List String Bool.
From Verif Require Import ResModel.
Import ListNotations.
Local Open Scope string_scope.

(** The call ends without undefined behaviour, and
    - either returns a new reference, with no exception set, and owns nothing else any more,
    - or returns NULL with an exception set, and owns nothing any more. *)
Definition clean (r : outcome) : Prop := exists s, r = Next s /\
  match retval s with
  | Some t => live s = [t] /\ raised s = false
  | None => live s = [] /\ raised s = true
  end.

(** The call ends with undefined behaviour. *)
Definition crashes (r : outcome) : Prop := r = Crash.

(** The call returns a value and leaves the references and the buffers [l] unreleased. *)
Definition leaks (l : list token) (r : outcome) : Prop := exists s t, r = Next s /\
  retval s = Some t /\ live s = t :: l /\ raised s = false.

(** The call returns a value although an exception is set (the interpreter raises SystemError). *)
Definition returns_with_exception (r : outcome) : Prop := exists s t, r = Next s /\
  retval s = Some t /\ raised s = true.

(** Does the function return a tuple? *)
Definition returns_tuple (f : function) : bool :=
  match f with
  | Legendre | Eval_subsol | Eval_qdlatlon _ _ => true
  | Sheval m _ _ _ | Shevaltemp _ m _ _ _ | Sheval2dfs m _ _ _ => match m with Both => true | _ => false end
  | _ => false
  end.

(** Is a flag to be tested for its truth given? *)
Definition flag_given (f : function) : bool :=
  match f with
  | Interp flag | Relradpow flag | Sphargrd flag | Sheval _ flag _ _ | Shevaltemp _ _ flag _ _
  | Sheval2dfs _ flag _ _ | Eval_qdlatlon flag _ => flag
  | _ => false
  end.

Definition is_sheval2dfs (f : function) : bool := match f with Sheval2dfs _ _ _ _ => true | _ => false end.

(** The argument scale_gradient is given to sheval. *)
Definition sheval_scale (f : function) : bool := match f with Sheval _ _ scale _ => scale | _ => false end.

(** All the steps succeed but [q]. *)
Definition all_but (q : site) : oracle := fun q' _ =>
  match q, q' with
  | Parse, Parse | Truth, Truth | Tuple, Tuple => false
  | Convert v, Convert w | Check v, Check w | Alloc v, Alloc w => negb (String.eqb v w)
  | _, _ => true
  end.

(** As [clean], but [x] may be left unreleased. *)
Definition clean_but (x : token) (r : outcome) : Prop := exists s, r = Next s /\
  match retval s with
  | Some t => (live s = [t] \/ live s = [t; x]) /\ raised s = false
  | None => (live s = [] \/ live s = [x]) /\ raised s = true
  end.

(** The steps of the parsing of the set of coefficients of sheval2dfs which may fail. *)
Definition set_sites : list site :=
  [Check "tuple"; Check "size"; Check "min_degree1"; Check "min_degree2"; Check "scale1"; Check "scale2";
   Convert "arr_ab"; Convert "arr_cm"; Check "ab"; Check "cm"; Check "rows"; Alloc "offset";
   Alloc "f2d.cos_sin_tmp"; Alloc "f2d.cos_sin_1"; Alloc "f2d.cos_sin_2"; Alloc "f2d.cos_sin_12"].

(** The steps which may fail of the execution, in their order. *)
Fixpoint asked (o : oracle) (t : tree) : list (site * nat) :=
  match t with
  | End _ => []
  | Ask q i yes no => (q, i) :: asked o (if o q i then yes else no)
  end.

(** The call returns a value and no exception. *)
Definition succeeded (r : outcome) : Prop := exists s t, r = Next s /\ retval s = Some t /\ raised s = false.
