(** Concrete calls. *)
From Coq Require Import Bool List String Arith ZArith Reals Lia Permutation.
From Verif Require Import CallModel CallSpec CallProofs.
Import ListNotations.
Local Open Scope string_scope.

Inductive ex_obj := AnInt (z : Z) | AFloat (x : R) | AString (s : string) | AnArray (size : nat).
Inductive ex_exn := ExType | ExOverflow | ExSystem | ExValue.

(** Integers are numbers as well; the truth value of an array of more items is not defined *)
Definition ex_py : python ex_obj ex_exn := {|
  type_error := ExType; overflow_error := ExOverflow; system_error := ExSystem;
  long_of := fun o => match o with AnInt z => inl z | _ => inr ExType end;
  double_of := fun o => match o with AnInt z => inl (IZR z) | AFloat x => inl x | _ => inr ExType end;
  text_of := fun o => match o with AString s => inl s | _ => inr ExType end;
  truth_of := fun o => match o with
    | AnInt z => inl (negb (Z.eqb z 0))
    | AString s => inl (negb (String.eqb s ""))
    | AFloat _ => inl true
    | AnArray 1 => inl true
    | AnArray _ => inr ExValue
    end |}.

(** loncossin(lon, fast_alg=0, degree=5) *)
Lemma ex_loncossin : exists ps, In ("loncossin", ps) documented_plain /\
  well_called ps [AnArray 7] [("fast_alg", AnInt 0); ("degree", AnInt 5)] /\
  call_function ex_py "loncossin" [AnArray 7] [("fast_alg", AnInt 0); ("degree", AnInt 5)] =
    Some (Continues [Object (AnArray 7); Integer 5; Integer 0] None).
Proof.
  eexists. split; [right; right; right; left; reflexivity|]. split; [|reflexivity]. split.
  - cbn; lia.
  - intros k o [E|[E|[]]]; injection E as <- <-.
    + exists 2%nat. eexists. split; [reflexivity|]. split; [reflexivity|cbn; lia].
    + exists 1%nat. eexists. split; [reflexivity|]. split; [reflexivity|cbn; lia].
  - intros [|[|[|i]]] p Ep Dp; cbn in Ep.
    + eexists. left. reflexivity.
    + injection Ep as <-. eexists. right. split; [cbn; lia|right; left; reflexivity].
    + injection Ep as <-. discriminate Dp.
    + destruct i; discriminate Ep.
Qed.

(** Calls which are refused: too many arguments, a missing one, an unknown name, one passed twice, a
    float for an integer, an integer which does not fit *)
Lemma ex_refused :
  call_function ex_py "legendre" [AnArray 1; AnInt 5; AnInt 6] [] = Some (Raises ExType) /\
  call_function ex_py "legendre" [] [("degree", AnInt 5)] = Some (Raises ExType) /\
  call_function ex_py "legendre" [AnArray 1] [("order", AnInt 5)] = Some (Raises ExType) /\
  call_function ex_py "bisect" [AnArray 1; AnArray 1] [("x", AnArray 1)] = Some (Raises ExType) /\
  call_function ex_py "legendre" [AnArray 1; AFloat 5] [] = Some (Raises ExType) /\
  call_function ex_py "legendre" [AnArray 1; AnInt (2 ^ 31)] [] = Some (Raises ExOverflow) /\
  call_function ex_py "legendre" [AnArray 1; AnInt (- 2 ^ 31)] [] =
    Some (Continues [Object (AnArray 1); Integer (- 2 ^ 31)] None).
Proof. repeat split; reflexivity. Qed.

(** The defaults of sheval *)
Lemma ex_sheval : call_function ex_py "sheval" [AnArray 3; AnArray 6] [("is_internal", AnInt 0)] =
  Some (Continues [Object (AnArray 3); Object (AnArray 6); Integer 0; Integer 0; Integer 2; Flag false;
                   Integer (-1); Double 1; Missing] None).
Proof. reflexivity. Qed.

(** interp(t, t0, c0, extrapolate=array): the exception is not noticed *)
Lemma ex_interp : call_function ex_py "interp" [AnArray 1; AnArray 2; AnArray 2] [("extrapolate", AnArray 2)] =
  Some (Continues [Object (AnArray 1); Object (AnArray 2); Object (AnArray 2); Integer 1; Flag true] (Some ExValue)).
Proof. reflexivity. Qed.

Lemma flags_refuted : ~ (forall name ps, In (name, ps) documented_flags -> conforms ex_py name ps).
Proof.
  intros C.
  set (ps := [object "time"; object "time0"; object "coeff0"; optional "kind" AnInteger (DInteger 1);
              optional "extrapolate" ATruth (DTruth false)]).
  assert (I : In ("interp", ps) documented_flags) by (do 5 right; left; reflexivity).
  specialize (C "interp" ps I [AnArray 1; AnArray 2; AnArray 2] [("extrapolate", AnArray 2)]).
  destruct C as (r & E & _ & C2 & _); [constructor; [intros []|constructor]|].
  rewrite ex_interp in E. injection E as <-.
  assert (W : well_called ps [AnArray 1; AnArray 2; AnArray 2] [("extrapolate", AnArray 2)]).
  { split.
    - cbn; lia.
    - intros k o [E|[]]. injection E as <- <-. exists 4%nat. eexists. split; [reflexivity|]. split; [reflexivity|cbn; lia].
    - intros [|[|[|[|[|i]]]]] p Ep Dp; cbn in Ep; try (injection Ep as <-; discriminate Dp).
      + eexists. left. reflexivity.
      + eexists. left. reflexivity.
      + eexists. left. reflexivity.
      + destruct i; discriminate Ep. }
  specialize (C2 W 4%nat _ (AnArray 2) ExValue eq_refl).
  assert (X : Continues [Object (AnArray 1); Object (AnArray 2); Object (AnArray 2); Integer 1; Flag true] (Some ExValue)
              = @Raises ex_obj ex_exn ExValue); [|discriminate X].
  apply C2.
  - right. split; [cbn; lia|left; reflexivity].
  - reflexivity.
  - intros [|[|[|[|j]]]] p o e L Ep Pa; cbn in Ep; [| | | |lia]; injection Ep as <-.
    + intros [].
    + intros [].
    + intros [].
    + exfalso. destruct Pa as [Pa|[_ [Pa|[]]]]; discriminate Pa.
Qed.
